-Q theories Verif
theories/Spec.v
theories/Base.v
theories/Num.v
theories/Splits.v
theories/SplitsProofs.v
theories/Geo.v
theories/Interp.v
theories/Legacy.v
theories/PlProofs.v
theories/InterpProofs.v
theories/LegacyProofs.v
theories/GeoProofs.v
theories/GeoAgree.v
theories/LegacyInst.v
theories/LegacyTie.v
theories/BorderProofs.v
theories/Chunks.v
theories/ChunksProofs.v
theories/Multilinear.v
theories/MultilinearProofs.v
theories/Mem.v
theories/Modis.v
theories/ModisProofs.v
theories/ModisOob.v
theories/ModisAngles.v
theories/SimpleModis.v
theories/SimpleModisProofs.v
theories/SimpleModisOob.v
theories/SimpleModisReal.v
theories/Mapblocks.v
theories/MapblocksProofs.v
theories/Basic.v
theories/Vii.v
theories/ViiProofs.v
theories/PropsSplits.v
theories/PropsInterp.v
theories/PropsLegacy.v
theories/PropsGeo.v
theories/PropsChunks.v
theories/PropsMultilinear.v
theories/PropsVii.v
theories/PropsModis.v
theories/PropsSimple.v
theories/LegacyRows.v
theories/PropsModisValues.v
theories/PropsLegacyRows.v
theories/PropsMapblocks.v
theories/PropsChunksKept.v
theories/PropsMixed.v
theories/PropsAngleHeights.v
theories/PropsBasic.v
theories/PropsBasicInput.v
theories/PiBound.v
theories/Float.v
theories/FloatGeo.v
theories/PropsFloat.v
theories/FloatAcc.v
theories/PropsFloatAcc.v
theories/FloatTrip.v
theories/PropsFloatTrip.v
theories/FloatNear.v
theories/FloatModis.v
theories/FloatPixel.v
theories/PropsFloatModis.v
theories/PropsFloatTie.v
theories/PropsReach.v
theories/FloatSimple.v
theories/PropsFloatSimple.v
theories/FloatMultilinear.v
theories/PropsFloatMultilinear.v
theories/MultilinearClass.v
theories/PropsMultilinearClass.v
theories/PropsAnyOrder.v
theories/FloatVii.v
theories/PropsFloatVii.v
theories/PropsFloatVii32.v
theories/PropsFloatGeoGrid32.v
theories/GridLinear.v
theories/PropsGridLinear.v
theories/PropsSag.v
theories/PropsBilinear.v
theories/FloatGrid.v
theories/PropsFloatGrid.v
theories/PropsFloatGridInt.v
theories/GridSingle.v
theories/FloatGrid32.v
theories/PropsFloatGrid32.v
theories/Cubic.v
theories/CubicProofs.v
theories/PropsCubic.v
theories/LegacyCubic.v
theories/PropsLegacyCubic.v
theories/SplineGrid.v
theories/PropsSplineGrid.v
theories/PropsAccuracy.v
theories/PropsGround.v
theories/Version.v
theories/PropsVersion.v
theories/PropsSymmetry.v
theories/PropsFailure.v
theories/PropsViiDims.v
theories/PropsScanAcc.v
theories/PropsViewing.v
theories/InterpObj.v
theories/PropsInterpObj.v
theories/Approx.v
theories/ConformanceData.v
theories/Conformance.v
theories/ConformanceTests.v
theories/PropsFloatGeoGrid.v
theories/PropsBorderOrder.v
theories/VersionFile.v
theories/PropsVersionFile.v
theories/FloatSimple64.v
theories/PropsFloatSimple64.v
theories/CasesVii.v
theories/CasesModis.v
theories/CasesChunks.v
theories/CasesMultilinear.v
theories/CasesReal.v
theories/CasesObjects.v
theories/Borders.v
theories/FloatBorders.v
theories/PropsFloatBorders.v
theories/PropsFloatGround.v
theories/PropsFloatGround32.v
theories/PropsFloatBasic.v
theories/PropsBasicAcc.v
theories/PropsScales.v
theories/PropsViiPieces.v
theories/PropsLinear.v
theories/PropsOrientation.v
theories/PropsStable.v
theories/PropsNear.v
theories/PropsTwoSteps.v
theories/PropsFiveDim.v
theories/PropsMonotone.v
theories/PropsUnits.v
theories/PropsCrop.v
theories/ViiSingle.v
theories/ViiCoords.v
theories/PropsViiCoords.v
