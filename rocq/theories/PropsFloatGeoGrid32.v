(** C143: GeoGridInterpolator on float32 arrays, from longitudes and latitudes to longitudes and latitudes. *)
From Coq Require Import ZArith List Bool Arith Lia Reals Lra.
From Flocq.Core Require Import Core.
From Verif Require Import Spec Base Num Geo GeoProofs Chunks ChunksProofs GridLinear GridSingle PropsGeo PropsChunks PropsGridLinear.
From Verif Require Import PropsFloat Float FloatGeo FloatAcc PropsFloatAcc FloatTrip PropsFloatTrip FloatNear FloatGrid FloatVii PropsFloatGrid PropsFloatVii.
From Verif Require Import FloatGrid32 PropsFloatGrid32.
From Verif Require PropsFloatGeoGrid PropsFloatVii32.
Import ListNotations.
Open Scope R_scope.

(** the interpolator of C91 on float32 arrays (geointerpolator.py:78-111, 52-75): numpy converts in float32, scipy interpolates in
    doubles and the result is cast back to float32 (GridSingle.v) *)
Definition conv32 (m : libm) (lons lats : tie_values (option R)) :=
  let xyz := map2d (@lonlat2xyz (option R) (F32 m)) (v_data lons) (v_data lats) in
  (floats (map (map (fun p => fst (fst p))) xyz), floats (map (map (fun p => snd (fst p))) xyz), floats (map (map snd) xyz)).
Definition elem32 (m : libm) (x y z : option R) : option R * option R := @xyz2lonlat _ (F32 m) (x, y, z).
Definition geo_grid32 (m : libm) (i : grid_init (option R)) (ys xs : list R) (lons lats : list (list R)) (fy fx : list R) :=
  let* ss := make_geo (@rgi_valid _ (F64_32 m)) (conv32 m) Grid i (points_of ys xs) [ArrayArg (finite lons); ArrayArg (finite lats)] in
  geo_interpolate (N := F64_32 m) (@rgi_single _ (F64_32 m)) (elem32 m) ss (points_of fy fx) tt.

Notation Re := PropsFloatGeoGrid.Re (only parsing).
Notation geo_x := PropsFloatGeoGrid.geo_x. Notation geo_y := PropsFloatGeoGrid.geo_y. Notation geo_z := PropsFloatGeoGrid.geo_z.
Notation on_globe := PropsFloatGeoGrid.on_globe. Notation target := PropsFloatGeoGrid.target.
Notation value := PropsFloatGeoGrid.value. Notation geo_bound := PropsFloatGeoGrid.geo_bound.

Section Corner.
Variable m : libm.
Hypothesis HA : accurate b32 m.
(** position of a tie point *)
Lemma corner_32 lon lat : Rabs lon <= 180 -> Rabs lat <= 90 ->
  exists x y z, @lonlat2xyz _ (F32 m) (Some lon) (Some lat) = (x, y, z) /\ near b32 x (geo_x lon lat) 16 /\ near b32 y (geo_y lon lat) 16 /\ near b32 z (geo_z lon lat) 16.
Proof.
  intros Hlon Hlat. destruct (PropsFloatVii32.near_angle_32 m lon Hlon) as [Nl Bl]. destruct (PropsFloatVii32.near_angle_32 m lat ltac:(lra)) as [Np Bp]. pose proof eps_32 as E.
  assert (Ac : forall x, Rabs (cos x) <= 1) by (intros; apply Rabs_le, COS_bound).
  assert (As : forall x, Rabs (sin x) <= 1) by (intros; apply Rabs_le, SIN_bound).
  assert (Nr : near b32 (@EARTH_RADIUS _ (F32 m)) PropsFloatGeoGrid.Re 0) by (apply (near_nz b32 b32 pi32 m fine_32 6370997); lia).
  unfold lonlat2xyz, lonlat2xyz_at. do 3 eexists. split; [reflexivity|].
  set (lr := @deg2rad _ (F32 m) (Some lon)) in *. set (pr := @deg2rad _ (F32 m) (Some lat)) in *.
  set (l := lon * (PI / 180)) in *. set (p := lat * (PI / 180)) in *.
  set (e1 := 103 / 100000000).
  assert (Cp : near b32 (@ncos _ (F32 m) pr) (cos p) e1) by (eapply FloatNear.near_weaken; [|apply (near_cos b32 b32 pi32 m fine_32 HA _ _ _ Np)]; unfold e1; lra).
  assert (Sp : near b32 (@nsin _ (F32 m) pr) (sin p) e1) by (eapply FloatNear.near_weaken; [|apply (near_sin b32 b32 pi32 m fine_32 HA _ _ _ Np)]; unfold e1; lra).
  assert (Cl : near b32 (@ncos _ (F32 m) lr) (cos l) e1) by (eapply FloatNear.near_weaken; [|apply (near_cos b32 b32 pi32 m fine_32 HA _ _ _ Nl)]; unfold e1; lra).
  assert (Sl : near b32 (@nsin _ (F32 m) lr) (sin l) e1) by (eapply FloatNear.near_weaken; [|apply (near_sin b32 b32 pi32 m fine_32 HA _ _ _ Nl)]; unfold e1; lra).
  assert (R1 : Rabs PropsFloatGeoGrid.Re <= PropsFloatGeoGrid.Re) by (unfold PropsFloatGeoGrid.Re; rewrite Rabs_pos_eq; lra).
  set (e2 := 75 / 10).
  assert (RC : near b32 (@nmul _ (F32 m) (@EARTH_RADIUS _ (F32 m)) (@ncos _ (F32 m) pr)) (PropsFloatGeoGrid.Re * cos p) e2).
  { eapply FloatNear.near_weaken; [|apply (near_mul b32 b32 pi32 m fine_32 _ _ _ _ _ _ PropsFloatGeoGrid.Re 1 6371030 Nr Cp R1 (Ac p))]; unfold e1, e2, PropsFloatGeoGrid.Re, big; lra. }
  assert (RS : near b32 (@nmul _ (F32 m) (@EARTH_RADIUS _ (F32 m)) (@nsin _ (F32 m) pr)) (PropsFloatGeoGrid.Re * sin p) e2).
  { eapply FloatNear.near_weaken; [|apply (near_mul b32 b32 pi32 m fine_32 _ _ _ _ _ _ PropsFloatGeoGrid.Re 1 6371030 Nr Sp R1 (As p))]; unfold e1, e2, PropsFloatGeoGrid.Re, big; lra. }
  assert (B1 : Rabs (PropsFloatGeoGrid.Re * cos p) <= PropsFloatGeoGrid.Re).
  { rewrite Rabs_mult, (Rabs_pos_eq PropsFloatGeoGrid.Re) by (unfold PropsFloatGeoGrid.Re; lra). specialize (Ac p). unfold PropsFloatGeoGrid.Re. lra. }
  split; [|split].
  - eapply FloatNear.near_weaken; [|apply (near_mul b32 b32 pi32 m fine_32 _ _ _ _ _ _ PropsFloatGeoGrid.Re 1 6371040 RC Cl B1 (Ac l))]; unfold e1, e2, PropsFloatGeoGrid.Re, big; lra.
  - eapply FloatNear.near_weaken; [|apply (near_mul b32 b32 pi32 m fine_32 _ _ _ _ _ _ PropsFloatGeoGrid.Re 1 6371040 RC Sl B1 (As l))]; unfold e1, e2, PropsFloatGeoGrid.Re, big; lra.
  - eapply FloatNear.near_weaken; [|exact RS]; unfold e2; lra.
Qed.
(** the computed coordinates *)
Definition cx (lon lat : R) : R := value (fst (fst (@lonlat2xyz _ (F32 m) (Some lon) (Some lat)))).
Definition cy (lon lat : R) : R := value (snd (fst (@lonlat2xyz _ (F32 m) (Some lon) (Some lat)))).
Definition cz (lon lat : R) : R := value (snd (@lonlat2xyz _ (F32 m) (Some lon) (Some lat))).
Lemma computed_corner lon lat : Rabs lon <= 180 -> Rabs lat <= 90 ->
  @lonlat2xyz _ (F32 m) (Some lon) (Some lat) = (Some (cx lon lat), Some (cy lon lat), Some (cz lon lat)) /\
  (fl b32 (cx lon lat) /\ Rabs (cx lon lat - geo_x lon lat) <= 16) /\
  (fl b32 (cy lon lat) /\ Rabs (cy lon lat - geo_y lon lat) <= 16) /\
  (fl b32 (cz lon lat) /\ Rabs (cz lon lat - geo_z lon lat) <= 16).
Proof.
  intros H1 H2. destruct (corner_32 lon lat H1 H2) as (x & y & z & E & (vx & -> & Fx & Dx) & (vy & -> & Fy & Dy) & (vz & -> & Fz & Dz)).
  unfold cx, cy, cz. rewrite E. cbn [fst snd value]. auto.
Qed.
(** a matrix of finite values *)
Lemma all_finite (f : option R * option R * option R -> option R) (g : R -> R -> R) ny nx lons lats : on_globe lons lats ny nx ->
  (forall a b, Rabs a <= 180 -> Rabs b <= 90 -> f (@lonlat2xyz _ (F32 m) (Some a) (Some b)) = Some (g a b)) ->
  map (map f) (map2d (@lonlat2xyz (option R) (F32 m)) (map (map Some) lons) (map (map Some) lats)) = map (map Some) (map2d g lons lats).
Proof.
  intros (S1 & S2 & B) Hf.
  assert (SS : forall w : list (list R), shaped ny nx w -> shaped ny nx (map (map Some) w)) by (intros; now apply shaped_map).
  apply (at2_ext None ny nx).
  - apply shaped_map. apply shaped_map2d; now apply SS.
  - apply shaped_map. now apply shaped_map2d.
  - intros r c Hr Hc.
    assert (G : forall A C (h : A -> C) w d e, shaped ny nx w -> at2 e (map (map h) w) r c = h (at2 d w r c)).
    { intros A C h w d e Sw. destruct Sw as [L F]. unfold at2. rewrite (nth_indep _ [] (map h [])) by (rewrite map_length; lia). rewrite map_nth.
      rewrite Forall_forall in F. assert (K := F (nth r w []) ltac:(apply nth_In; lia)).
      rewrite (nth_indep _ e (h d)) by (rewrite map_length; lia). apply map_nth. }
    rewrite (G _ _ f _ (None, None, None)) by (apply shaped_map2d; now apply SS).
    rewrite (at2_map2d _ ny nx _ _ None None) by auto.
    rewrite !(G _ _ Some _ 0) by auto.
    rewrite (G _ _ Some _ 0) by now apply shaped_map2d. rewrite (at2_map2d g ny nx _ _ 0 0) by auto.
    destruct (B r c Hr Hc). now apply Hf.
Qed.
End Corner.

Section Pixel.
Variable m : libm.
Hypothesis HA : accurate b32 m.
Variable i : grid_init (option R).
Variable ys xs : list R.
Hypothesis Ha : axes ys xs.

(** the computed value of one coordinate *)
Definition pix (w : list (list R)) (y x : R) : R :=
  match grid32 m i (points_of ys xs) (finite w) tt (Some y) (Some x) with Some (Some v) => v | _ => 0 end.
Definition proper (w : list (list R)) (fy fx : list R) : Prop :=
  forall y x, In y fy -> In x fx -> grid32 m i (points_of ys xs) (finite w) tt (Some y) (Some x) = Some (Some (pix w y x)).

Lemma eval_32 w fy fx : proper w fy fx ->
  interpolate_numpy (N := F64_32 m) (@rgi_single _ (F64_32 m)) {| s_kind := Grid; s_init := i; s_points := points_of ys xs; s_values := finite w |} (points_of fy fx) tt =
  Ok (map (map (fun p => Some (pix w (fst p) (snd p)))) (map (fun y => map (fun x => (y, x)) fx) fy)).
Proof.
  intros P. change (points_of fy fx) with (map Some fy, map Some fx).
  unfold interpolate_numpy. cbn [s_kind s_init s_points s_values]. unfold eval_grid. rewrite map_map.
  assert (H : forall fy', (forall y, In y fy' -> In y fy) ->
    mapM (fun y => mapM (fun x => match @rgi_single _ (F64_32 m) Grid i (points_of ys xs) (finite w) tt y x with Some a => Ok a | None => Err ValueError end) (map Some fx)) (map Some fy') =
    Ok (map (fun y => map (fun p => Some (pix w (fst p) (snd p))) (map (fun x => (y, x)) fx)) fy')).
  { induction fy' as [|y fy' IH]; intros Hin; [reflexivity|]. cbn [map mapM].
    assert (E : forall fx', (forall x, In x fx' -> In x fx) ->
      mapM (fun x => match @rgi_single _ (F64_32 m) Grid i (points_of ys xs) (finite w) tt (Some y) x with Some a => Ok a | None => Err ValueError end) (map Some fx') =
      Ok (map (fun p => Some (pix w (fst p) (snd p))) (map (fun x => (y, x)) fx'))).
    { induction fx' as [|x fx' IHx]; intros Hx; [reflexivity|]. cbn [map mapM].
      change (@rgi_single _ (F64_32 m) Grid i) with (grid32 m i). rewrite (P y x (Hin y (or_introl eq_refl)) (Hx x (or_introl eq_refl))).
      cbn [bind fst snd]. unfold grid32 in *. rewrite IHx by (intros x' Hx'; apply Hx; now right). reflexivity. }
    rewrite (E fx) by auto. cbn [bind]. rewrite IH by (intros y' Hy'; apply Hin; now right). reflexivity. }
  apply H. auto.
Qed.

Variable lons lats : list (list R).
Hypothesis G : on_globe lons lats (length ys) (length xs).
Definition WX := map2d (cx m) lons lats.
Definition WY := map2d (cy m) lons lats.
Definition WZ := map2d (cz m) lons lats.

(** every pixel is the conversion of the computed position *)
Lemma pixels_32g fy fx : proper WX fy fx -> proper WY fy fx -> proper WZ fy fx ->
  exists olon olat, geo_grid32 m i ys xs lons lats fy fx = Ok (olon, olat) /\
    shaped (length fy) (length fx) olon /\ shaped (length fy) (length fx) olat /\
    forall p q, (p < length fy)%nat -> (q < length fx)%nat -> let y := nth p fy 0 in let x := nth q fx 0 in
      (at2 None olon p q, at2 None olat p q) = @xyz2lonlat _ (F32 m) (Some (pix WX y x), Some (pix WY y x), Some (pix WZ y x)).
Proof.
  intros PX PY PZ. pose proof G as (S1 & S2 & B). unfold geo_grid32, make_geo, to_xyz. cbn [bind]. unfold conv32. cbn [v_data finite floats].
  rewrite (all_finite m (fun p => fst (fst p)) (cx m) (length ys) (length xs)), (all_finite m (fun p => snd (fst p)) (cy m) (length ys) (length xs)),
    (all_finite m snd (cz m) (length ys) (length xs)); try exact G;
    try (intros a b H1 H2; destruct (computed_corner m HA a b H1 H2) as (-> & _); reflexivity).
  assert (V : forall g, make_single (@rgi_valid _ (F64_32 m)) Grid i (points_of ys xs) (floats (map (map Some) (map2d g lons lats))) =
    Ok {| s_kind := Grid; s_init := i; s_points := points_of ys xs; s_values := finite (map2d g lons lats) |}).
  { intros g. unfold make_single. change (floats (map (map Some) (map2d g lons lats))) with (finite (map2d g lons lats)).
    assert (E : @rgi_valid _ (F64_32 m) Grid i (points_of ys xs) (finite (map2d g lons lats)) = true); [|now rewrite E].
    change (grid_ok i (points_of ys xs) (finite (map2d g lons lats)) = true).
    apply C90_accepted. destruct Ha as (Iy & Ix & _). split; [now left|]. split; [now left|]. apply shaped_map. now apply shaped_map2d. }
  unfold make_multiple. cbn [mapM]. rewrite !V. cbn [bind]. fold WX WY WZ.
  unfold geo_interpolate, interpolate_multiple. cbn [mapM]. rewrite !eval_32 by assumption. cbn [bind to_lonlat].
  rewrite (zip3_components (fun p : R * R => (Some (pix WX (fst p) (snd p)), Some (pix WY (fst p) (snd p)), Some (pix WZ (fst p) (snd p))))).
  cbn [fst snd]. rewrite !map_map. eexists. eexists. split; [reflexivity|].
  rewrite !(map_ext (fun y => map _ (map (fun x : R => (y, x)) fx)) (fun y => map (fun x => _ (y, x)) fx) (fun y => map_map _ _ fx)).
  split; [apply shaped_grid|]. split; [apply shaped_grid|]. intros p q Hp Hq. cbv zeta.
  rewrite !(at2_grid _ fy fx 0 0) by assumption. unfold elem32. cbn [fst snd]. rewrite <- surjective_pairing. reflexivity.
Qed.

(** tie data of one coordinate *)
Lemma wide (g : R -> R -> R) (e : R -> R -> R) :
  (forall a b, Rabs a <= 180 -> Rabs b <= 90 -> fl b32 (g a b) /\ Rabs (g a b - e a b) <= 16 /\ Rabs (e a b) <= PropsFloatGeoGrid.Re) ->
  shaped (length ys) (length xs) (map2d g lons lats) /\ all2 (fun v => fl b32 v /\ Rabs v <= PropsFloatGeoGrid.Re + 17) (map2d g lons lats) /\
  forall r c, (r < length ys)%nat -> (c < length xs)%nat ->
    at2 0 (map2d g lons lats) r c = g (at2 0 lons r c) (at2 0 lats r c) /\ Rabs (g (at2 0 lons r c) (at2 0 lats r c) - e (at2 0 lons r c) (at2 0 lats r c)) <= 16.
Proof.
  intros H. pose proof G as (S1 & S2 & B). assert (Sw : shaped (length ys) (length xs) (map2d g lons lats)) by now apply shaped_map2d.
  assert (K : forall r c, (r < length ys)%nat -> (c < length xs)%nat -> at2 0 (map2d g lons lats) r c = g (at2 0 lons r c) (at2 0 lats r c)).
  { intros r c Hr Hc. now apply (at2_map2d g (length ys) (length xs)). }
  split; [exact Sw|]. split.
  - unfold all2. apply Forall_forall. intros row Hrow. apply Forall_forall. intros v Hv.
    apply (In_nth _ _ []) in Hrow as (r & Hr & <-). destruct Sw as [L F]. rewrite Forall_forall in F.
    assert (Lr := F (nth r (map2d g lons lats) []) ltac:(now apply nth_In)).
    apply (In_nth _ _ 0) in Hv as (c & Hc & <-). change (nth c (nth r (map2d g lons lats) []) 0) with (at2 0 (map2d g lons lats) r c).
    rewrite K by lia. destruct (B r c ltac:(lia) ltac:(lia)) as [B1 B2]. destruct (H _ _ B1 B2) as (F1 & D & E1). split; [exact F1|].
    replace (g (at2 0 lons r c) (at2 0 lats r c)) with ((g (at2 0 lons r c) (at2 0 lats r c) - e (at2 0 lons r c) (at2 0 lats r c)) + e (at2 0 lons r c) (at2 0 lats r c)) by ring.
    eapply Rle_trans; [apply Rabs_triang|]. lra.
  - intros r c Hr Hc. split; [now apply K|]. destruct (B r c Hr Hc) as [B1 B2]. apply (H _ _ B1 B2).
Qed.
Lemma cx_ok a b : Rabs a <= 180 -> Rabs b <= 90 -> fl b32 (cx m a b) /\ Rabs (cx m a b - geo_x a b) <= 16 /\ Rabs (geo_x a b) <= PropsFloatGeoGrid.Re.
Proof. intros H1 H2. destruct (computed_corner m HA a b H1 H2) as (_ & (? & ?) & _). split; [assumption|]. split; [assumption|apply geo_bound]. Qed.
Lemma cy_ok a b : Rabs a <= 180 -> Rabs b <= 90 -> fl b32 (cy m a b) /\ Rabs (cy m a b - geo_y a b) <= 16 /\ Rabs (geo_y a b) <= PropsFloatGeoGrid.Re.
Proof. intros H1 H2. destruct (computed_corner m HA a b H1 H2) as (_ & _ & (? & ?) & _). split; [assumption|]. split; [assumption|apply geo_bound]. Qed.
Lemma cz_ok a b : Rabs a <= 180 -> Rabs b <= 90 -> fl b32 (cz m a b) /\ Rabs (cz m a b - geo_z a b) <= 16 /\ Rabs (geo_z a b) <= PropsFloatGeoGrid.Re.
Proof. intros H1 H2. destruct (computed_corner m HA a b H1 H2) as (_ & _ & _ & (? & ?)). split; [assumption|]. split; [assumption|apply geo_bound]. Qed.

(** one coordinate of one pixel *)
Hypothesis Py : spaced ys.
Hypothesis Px : spaced xs.
Hypothesis Gy : not_huge ys.
Hypothesis Gx : not_huge xs.
Hypothesis Dy : PropsFloatGrid.doubles ys.
Hypothesis Dx : PropsFloatGrid.doubles xs.
Lemma pix_near g e r c y x : (forall a b, Rabs a <= 180 -> Rabs b <= 90 -> fl b32 (g a b) /\ Rabs (g a b - e a b) <= 16 /\ Rabs (e a b) <= PropsFloatGeoGrid.Re) ->
  target ys y -> target xs x -> in_cell ys r y -> in_cell xs c x ->
  let w := map2d g lons lats in
  grid32 m i (points_of ys xs) (finite w) tt (Some y) (Some x) = Some (Some (pix w y x)) /\ fl b32 (pix w y x) /\
  Rabs (pix w y x - bilinear ys xs (fun a b => e (at2 0 lons a b) (at2 0 lats a b)) r c y x) <= 17.
Proof.
  intros H (Fy & Iy) (Fx & Ix) Cy Cx w. destruct (wide g e H) as (Sw & Aw & K). fold w in Sw, Aw, K.
  assert (A1 : floats32 w) by (unfold floats32, all2 in *; eapply Forall_impl; [|exact Aw]; intros row F; eapply Forall_impl; [|exact F]; cbv beta; tauto).
  assert (A2 : all2 (fun v => Rabs v <= PropsFloatGeoGrid.Re + 17) w) by (unfold all2 in *; eapply Forall_impl; [|exact Aw]; intros row F; eapply Forall_impl; [|exact F]; cbv beta; tauto).
  destruct (C142_near m i ys xs w y x r c (PropsFloatGeoGrid.Re + 17) Ha Py Px Dy Dx Gy Gx Fy Fx Sw A1 A2 Iy Ix Cy Cx) as (o & E & Fo & Do).
  assert (Po : pix w y x = o) by (unfold pix; rewrite E; reflexivity). rewrite Po, E. split; [reflexivity|]. split; [exact Fo|].
  assert (N : Rabs (bilinear ys xs (at2 0 w) r c y x - bilinear ys xs (fun a b => e (at2 0 lons a b) (at2 0 lats a b)) r c y x) <= 16).
  { pose proof Ha as (Uy & Ux & Ly & Lx). pose proof (inside_cell _ _ _ Iy Cy) as By. pose proof (inside_cell _ _ _ Ix Cx) as Bx.
    destruct Cy as (Lr & _), Cx as (Lc & _). pose proof (step_pos ys r Uy Lr) as Sy. pose proof (step_pos xs c Ux Lc) as Sx.
    rewrite !bilinear_weights by assumption. cbv zeta.
    pose proof (weight_range _ _ _ Sy By) as Ty. pose proof (weight_range _ _ _ Sx Bx) as Tx.
    set (t := (y - nth r ys 0) / (nth (S r) ys 0 - nth r ys 0)) in *. set (u := (x - nth c xs 0) / (nth (S c) xs 0 - nth c xs 0)) in *.
    destruct (K r c ltac:(lia) ltac:(lia)) as [-> K1]. destruct (K r (S c) ltac:(lia) ltac:(lia)) as [-> K2].
    destruct (K (S r) c ltac:(lia) ltac:(lia)) as [-> K3]. destruct (K (S r) (S c) ltac:(lia) ltac:(lia)) as [-> K4].
    apply Rabs_le_inv in K1, K2, K3, K4.
    set (d1 := g _ _ - e _ _) in K1. set (d2 := g _ _ - e _ _) in K2. set (d3 := g _ _ - e _ _) in K3. set (d4 := g _ _ - e _ _) in K4.
    match goal with |- Rabs ?v <= _ => replace v with (d1 * ((1 - t) * (1 - u)) + d2 * ((1 - t) * u) + d3 * (t * (1 - u)) + d4 * (t * u)) by (unfold d1, d2, d3, d4; ring) end.
    clearbody d1 d2 d3 d4. set (E0 := 16) in *.
    assert (W1 : 0 <= (1 - t) * (1 - u)) by (apply Rmult_le_pos; lra). assert (W2 : 0 <= (1 - t) * u) by (apply Rmult_le_pos; lra).
    assert (W3 : 0 <= t * (1 - u)) by (apply Rmult_le_pos; lra). assert (W4 : 0 <= t * u) by (apply Rmult_le_pos; lra).
    assert (WS : (1 - t) * (1 - u) + (1 - t) * u + t * (1 - u) + t * u = 1) by ring.
    assert (Q : forall d w0, 0 <= w0 -> - E0 <= d <= E0 -> - E0 * w0 <= d * w0 <= E0 * w0) by (intros d w0 Hw Hd; split; apply Rmult_le_compat_r; lra).
    pose proof (Q d1 _ W1 K1). pose proof (Q d2 _ W2 K2). pose proof (Q d3 _ W3 K3). pose proof (Q d4 _ W4 K4).
    set (w1 := (1 - t) * (1 - u)) in *. set (w2 := (1 - t) * u) in *. set (w3 := t * (1 - u)) in *. set (w4 := t * u) in *. clearbody w1 w2 w3 w4.
    assert (E0 * (w1 + w2 + w3 + w4) = E0) by (rewrite WS; ring). apply Rabs_le. lra. }
  replace (o - bilinear ys xs (fun a b => e (at2 0 lons a b) (at2 0 lats a b)) r c y x) with
    ((o - bilinear ys xs (at2 0 w) r c y x) + (bilinear ys xs (at2 0 w) r c y x - bilinear ys xs (fun a b => e (at2 0 lons a b) (at2 0 lats a b)) r c y x)) by ring.
  eapply Rle_trans; [apply Rabs_triang|]. assert (P24 : bpow radix2 (-24) = / 16777216) by reflexivity.
  assert (P149 : bpow radix2 (-149) <= / 16777216) by (rewrite <- P24; apply bpow_le; lia). rewrite P24 in Do. unfold PropsFloatGeoGrid.Re in Do. lra.
Qed.

End Pixel.

(** Every pixel: its computed position is within 17 m, in each coordinate, of the bilinear interpolation of the positions of the tie
    points (C91); its longitude and latitude are those of the computed position up to 0.1 degrees (C72), more than 20 m away from the
    axis of the Earth. *)
Theorem C143_pixels : forall m i ys xs lons lats fy fx,
  in_range b32 pi32 m -> accurate b32 m -> axes ys xs -> spaced ys -> spaced xs -> not_huge ys -> not_huge xs -> PropsFloatGrid.doubles ys -> PropsFloatGrid.doubles xs ->
  on_globe lons lats (length ys) (length xs) -> Forall (target ys) fy -> Forall (target xs) fx ->
  exists olon olat, geo_grid32 m i ys xs lons lats fy fx = Ok (olon, olat) /\
    shaped (length fy) (length fx) olon /\ shaped (length fy) (length fx) olat /\
    forall p q r c, (p < length fy)%nat -> (q < length fx)%nat -> in_cell ys r (nth p fy 0) -> in_cell xs c (nth q fx 0) ->
      let place (f : R -> R -> R) := bilinear ys xs (fun a b => f (at2 0 lons a b) (at2 0 lats a b)) r c (nth p fy 0) (nth q fx 0) in
      let ll := (at2 None olon p q, at2 None olat p q) in let d := 17 in
      exists x y z, Rabs (x - place geo_x) <= d /\ Rabs (y - place geo_y) <= d /\ Rabs (z - place geo_z) <= d /\
        ll = @xyz2lonlat _ (F32 m) (Some x, Some y, Some z) /\
        (20 <= Rabs (place geo_x) \/ 20 <= Rabs (place geo_y) -> near_exact 6370997 (8 / 10) (1 / 10) x y z ll).
Proof.
  intros m i ys xs lons lats fy fx HR HA Ha Py Px Gy Gx Dy Dx G Ty Tx. rewrite Forall_forall in Ty, Tx. pose proof Ha as (Uy & Ux & Ly & Lx).
  pose proof (fun g e r c y x => pix_near m i ys xs Ha lons lats G Py Px Gy Gx Dy Dx g e r c y x) as N. cbv zeta in N.
  assert (P : forall g e, (forall a b, Rabs a <= 180 -> Rabs b <= 90 -> fl b32 (g a b) /\ Rabs (g a b - e a b) <= 16 /\ Rabs (e a b) <= PropsFloatGeoGrid.Re) ->
    proper m i ys xs (map2d g lons lats) fy fx).
  { intros g e H y x Hy Hx. apply (N g e _ _ y x H (Ty y Hy) (Tx x Hx) (located_in_cell ys y Uy Ly) (located_in_cell xs x Ux Lx)). }
  destruct (pixels_32g m HA i ys xs Ha lons lats G fy fx (P _ _ (cx_ok m HA)) (P _ _ (cy_ok m HA)) (P _ _ (cz_ok m HA))) as (olon & olat & E & S1 & S2 & V).
  exists olon, olat. split; [exact E|]. split; [exact S1|]. split; [exact S2|]. intros p q r c Hp Hq Cy Cx place ll d.
  pose proof (Ty _ (nth_In fy 0 Hp)) as Ty0. pose proof (Tx _ (nth_In fx 0 Hq)) as Tx0.
  destruct (N _ _ r c _ _ (cx_ok m HA) Ty0 Tx0 Cy Cx) as (_ & Fx & X). destruct (N _ _ r c _ _ (cy_ok m HA) Ty0 Tx0 Cy Cx) as (_ & Fy & Y).
  destruct (N _ _ r c _ _ (cz_ok m HA) Ty0 Tx0 Cy Cx) as (_ & Fz & Z).
  eexists. eexists. eexists. split; [exact X|]. split; [exact Y|]. split; [exact Z|].
  pose proof (V p q Hp Hq) as EL. cbv zeta in EL. unfold WX, WY, WZ in EL. split; [exact EL|]. intros AX. unfold ll. rewrite EL.
  apply (proj2 (C72_numpy m _ _ _)); auto.
  pose proof (PropsFloatGeoGrid.place_ball ys xs Ha lons lats r c _ _ (proj2 Ty0) (proj2 Tx0) Cy Cx) as Ball.
  change (place geo_x * place geo_x + place geo_y * place geo_y + place geo_z * place geo_z <= PropsFloatGeoGrid.Re * Re) in Ball.
  change (Rabs (pix m i ys xs (map2d (cx m) lons lats) (nth p fy 0) (nth q fx 0) - place geo_x) <= d) in X.
  change (Rabs (pix m i ys xs (map2d (cy m) lons lats) (nth p fy 0) (nth q fx 0) - place geo_y) <= d) in Y.
  change (Rabs (pix m i ys xs (map2d (cz m) lons lats) (nth p fy 0) (nth q fx 0) - place geo_z) <= d) in Z.
  set (x := pix m i ys xs (map2d (cx m) lons lats) (nth p fy 0) (nth q fx 0)) in *. set (y := pix m i ys xs (map2d (cy m) lons lats) (nth p fy 0) (nth q fx 0)) in *.
  set (z := pix m i ys xs (map2d (cz m) lons lats) (nth p fy 0) (nth q fx 0)) in *.
  clearbody x y z. set (px := place geo_x) in *. set (py := place geo_y) in *. set (pz := place geo_z) in *. clearbody px py pz.
  split; [exact Fx|]. split; [exact Fy|]. split; [exact Fz|]. split.
  - assert (Q : forall a b, Rabs (a - b) <= d -> a * a <= 11 / 10 * (b * b) + 11 * (d * d)).
    { intros a b H. apply Rabs_le_inv in H. pose proof (Rle_0_sqr ((a - b) - b / 10)) as K. unfold Rsqr in K.
      assert ((a - b) * (a - b) <= d * d) by nra. lra. }
    pose proof (Q _ _ X). pose proof (Q _ _ Y). pose proof (Q _ _ Z). assert (d * d <= 1000) by (unfold d; lra). unfold PropsFloatGeoGrid.Re in Ball. lra.
  - assert (T : bpow radix2 (-60) <= 1) by (bp; change (2 ^ (- -60))%Z with 1152921504606846976%Z; lra).
    assert (Q : forall a b, Rabs (a - b) <= d -> 20 <= Rabs b -> bpow radix2 (-60) <= Rabs a).
    { intros a b H H2. pose proof (Rabs_triang_inv b a) as K. rewrite Rabs_minus_sym in K. unfold d in H. lra. }
    destruct AX as [AX|AX]; [left|right]; eapply Q; eauto.
Qed.
Print Assumptions C143_pixels.

(** At the tie points their longitudes and latitudes come back, up to 0.1 degrees (C73), whatever the distances of the tie points *)
Theorem C143_tie_points : forall m i ys xs lons lats,
  in_range b32 pi32 m -> accurate b32 m -> axes ys xs -> PropsFloatGrid.doubles ys -> PropsFloatGrid.doubles xs -> not_huge ys -> not_huge xs ->
  on_globe lons lats (length ys) (length xs) ->
  exists olon olat, geo_grid32 m i ys xs lons lats ys xs = Ok (olon, olat) /\
    shaped (length ys) (length xs) olon /\ shaped (length ys) (length xs) olat /\
    forall r c, (r < length ys)%nat -> (c < length xs)%nat -> comes_back_float (1 / 10) (at2 0 lons r c) (at2 0 lats r c) (at2 None olon r c, at2 None olat r c).
Proof.
  intros m i ys xs lons lats HR HA Ha Dy Dx Hy Hx G. pose proof G as (S1 & S2 & B).
  assert (N : forall g e, (forall a b, Rabs a <= 180 -> Rabs b <= 90 -> fl b32 (g a b) /\ Rabs (g a b - e a b) <= 16 /\ Rabs (e a b) <= PropsFloatGeoGrid.Re) ->
    forall r c, (r < length ys)%nat -> (c < length xs)%nat ->
      grid32 m i (points_of ys xs) (finite (map2d g lons lats)) tt (Some (nth r ys 0)) (Some (nth c xs 0)) = Some (Some (g (at2 0 lons r c) (at2 0 lats r c)))).
  { intros g e H r c Hr Hc. destruct (wide ys xs lons lats G g e H) as (Sw & Aw & K). destruct (K r c Hr Hc) as [<- _].
    apply C142_tie_points; auto. unfold floats32, all2 in *. eapply Forall_impl; [|exact Aw]. intros row F. eapply Forall_impl; [|exact F]. cbv beta. tauto. }
  assert (P : forall g e, (forall a b, Rabs a <= 180 -> Rabs b <= 90 -> fl b32 (g a b) /\ Rabs (g a b - e a b) <= 16 /\ Rabs (e a b) <= PropsFloatGeoGrid.Re) ->
    proper m i ys xs (map2d g lons lats) ys xs).
  { intros g e H y x Iy Ix. apply (In_nth _ _ 0) in Iy as (r & Hr & <-). apply (In_nth _ _ 0) in Ix as (c & Hc & <-). unfold pix. rewrite (N g e H r c Hr Hc). reflexivity. }
  destruct (pixels_32g m HA i ys xs Ha lons lats G ys xs (P _ _ (cx_ok m HA)) (P _ _ (cy_ok m HA)) (P _ _ (cz_ok m HA))) as (olon & olat & E & T1 & T2 & V).
  exists olon, olat. split; [exact E|]. split; [exact T1|]. split; [exact T2|]. intros r c Hr Hc. rewrite (V r c Hr Hc). cbv zeta.
  unfold pix, WX, WY, WZ. rewrite (N _ _ (cx_ok m HA) r c Hr Hc), (N _ _ (cy_ok m HA) r c Hr Hc), (N _ _ (cz_ok m HA) r c Hr Hc).
  destruct (B r c Hr Hc) as [B1 B2]. destruct (computed_corner m HA _ _ B1 B2) as (EC & _). rewrite <- EC. apply (C73_numpy_floats_partial m _ _ HR HA B1 B2).
Qed.
Print Assumptions C143_tie_points.

(** The case: 2 x 2 tie points, the two poles and the antimeridian among them; a pixel inside the cell and one on its border *)
Example C143_case : let ys := [0; 8] in let xs := [0; 4] in let lons := [[180; -90]; [0; 90]] in let lats := [[90; 80]; [-90; 70]] in
  axes ys xs /\ spaced ys /\ spaced xs /\ PropsFloatGrid.doubles ys /\ PropsFloatGrid.doubles xs /\ not_huge ys /\ not_huge xs /\
  on_globe lons lats (length ys) (length xs) /\ Forall (target ys) [0; 4] /\ Forall (target xs) [1].
Proof.
  cbv zeta.
  split; [repeat split; try (cbn; lia); intros a b H; destruct a as [|[|a]]; destruct b as [|[|b]]; cbn in *; try lia; lra|].
  split; [intros k H; destruct k; cbn in *; [lra|lia]|]. split; [intros k H; destruct k; cbn in *; [lra|lia]|].
  assert (Z : forall z, (Z.abs z < 2 ^ 53)%Z -> fl b64 (IZR z)) by (intros z H; pose proof (fix_fl z 0 H ltac:(lia)) as K; cbn [Z.opp bpow] in K; now rewrite Rmult_1_r in K).
  assert (Hg : forall z, (0 <= z < 2 ^ 53)%Z -> Rabs (IZR z) <= bpow radix2 1000).
  { intros z H. rewrite Rabs_pos_eq by (apply IZR_le; lia). apply Rle_trans with (bpow radix2 53); [|apply bpow_le; lia].
    rewrite <- (IZR_Zpower radix2 53) by lia. apply IZR_le. cbn. lia. }
  split; [repeat (apply Forall_cons; [apply Z; lia|]); apply Forall_nil|]. split; [repeat (apply Forall_cons; [apply Z; lia|]); apply Forall_nil|].
  split; [repeat (apply Forall_cons; [apply Hg; lia|]); apply Forall_nil|]. split; [repeat (apply Forall_cons; [apply Hg; lia|]); apply Forall_nil|].
  split.
  - split; [split; [reflexivity|repeat constructor]|]. split; [split; [reflexivity|repeat constructor]|].
    intros r c Hr Hc. destruct r as [|[|r]]; [| |cbn in Hr; lia]; (destruct c as [|[|c]]; [| |cbn in Hc; lia]); unfold at2; cbn; split; apply Rabs_le; lra.
  - split; repeat (apply Forall_cons; [split; [apply Z; lia|unfold inside; cbn; lra]|]); apply Forall_nil.
Qed.
