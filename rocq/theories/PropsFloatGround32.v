(** C144: accuracy on the ground of what is computed from float32 arrays: error of the method plus rounding errors. *)
From Coq Require Import ZArith List Bool Arith Lia Reals Lra.
From Flocq.Core Require Import Core.
From Verif Require Import Spec Base Num Geo GeoProofs GeoAgree Mem PiBound Float FloatGeo FloatAcc FloatTrip PropsFloat PropsFloatAcc PropsFloatTrip FloatNear FloatModis FloatPixel.
From Verif Require Import Modis ModisProofs ModisOob ModisAngles SimpleModis SimpleModisProofs SimpleModisReal Chunks ChunksProofs GridLinear Vii ViiProofs ViiSingle GridSingle.
From Verif Require Import PropsGeo PropsVii PropsModis PropsSimple PropsChunks PropsGridLinear PropsModisValues PropsFloatModis FloatSimple PropsFloatSimple FloatSimple64 PropsFloatSimple64.
From Verif Require Import FloatGrid FloatVii PropsFloatGrid PropsFloatVii PropsFloatGeoGrid PropsInterp LegacyTie PropsLegacyRows PropsCubic PropsAccuracy PropsGround PropsScanAcc PropsViewing PropsFloatGround.
From Verif Require PropsFloatVii32 PropsFloatGeoGrid32.
Import ListNotations.
Open Scope Z_scope.
Open Scope R_scope.
Notation distance := PropsGround.distance.
Notation on_sphere := PropsGround.on_sphere.
Notation geo_grid32 := PropsFloatGeoGrid32.geo_grid32.
Notation C143_pixels := PropsFloatGeoGrid32.C143_pixels.
Notation C140_geodetic := PropsFloatVii32.C140_geodetic.
Notation C140_cartesian := PropsFloatVii32.C140_cartesian.

(** ** VII: longitudes and latitudes interpolated themselves *)
Theorem C144_vii_direct : forall m nan lon lat vlon vlat Dlon Dlat s f n_scans thr zt,
  PropsFloatVii32.floats lon vlon 180 Dlon -> PropsFloatVii32.floats lat vlat 90 Dlat -> Dlon <= 360 -> Dlat <= 180 -> args_ok [lon; lat] s f n_scans -> (Z.of_nat f <= 10000)%Z -> safe_lonlat lon vlon vlat thr ->
  exists olon olat, tie_points_geo_interpolation_32 (F32 m) (F64 m) nan lon lat s f (Some thr) zt = Ok (olon, olat) /\
    forall j G H Ky Kx, (j < n_scans)%nat ->
      scan_field (Z.of_nat s) (Z.of_nat (ncols lon)) G Ky Kx -> scan_field (Z.of_nat s) (Z.of_nat (ncols lon)) H Ky Kx ->
      (forall i k, (0 <= i < Z.of_nat s)%Z -> (0 <= k < Z.of_nat (ncols lon))%Z ->
         vlon (j * s + Z.to_nat i)%nat (Z.to_nat k) = G (IZR i) (IZR k) /\ vlat (j * s + Z.to_nat i)%nat (Z.to_nat k) = H (IZR i) (IZR k)) ->
      forall r a c b, (r < s - 1)%nat -> (a < f)%nat -> (c < ncols lon - 1)%nat -> (b < f)%nat ->
        exists l p, at_ olon (j * (s - 1) * f + r * f + a)%nat (c * f + b)%nat = Some l /\ at_ olat (j * (s - 1) * f + r * f + a)%nat (c * f + b)%nat = Some p /\
          Rabs (l - G (vii_y f r a) (vii_y f c b)) <= (Ky + Kx) / 8 + bpow radix2 (-24) * Dlon + 3 / 10000000000000 /\ Rabs (p - H (vii_y f r a) (vii_y f c b)) <= (Ky + Kx) / 8 + bpow radix2 (-24) * Dlat + 3 / 10000000000000.
Proof.
  intros m nan lon lat vlon vlat Dlon Dlat s f n_scans thr zt D1 D2 L1 L2 Ha Hf Hs.
  destruct (C140_geodetic m nan lon lat vlon vlat Dlon Dlat s f n_scans thr zt D1 D2 L1 L2 Ha Hf Hs) as (olon & olat & E & P). exists olon, olat. split; [exact E|].
  intros j G H Ky Kx Hj SG SH T r a c b Hr Hfa Hc Hfb. destruct (P j r a c b Hj Hr Hfa Hc Hfb) as [(l & -> & _ & L) (p & -> & _ & L')].
  pose proof (four_near vlon G Ky Kx s f (ncols lon) j r a c b Hr Hfa Hc Hfb SG (fun i k Hi Hk => proj1 (T i k Hi Hk))) as N1.
  pose proof (four_near vlat H Ky Kx s f (ncols lon) j r a c b Hr Hfa Hc Hfb SH (fun i k Hi Hk => proj2 (T i k Hi Hk))) as N2.
  exists l, p. split; [reflexivity|]. split; [reflexivity|]. pose proof (near_near _ _ _ _ _ L N1). pose proof (near_near _ _ _ _ _ L' N2). split; lra.
Qed.
Print Assumptions C144_vii_direct.

(** ** VII: in cartesian coordinates *)
Theorem C144_vii : forall m nan lon lat vlon vlat Dlon Dlat s f n_scans thr zt,
  in_range b64 pi64 m -> accurate b64 m -> accurate b32 m -> Rabs (zt - 8 / 10) <= / 2000 ->
  PropsFloatVii32.floats lon vlon 180 Dlon -> PropsFloatVii32.floats lat vlat 90 Dlat -> args_ok [lon; lat] s f n_scans -> (Z.of_nat f <= 10000)%Z ->
  (exists i j, (i < nrows lon)%nat /\ (j < ncols lon)%nat /\ thr < Rabs (vlat i j)) \/
  (exists i j k l, (i < nrows lon)%nat /\ (j < ncols lon)%nat /\ (k < nrows lon)%nat /\ (l < ncols lon)%nat /\ 180 + bpow radix2 (-16) <= vlon i j - vlon k l) ->
  exists olon olat, tie_points_geo_interpolation_32 (F32 m) (F64 m) nan lon lat s f (Some thr) (Some zt) = Ok (olon, olat) /\
    forall j Fx Fy Fz Ky Kx, (j < n_scans)%nat ->
      true_scan mean_earth (Z.of_nat s) (Z.of_nat (ncols lon)) (fun i k => vlon (j * s + Z.to_nat i)%nat (Z.to_nat k)) (fun i k => vlat (j * s + Z.to_nat i)%nat (Z.to_nat k)) Fx Fy Fz Ky Kx ->
      forall r a c b, (r < s - 1)%nat -> (a < f)%nat -> (c < ncols lon - 1)%nat -> (b < f)%nat ->
        let y := vii_y f r a in let x := vii_y f c b in let e := (Ky + Kx) / 8 in e + 40 <= mean_earth / 175 -> e + 40 < Rabs (Fy y x) \/ e + 40 < Fx y x ->
        exists l p, at_ olon (j * (s - 1) * f + r * f + a)%nat (c * f + b)%nat = Some l /\ at_ olat (j * (s - 1) * f + r * f + a)%nat (c * f + b)%nat = Some p /\
          distance (ground mean_earth l p) (Fx y x, Fy y x, Fz y x) <= 7 * e + 121.
Proof.
  intros m nan lon lat vlon vlat Dlon Dlat s f n_scans thr zt HR HA HA32 Hzt D1 D2 Ha Hf Hs.
  destruct (C140_cartesian m nan lon lat vlon vlat Dlon Dlat s f n_scans thr zt HR HA HA32 ltac:(apply Rabs_le_inv in Hzt; lra) D1 D2 Ha Hf Hs) as (olon & olat & E & P). exists olon, olat. split; [exact E|].
  intros j Fx Fy Fz Ky Kx Hj (Sx & Sy & Sz & Sp & Tie) r a c b Hr Hfa Hc Hfb y x e He Hd.
  specialize (P j r a c b Hj Hr Hfa Hc Hfb). cbv zeta in P. destruct P as (qx & qy & qz & A1 & A2 & A3 & _ & NE).
  assert (T : forall i k, (0 <= i < Z.of_nat s)%Z -> (0 <= k < Z.of_nat (ncols lon))%Z ->
    pos_x (vlon (j * s + Z.to_nat i)%nat (Z.to_nat k)) (vlat (j * s + Z.to_nat i)%nat (Z.to_nat k)) = Fx (IZR i) (IZR k) /\
    pos_y (vlon (j * s + Z.to_nat i)%nat (Z.to_nat k)) (vlat (j * s + Z.to_nat i)%nat (Z.to_nat k)) = Fy (IZR i) (IZR k) /\
    pos_z (vlon (j * s + Z.to_nat i)%nat (Z.to_nat k)) (vlat (j * s + Z.to_nat i)%nat (Z.to_nat k)) = Fz (IZR i) (IZR k)).
  { intros i k Hi Hk. pose proof (Tie i k Hi Hk) as G. cbv zeta in G. apply pair_inj in G. destruct G as [G G3]. apply pair_inj in G. destruct G as [G1 G2]. auto. }
  pose proof (four_near (fun i k => pos_x (vlon i k) (vlat i k)) Fx Ky Kx s f (ncols lon) j r a c b Hr Hfa Hc Hfb Sx (fun i k Hi Hk => proj1 (T i k Hi Hk))) as Bx.
  pose proof (four_near (fun i k => pos_y (vlon i k) (vlat i k)) Fy Ky Kx s f (ncols lon) j r a c b Hr Hfa Hc Hfb Sy (fun i k Hi Hk => proj1 (proj2 (T i k Hi Hk)))) as By.
  pose proof (four_near (fun i k => pos_z (vlon i k) (vlat i k)) Fz Ky Kx s f (ncols lon) j r a c b Hr Hfa Hc Hfb Sz (fun i k Hi Hk => proj2 (proj2 (T i k Hi Hk)))) as Bz.
  fold y x e in Bx, By, Bz.
  set (px := four (fun i k => pos_x (vlon i k) (vlat i k)) _ _ _ _) in *. set (py := four (fun i k => pos_y (vlon i k) (vlat i k)) _ _ _ _) in *. set (pz := four (fun i k => pos_z (vlon i k) (vlat i k)) _ _ _ _) in *. clearbody px py pz.
  assert (E0 : 0 <= e) by (eapply Rle_trans; [apply Rabs_pos|exact Bx]).
  assert (Axis : 18 <= Rabs px \/ 18 <= Rabs py).
  { destruct Hd as [H|H]; [right; pose proof (apart_from_axis _ _ _ _ By H); lra|left]. assert (H' : e + 40 < Rabs (Fx y x)) by (pose proof (Rle_abs (Fx y x)); lra).
    pose proof (apart_from_axis _ _ _ _ Bx H'). lra. }
  destruct (NE Axis) as (rad & Hrad & NE'). clear NE. change Rm with mean_earth in Hrad.
  pose proof (vii_range f s r a Hfa Hr) as Ry. pose proof (vii_range f (ncols lon) c b Hfb Hc) as Rx. rewrite minus_IZR in Ry, Rx. fold y in Ry. fold x in Rx.
  pose proof (Sp y x ltac:(lra) ltac:(lra)) as SP. set (X := Fx y x) in *. set (Y := Fy y x) in *. set (Z := Fz y x) in *. clearbody X Y Z.
  assert (Hm : mean_earth = 63710087714 / 10000) by reflexivity. apply Rabs_le_inv in Hrad.
  set (k := rad / mean_earth). assert (Ek : rad = k * mean_earth) by (unfold k; field; lra).
  assert (K1 : 1 - / 1000000000000000 <= k <= 1 + / 1000000000000000).
  { split; apply (Rmult_le_reg_r mean_earth); try lra; rewrite <- Ek; lra. }
  assert (SP' : on_sphere rad (k * X, k * Y, k * Z)) by (clearbody k; subst rad; unfold PropsGround.on_sphere in *; transitivity (k ^ 2 * (X ^ 2 + Y ^ 2 + Z ^ 2)); [ring|rewrite SP; ring]).
  assert (C : forall V q, V ^ 2 <= mean_earth ^ 2 -> Rabs (q - V) <= e -> Rabs (q - k * V) <= e + / 100000000).
  { intros V q HV Hq. assert (AV : Rabs V <= mean_earth). { rewrite <- (Rabs_pos_eq mean_earth) by lra. apply Rsqr_le_abs_0. unfold Rsqr. lra. }
    replace (q - k * V) with ((q - V) + (1 - k) * V) by ring. eapply Rle_trans; [apply Rabs_triang|]. apply Rplus_le_compat; [exact Hq|]. rewrite Rabs_mult.
    apply Rle_trans with (/ 1000000000000000 * mean_earth); [|lra]. apply Rmult_le_compat; try apply Rabs_pos; [apply Rabs_le; lra|exact AV]. }
  unfold PropsGround.on_sphere in SP. pose proof (pow2_ge_0 X). pose proof (pow2_ge_0 Y). pose proof (pow2_ge_0 Z).
  pose proof (C X px ltac:(lra) Bx) as Cx. pose proof (C Y py ltac:(lra) By) as Cy. pose proof (C Z pz ltac:(lra) Bz) as Cz. clear C.
  destruct (computed rad zt (5 / 1000000) _ qx qy qz px py pz (k * X) (k * Y) (k * Z) (e + / 100000000) 17 Hzt NE' ltac:(lra) SP' A1 A2 A3 Cx Cy Cz)
    as (l & p & El & D); [lra| |].
  { assert (G : forall V, e + 40 < V -> 17 + (e + / 100000000) < k * V).
    { intros V HV. assert ((1 - / 1000000000000000) * V <= k * V) by (apply Rmult_le_compat_r; lra). lra. }
    destruct Hd as [H2|H2]; [left|right]; [rewrite Rabs_mult, (Rabs_pos_eq k) by lra|]; apply G; exact H2. }
  exists l, p. apply pair_inj in El. destruct El as [-> ->]. split; [reflexivity|]. split; [reflexivity|].
  replace (ground rad l p) with (k * (mean_earth * cos (p * (PI / 180)) * cos (l * (PI / 180))), k * (mean_earth * cos (p * (PI / 180)) * sin (l * (PI / 180))), k * (mean_earth * sin (p * (PI / 180)))) in D
    by (unfold ground; rewrite Ek; f_equal; [f_equal|]; ring).
  rewrite distance_scale in D by lra. fold (ground mean_earth l p) in D. set (dist := distance (ground mean_earth l p) (X, Y, Z)) in *.
  assert (D0 : 0 <= dist) by apply distance_pos. assert ((1 - / 1000000000000000) * dist <= k * dist) by (apply Rmult_le_compat_r; lra).
  pose proof pi_degree. assert (rad * (PI / 180) <= 6371009 * (1746 / 100000)) by (apply Rmult_le_compat; try lra; pose proof PI_RGT_0; lra). lra.
Qed.
Print Assumptions C144_vii.

(** ** GeoGridInterpolator: all of xyz2lonlat is done in single precision, which costs up to 0.1 degrees (C72) *)
Theorem C144_grid : forall m i ys xs lons lats fy fx (Fx Fy Fz : R -> R -> R) Ky Kx,
  in_range b32 pi32 m -> accurate b32 m -> axes ys xs -> spaced ys -> spaced xs -> not_huge ys -> not_huge xs -> PropsFloatGrid.doubles ys -> PropsFloatGrid.doubles xs ->
  on_globe lons lats (length ys) (length xs) -> Forall (target ys) fy -> Forall (target xs) fx ->
  curved_field ys xs Fx Ky Kx -> curved_field ys xs Fy Ky Kx -> curved_field ys xs Fz Ky Kx ->
  tie_points_on ys xs lons lats Fx Fy Fz -> spherical ys xs Fx Fy Fz ->
  exists olon olat, geo_grid32 m i ys xs lons lats fy fx = Ok (olon, olat) /\
    forall p q r c, (p < length fy)%nat -> (q < length fx)%nat -> (S r < length ys)%nat -> (S c < length xs)%nat ->
      let y := nth p fy 0 in let x := nth q fx 0 in nth r ys 0 <= y <= nth (S r) ys 0 -> nth c xs 0 <= x <= nth (S c) xs 0 ->
      let e := (Ky * gap ys r ^ 2 + Kx * gap xs c ^ 2) / 8 in e + 40 <= earth / 175 -> e + 40 < Rabs (Fy y x) \/ e + 40 < Fx y x ->
      exists lon lat, at2 None olon p q = Some lon /\ at2 None olat p q = Some lat /\ distance (ground earth lon lat) (Fx y x, Fy y x, Fz y x) <= 7 * e + 22400.
Proof.
  intros m i ys xs lons lats fy fx Fx Fy Fz Ky Kx HR HA Ax Spy Spx Hgy Hgx Dy Dx OG Ty Tx Cx Cy Cz Tie Sph.
  destruct (C143_pixels m i ys xs lons lats fy fx HR HA Ax Spy Spx Hgy Hgx Dy Dx OG Ty Tx) as (olon & olat & E & _ & _ & P). exists olon, olat. split; [exact E|].
  intros p q r c Hp Hq Hr Hc y x Hy Hx e He Hdir.
  specialize (P p q r c Hp Hq (conj Hr (conj (or_intror (proj1 Hy)) (or_intror (proj2 Hy)))) (conj Hc (conj (or_intror (proj1 Hx)) (or_intror (proj2 Hx))))). cbv zeta in P. fold y x in P.
  destruct Ax as (Uy & Ux & Ly & Lx). destruct P as (a & b & h & A1 & A2 & A3 & _ & NE).
  assert (T : forall r c, (r < length ys)%nat -> (c < length xs)%nat -> geo_x (at2 0 lons r c) (at2 0 lats r c) = Fx (nth r ys 0) (nth c xs 0) /\
     geo_y (at2 0 lons r c) (at2 0 lats r c) = Fy (nth r ys 0) (nth c xs 0) /\ geo_z (at2 0 lons r c) (at2 0 lats r c) = Fz (nth r ys 0) (nth c xs 0)).
  { intros r' c' H1 H2. pose proof (Tie r' c' H1 H2) as G. cbv zeta in G. apply pair_inj in G. destruct G as [G G3]. apply pair_inj in G. destruct G as [G1 G2]. auto. }
  pose proof (C111_position ys xs _ Fx Ky Kx r c y x Uy Ux (fun a b Ha Hb => proj1 (T a b Ha Hb)) Cx Hr Hy Hc Hx) as Bx.
  pose proof (C111_position ys xs _ Fy Ky Kx r c y x Uy Ux (fun a b Ha Hb => proj1 (proj2 (T a b Ha Hb))) Cy Hr Hy Hc Hx) as By.
  pose proof (C111_position ys xs _ Fz Ky Kx r c y x Uy Ux (fun a b Ha Hb => proj2 (proj2 (T a b Ha Hb))) Cz Hr Hy Hc Hx) as Bz. fold e in Bx, By, Bz.
  assert (Iy : inside ys y) by (apply (cell_inside ys r y Uy Hr Hy)). assert (Ix : inside xs x) by (apply (cell_inside xs c x Ux Hc Hx)).
  assert (Axis : 20 <= Rabs (PropsGridLinear.bilinear ys xs (fun a b => geo_x (at2 0 lons a b) (at2 0 lats a b)) r c y x) \/ 20 <= Rabs (PropsGridLinear.bilinear ys xs (fun a b => geo_y (at2 0 lons a b) (at2 0 lats a b)) r c y x)).
  { destruct Hdir as [H|H]; [right; pose proof (apart_from_axis _ _ _ _ By H); lra|left]. assert (H' : e + 40 < Rabs (Fx y x)) by (pose proof (Rle_abs (Fx y x)); lra).
    pose proof (apart_from_axis _ _ _ _ Bx H'). lra. }
  specialize (NE Axis).
  destruct (computed 6370997 (8 / 10) (1 / 10) _ a b h _ _ _ (Fx y x) (Fy y x) (Fz y x) e 17 ltac:(rewrite Rminus_eq_0, Rabs_R0; lra) NE ltac:(lra) (Sph y x Iy Ix) A1 A2 A3 Bx By Bz)
    as (lon & lat & El & B); [unfold earth in He; lra|destruct Hdir; [left|right]; lra|].
  exists lon, lat. apply pair_inj in El. destruct El as [-> ->]. split; [reflexivity|]. split; [reflexivity|]. unfold earth. pose proof pi_degree. lra.
Qed.
Print Assumptions C144_grid.

(** ** Cases *)
(** VII on float32 arrays at 67 degrees north, tie points every 1/16 degree (7 km): every pixel is within 135 metres *)
Example C144_case_vii : forall m, in_range b64 pi64 m -> accurate b64 m -> accurate b32 m ->
  let vlon := fun i k : nat => 1 / 16 * INR k in let vlat := fun i k : nat => 67 + 1 / 16 * INR i in
  let lon := {| dims := (0, 1)%nat; nrows := 21; ncols := 100; at_ := fun i k => Some (vlon i k) |} in
  let lat := {| dims := (0, 1)%nat; nrows := 21; ncols := 100; at_ := fun i k => Some (vlat i k) |} in
  exists olon olat, tie_points_geo_interpolation_32 (F32 m) (F64 m) None lon lat 21 8 (Some 60) (Some (3277 / 4096)) = Ok (olon, olat) /\
    forall r a c b, (r < 20)%nat -> (a < 8)%nat -> (c < 99)%nat -> (b < 8)%nat -> let y := vii_y 8 r a in let x := vii_y 8 c b in
      exists l p, at_ olon (r * 8 + a)%nat (c * 8 + b)%nat = Some l /\ at_ olat (r * 8 + a)%nat (c * 8 + b)%nat = Some p /\
        distance (ground mean_earth l p) (ground mean_earth (1 / 16 * x) (67 + 1 / 16 * y)) <= 135.
Proof.
  intros m HR HA HA32 vlon vlat lon lat. pose proof degree_bounds as DB. set (d := PI / 180) in *. set (w1 := 1 / 16 * d). set (u0 := 67 * d).
  assert (W1 : 10875 / 10000000 <= w1 <= 10913 / 10000000) by (unfold w1; lra). assert (U0 : 0 <= u0 <= 117 / 100) by (unfold u0; lra).
  destruct (C144_vii m None lon lat vlon vlat 0 (1 / 16) 21 8 1 60 (3277 / 4096) HR HA HA32) as (olon & olat & E & H).
  - rewrite Rabs_pos_eq; lra.
  - split; [intros i k _ _; reflexivity|]. split; [|intros i k _ _; unfold vlon; rewrite Rminus_eq_0, Rabs_R0; lra]. intros i k Hi Hk. cbn [nrows ncols lon] in Hi, Hk. unfold vlon. rewrite INR_IZR_INZ. replace (1 / 16 * IZR (Z.of_nat k)) with (IZR (Z.of_nat k) / 16) by field.
    split; [apply fl_16; [apply good_b32|cbn; lia|cbn; lia|lia]|]. assert (0 <= IZR (Z.of_nat k) <= 100) by (split; apply IZR_le; lia). rewrite Rabs_pos_eq; lra.
  - split; [intros i k _ _; reflexivity|]. split; [|intros i k _ _; unfold vlat; rewrite plus_INR; cbn [INR]; apply Rabs_le; lra]. intros i k Hi Hk. cbn [nrows ncols lat] in Hi, Hk. unfold vlat. rewrite INR_IZR_INZ. replace (67 + 1 / 16 * IZR (Z.of_nat i)) with (IZR (1072 + Z.of_nat i) / 16) by (rewrite plus_IZR; field).
    split; [apply fl_16; [apply good_b32|cbn; lia|cbn; lia|lia]|]. assert (0 <= IZR (1072 + Z.of_nat i) <= 1100) by (split; apply IZR_le; lia). rewrite Rabs_pos_eq; lra.
  - exists lon, [lat]. repeat split; try (cbn; lia). repeat constructor.
  - lia.
  - left. exists 0%nat, 0%nat. cbn [nrows ncols lon]. split; [lia|]. split; [lia|]. unfold vlat. cbn [INR]. rewrite Rabs_pos_eq; lra.
  - exists olon, olat. split; [exact E|]. intros r a c b Hr Ha Hc Hb y x.
    assert (KB : 0 <= mean_earth * w1 ^ 2 <= 759 / 100).
    { assert (w1 ^ 2 <= (10913 / 10000000) ^ 2) by (apply pow_incr; lra). pose proof (pow2_ge_0 w1). unfold mean_earth. lra. }
    assert (Rx : 0 <= x <= 99). { pose proof (vii_range 8 100 c b Hb ltac:(lia)) as R. fold x in R. cbn in R. lra. }
    assert (Ry : 0 <= y <= 20). { pose proof (vii_range 8 21 r a Ha ltac:(lia)) as R. fold y in R. cbn in R. lra. }
    assert (WX : 0 <= w1 * x <= 11 / 100) by nra. assert (WY : 0 <= w1 * y <= 3 / 100) by nra.
    destruct (H 0%nat (case_x mean_earth u0 w1 w1) (case_y mean_earth u0 w1 w1) (case_z mean_earth u0 w1 w1) (mean_earth * w1 ^ 2) (mean_earth * w1 ^ 2) ltac:(lia)) with (r := r) (a := a) (c := c) (b := b) as (l & p & E1 & E2 & B); auto.
    + destruct (case_degrees mean_earth 67 (1 / 16) (1 / 16) 21 100) as (S1 & S2 & S3 & S4 & S5); [unfold mean_earth; lra|]. split; [exact S1|]. split; [exact S2|]. split; [exact S3|]. split; [exact S4|].
      intros i k Hi Hk. pose proof (S5 i k Hi Hk) as S. cbv zeta in S |- *. unfold vlon, vlat. rewrite Nat.mul_0_l, Nat.add_0_l, !INR_IZR_INZ, !Z2Nat.id by lia. exact S.
    + unfold mean_earth at 3. lra.
    + right. fold y x. unfold case_x.
      assert (C1 : 1 / 4 <= cos (u0 + w1 * y)) by (eapply Rle_trans; [|apply cos_ge]; nra).
      assert (C2 : 1 / 4 <= cos (w1 * x)) by (eapply Rle_trans; [|apply cos_ge]; nra).
      assert (C3 : 1 / 16 <= cos (u0 + w1 * y) * cos (w1 * x)) by nra. rewrite Rmult_assoc. unfold mean_earth at 3. lra.
    + exists l, p. split; [exact E1|]. split; [exact E2|]. fold y x in B.
      replace (ground mean_earth (1 / 16 * x) (67 + 1 / 16 * y)) with (case_x mean_earth u0 w1 w1 y x, case_y mean_earth u0 w1 w1 y x, case_z mean_earth u0 w1 w1 y x); [lra|].
      unfold ground, case_x, case_y, case_z. fold d. replace ((67 + 1 / 16 * y) * d) with (u0 + w1 * y) by (unfold u0, w1; ring). replace (1 / 16 * x * d) with (w1 * x) by (unfold w1; ring). reflexivity.
Qed.
(** the geo grid interpolator on float32 arrays: four tie points a degree apart; the pixel in the middle is within 26 km *)
Example C144_case_grid : forall m i, in_range b32 pi32 m -> accurate b32 m ->
  exists olon olat l p, geo_grid32 m i [0; 1] [0; 1] [[0; 1]; [0; 1]] [[20; 20]; [21; 21]] [1 / 2] [1 / 2] = Ok (olon, olat) /\
    at2 None olon 0 0 = Some l /\ at2 None olat 0 0 = Some p /\ distance (ground earth l p) (ground earth (1 / 2) (20 + 1 / 2)) <= 26000.
Proof.
  intros m i HR HA. pose proof degree_bounds as DB. set (d := PI / 180) in *. set (u0 := 20 * d).
  assert (D0 : 0 <= d <= 1746 / 100000) by lra.
  destruct (case_degrees earth 20 1 1 2 2) as (S1 & S2 & S3 & S4 & S5); [unfold earth; lra|]. fold d in S1, S2, S3, S4, S5. fold u0 in S1, S2, S3, S4, S5. set (K := earth * (1 * d) ^ 2) in *.
  assert (KB : 0 <= K <= 1943). { unfold K, earth. assert ((1 * d) ^ 2 <= (1746 / 100000) ^ 2) by (apply pow_incr; lra). pose proof (pow2_ge_0 (1 * d)). lra. }
  assert (CF : forall G, scan_field 2 2 G K K -> curved_field [0; 1] [0; 1] G K K).
  { intros G [A B]. split.
    - intros r Hr. cbn [length] in Hr. destruct (A (Z.of_nat r) ltac:(lia)) as (f1 & f2 & Q). exists f1, f2. intros x Hx. cbn in Hx.
      destruct r as [|[|r]]; [| |lia]; apply Q; lra.
    - intros x Hx. destruct Hx as [X1 X2]. cbn in X1, X2. destruct (B x ltac:(lra)) as (f1 & f2 & Q). exists f1, f2. intros y Hy. cbn in Hy. apply Q. lra. }
  assert (SP : forall y x, ground earth (1 * x) (20 + 1 * y) = (case_x earth u0 (1 * d) (1 * d) y x, case_y earth u0 (1 * d) (1 * d) y x, case_z earth u0 (1 * d) (1 * d) y x)).
  { intros y x. unfold ground, case_x, case_y, case_z. fold d. replace ((20 + 1 * y) * d) with (u0 + 1 * d * y) by (unfold u0; ring). replace (1 * x * d) with (1 * d * x) by ring. reflexivity. }
  assert (HF : fl b64 (1 / 2)). { replace (1 / 2) with (IZR 8 / 16) by lra. apply fl_16; [apply good_b64|cbn; lia|cbn; lia|lia]. }
  assert (IN : forall l, inside [0; 1] l -> 0 <= l <= 1) by (intros l [A B]; cbn in A, B; lra).
  destruct (C144_grid m i [0; 1] [0; 1] [[0; 1]; [0; 1]] [[20; 20]; [21; 21]] [1 / 2] [1 / 2] (case_x earth u0 (1 * d) (1 * d)) (case_y earth u0 (1 * d) (1 * d)) (case_z earth u0 (1 * d) (1 * d)) K K HR HA) as (olon & olat & E & H); auto.
  - repeat split; try (cbn; lia); intros a b H; destruct a as [|[|a]]; destruct b as [|[|b]]; cbn in *; try lia; lra.
  - intros k H. destruct k; cbn in *; [lra|lia].
  - intros k H. destruct k; cbn in *; [lra|lia].
  - repeat (apply Forall_cons; [rewrite Rabs_pos_eq by lra; apply Rle_trans with (bpow radix2 0); [cbn; lra|apply bpow_le; lia]|]). apply Forall_nil.
  - repeat (apply Forall_cons; [rewrite Rabs_pos_eq by lra; apply Rle_trans with (bpow radix2 0); [cbn; lra|apply bpow_le; lia]|]). apply Forall_nil.
  - repeat (apply Forall_cons; [apply fl_int; lia|]). apply Forall_nil.
  - repeat (apply Forall_cons; [apply fl_int; lia|]). apply Forall_nil.
  - split; [split; [reflexivity|repeat constructor]|]. split; [split; [reflexivity|repeat constructor]|].
    intros r c Hr Hc. destruct r as [|[|r]]; [| |cbn in Hr; lia]; (destruct c as [|[|c]]; [| |cbn in Hc; lia]); unfold at2; cbn; split; apply Rabs_le; lra.
  - apply Forall_cons; [split; [apply HF|unfold inside; cbn; lra]|apply Forall_nil].
  - apply Forall_cons; [split; [apply HF|unfold inside; cbn; lra]|apply Forall_nil].
  - intros r c Hr Hc. destruct r as [|[|r]]; [| |cbn in Hr; lia]; (destruct c as [|[|c]]; [| |cbn in Hc; lia]); unfold at2; cbn [nth]; rewrite <- SP; [f_equal..].
    all: ring.
  - intros y x Hy Hx. apply IN in Hy, Hx. apply S4; lra.
  - specialize (H 0%nat 0%nat 0%nat 0%nat ltac:(cbn; lia) ltac:(cbn; lia) ltac:(cbn; lia) ltac:(cbn; lia)). cbv zeta in H. unfold gap in H. cbn [nth] in H.
    destruct H as (l & p & E1 & E2 & B); [lra|lra|unfold earth at 1; lra| |].
    + right. unfold case_x. assert (C1 : 1 / 2 <= cos (u0 + 1 * d * (1 / 2))) by (eapply Rle_trans; [|apply cos_ge]; unfold u0; nra).
      assert (C2 : 1 / 2 <= cos (1 * d * (1 / 2))) by (eapply Rle_trans; [|apply cos_ge]; nra). assert (1 / 4 <= cos (u0 + 1 * d * (1 / 2)) * cos (1 * d * (1 / 2))) by nra. rewrite Rmult_assoc. unfold earth at 1. lra.
    + exists olon, olat, l, p. split; [exact E|]. split; [exact E1|]. split; [exact E2|]. replace (20 + 1 / 2) with (20 + 1 * (1 / 2)) by ring. replace (1 / 2) with (1 * (1 / 2)) at 1 by ring. rewrite SP. lra.
Qed.
