(** C137: accuracy on the ground of what is computed in floating point: error of the method plus rounding errors. *)
From Coq Require Import ZArith List Bool Arith Lia Reals Lra.
From Flocq.Core Require Import Core.
From Verif Require Import Spec Base Num Geo GeoProofs GeoAgree Mem PiBound Float FloatGeo FloatAcc FloatTrip PropsFloat PropsFloatAcc PropsFloatTrip FloatNear FloatModis FloatPixel.
From Verif Require Import Modis ModisProofs ModisOob ModisAngles SimpleModis SimpleModisProofs SimpleModisReal Chunks ChunksProofs GridLinear Vii ViiProofs.
From Verif Require Import PropsGeo PropsVii PropsModis PropsSimple PropsChunks PropsGridLinear PropsModisValues PropsFloatModis FloatSimple PropsFloatSimple FloatSimple64 PropsFloatSimple64.
From Verif Require Import FloatGrid FloatVii PropsFloatGrid PropsFloatVii PropsFloatGeoGrid PropsInterp LegacyTie PropsLegacyRows PropsCubic PropsAccuracy PropsGround PropsScanAcc PropsViewing.
Import ListNotations.
Open Scope Z_scope.
Open Scope R_scope.
Notation distance := PropsGround.distance.
Notation on_sphere := PropsGround.on_sphere.

(** ** From degrees to metres *)
Lemma ground_shift r lon lat lon' lat' : 0 <= r ->
  distance (ground r lon lat) (ground r lon' lat') <= r * (PI / 180) * (Rabs (lon - lon') + Rabs (lat - lat')).
Proof.
  intros Hr. assert (S0 : 0 < PI / 180) by (pose proof PI_RGT_0; lra).
  set (k := PI / 180) in *. eapply Rle_trans; [apply (distance_triangle _ (ground r lon' lat))|].
  assert (A : distance (ground r lon lat) (ground r lon' lat) <= r * (k * Rabs (lon - lon'))).
  { unfold ground. fold k. unfold PropsGround.distance.
    replace (_ + _) with ((r * cos (lat * k)) ^ 2 * ((cos (lon * k) - cos (lon' * k)) ^ 2 + (sin (lon * k) - sin (lon' * k)) ^ 2)) by ring.
    rewrite sqrt_mult_alt by apply pow2_ge_0. rewrite <- Rsqr_pow2, sqrt_Rsqr_abs. apply Rmult_le_compat; try apply Rabs_pos; try apply sqrt_pos.
    - rewrite Rabs_mult, (Rabs_pos_eq r) by exact Hr. rewrite <- (Rmult_1_r r) at 2. apply Rmult_le_compat_l; [exact Hr|]. apply Rabs_le, COS_bound.
    - eapply Rle_trans; [apply chord_arc|]. rewrite <- Rmult_minus_distr_r, Rabs_mult, (Rabs_pos_eq k) by lra. lra. }
  assert (B : distance (ground r lon' lat) (ground r lon' lat') <= r * (k * Rabs (lat - lat'))).
  { unfold ground. fold k. unfold PropsGround.distance. pose proof (sin2_cos2 (lon' * k)) as SC. unfold Rsqr in SC.
    replace (_ + _) with (r ^ 2 * ((cos (lat * k) - cos (lat' * k)) ^ 2 * (sin (lon' * k) * sin (lon' * k) + cos (lon' * k) * cos (lon' * k)) + (sin (lat * k) - sin (lat' * k)) ^ 2)) by ring.
    rewrite SC, Rmult_1_r, sqrt_mult_alt by apply pow2_ge_0. rewrite <- Rsqr_pow2, sqrt_Rsqr by exact Hr. apply Rmult_le_compat_l; [exact Hr|].
    eapply Rle_trans; [apply chord_arc|]. rewrite <- Rmult_minus_distr_r, Rabs_mult, (Rabs_pos_eq k) by lra. lra. }
  lra.
Qed.
Lemma box_distance x y z X Y Z e : Rabs (x - X) <= e -> Rabs (y - Y) <= e -> Rabs (z - Z) <= e -> distance (x, y, z) (X, Y, Z) <= 7 / 4 * e.
Proof.
  intros Hx Hy Hz. assert (E0 : 0 <= e) by (eapply Rle_trans; [apply Rabs_pos|exact Hx]).
  unfold PropsGround.distance. rewrite <- (sqrt_square (7 / 4 * e)) by lra. apply sqrt_le_1_alt.
  assert (Q : forall a, Rabs a <= e -> a ^ 2 <= e ^ 2) by (intros a Ha; rewrite <- !Rsqr_pow2; apply Rsqr_le_abs_1; rewrite (Rabs_pos_eq e) by lra; exact Ha).
  pose proof (Q _ Hx). pose proof (Q _ Hy). pose proof (Q _ Hz). pose proof (pow2_ge_0 e). lra.
Qed.
Lemma coordinates_of x y z X Y Z d : distance (x, y, z) (X, Y, Z) <= d -> Rabs (x - X) <= d /\ Rabs (y - Y) <= d /\ Rabs (z - Z) <= d.
Proof.
  intros H. unfold PropsGround.distance in H.
  assert (G : forall a, a ^ 2 <= (x - X) ^ 2 + (y - Y) ^ 2 + (z - Z) ^ 2 -> Rabs a <= d).
  { intros a Ha. eapply Rle_trans; [|exact H]. rewrite <- sqrt_Rsqr_abs. apply sqrt_le_1_alt. rewrite Rsqr_pow2. exact Ha. }
  pose proof (pow2_ge_0 (x - X)). pose proof (pow2_ge_0 (y - Y)). pose proof (pow2_ge_0 (z - Z)). repeat split; apply G; lra.
Qed.
(** a result near that of exact arithmetic is near the true point *)
Lemma near_ground r t e x y z ll P d : Rabs (t - 8 / 10) <= / 2000 -> near_exact r t e x y z ll -> 0 < r -> on_sphere r P -> distance (x, y, z) P <= d -> d <= r / 100 ->
  y <> 0 \/ 0 < x ->
  exists lon lat, ll = (Some lon, Some lat) /\ distance (ground r lon lat) P <= 4 * d + r * (PI / 180) * (2 * e).
Proof.
  intros Ht (thr & lon & lat & lon0 & lat0 & Hthr & E & El & D1 & D2) Hr HP Hd Hd' Hdir.
  destruct (ground_threshold thr r x y z P d) as (l & p & E' & B); auto.
  { apply Rabs_le_inv in Ht, Hthr. lra. }
  rewrite E in E'. injection E' as <- <-. exists lon, lat. split; [exact El|].
  eapply Rle_trans; [apply (distance_triangle _ (ground r lon0 lat0))|]. pose proof (ground_shift r lon lat lon0 lat0 ltac:(lra)) as S.
  assert (K : r * (PI / 180) * (Rabs (lon - lon0) + Rabs (lat - lat0)) <= r * (PI / 180) * (2 * e)).
  { apply Rmult_le_compat_l; [|lra]. pose proof PI_RGT_0. apply Rmult_le_pos; lra. }
  lra.
Qed.
Lemma pi_degree : PI / 180 <= 1746 / 100000.
Proof. pose proof PI_bounds. lra. Qed.
Lemma apart_from_axis a A e d : Rabs (a - A) <= e -> e + d < Rabs A -> d <= Rabs a.
Proof. intros H1 H2. unfold Rabs in *. destruct (Rcase_abs (a - A)), (Rcase_abs A), (Rcase_abs a); lra. Qed.
Lemma near_near a b c e d : Rabs (a - b) <= e -> Rabs (b - c) <= d -> Rabs (a - c) <= e + d.
Proof. intros H1 H2. apply Rabs_le_inv in H1, H2. apply Rabs_le. lra. Qed.
(** the common part: the computed position is within [far] of a position within [e] of the truth *)
Lemma computed r t tol ll x y z px py pz X Y Z e far : Rabs (t - 8 / 10) <= / 2000 -> near_exact r t tol x y z ll -> 0 < r -> on_sphere r (X, Y, Z) ->
  Rabs (x - px) <= far -> Rabs (y - py) <= far -> Rabs (z - pz) <= far -> Rabs (px - X) <= e -> Rabs (py - Y) <= e -> Rabs (pz - Z) <= e ->
  far + e <= r / 175 -> far + e < Rabs Y \/ far + e < X ->
  exists lon lat, ll = (Some lon, Some lat) /\ distance (ground r lon lat) (X, Y, Z) <= 7 * (far + e) + r * (PI / 180) * (2 * tol).
Proof.
  intros Ht NE Hr HP F1 F2 F3 E1 E2 E3 Hs Hdir.
  pose proof (near_near _ _ _ _ _ F1 E1) as D1. pose proof (near_near _ _ _ _ _ F2 E2) as D2. pose proof (near_near _ _ _ _ _ F3 E3) as D3.
  destruct (near_ground r t tol x y z ll (X, Y, Z) (7 / 4 * (far + e)) Ht NE Hr HP (box_distance _ _ _ _ _ _ _ D1 D2 D3)) as (lon & lat & E & B); [lra| |].
  - destruct Hdir as [H|H]; [left; intros ->; rewrite Rminus_0_l, Rabs_Ropp in D2; lra|right; apply Rabs_le_inv in D1; lra].
  - exists lon, lat. split; [exact E|]. lra.
Qed.

(** ** GeoGridInterpolator on double arrays *)
Theorem C137_grid : forall m i ys xs lons lats fy fx (Fx Fy Fz : R -> R -> R) Ky Kx,
  in_range b64 pi64 m -> accurate b64 m -> axes ys xs -> spaced ys -> spaced xs -> PropsFloatGrid.doubles ys -> PropsFloatGrid.doubles xs ->
  on_globe lons lats (length ys) (length xs) -> Forall (target ys) fy -> Forall (target xs) fx ->
  curved_field ys xs Fx Ky Kx -> curved_field ys xs Fy Ky Kx -> curved_field ys xs Fz Ky Kx ->
  tie_points_on ys xs lons lats Fx Fy Fz -> spherical ys xs Fx Fy Fz ->
  exists olon olat, geo_grid64 m i ys xs lons lats fy fx = Ok (olon, olat) /\
    forall p q r c, (p < length fy)%nat -> (q < length fx)%nat -> (S r < length ys)%nat -> (S c < length xs)%nat ->
      let y := nth p fy 0 in let x := nth q fx 0 in nth r ys 0 <= y <= nth (S r) ys 0 -> nth c xs 0 <= x <= nth (S c) xs 0 ->
      let e := (Ky * gap ys r ^ 2 + Kx * gap xs c ^ 2) / 8 in e + / 100 <= earth / 175 -> e + / 100 < Rabs (Fy y x) \/ e + / 100 < Fx y x ->
      exists lon lat, at2 None olon p q = Some lon /\ at2 None olat p q = Some lat /\ distance (ground earth lon lat) (Fx y x, Fy y x, Fz y x) <= 7 * e + 6 / 5.
Proof.
  intros m i ys xs lons lats fy fx Fx Fy Fz Ky Kx HR HA Ax Spy Spx Dy Dx OG Ty Tx Cx Cy Cz Tie Sph.
  destruct (C131_pixels m i ys xs lons lats fy fx HR HA Ax Spy Spx Dy Dx OG Ty Tx) as (olon & olat & E & _ & _ & P). exists olon, olat. split; [exact E|].
  intros p q r c Hp Hq Hr Hc y x Hy Hx e He Hdir.
  specialize (P p q r c Hp Hq (conj Hr (conj (or_intror (proj1 Hy)) (or_intror (proj2 Hy)))) (conj Hc (conj (or_intror (proj1 Hx)) (or_intror (proj2 Hx))))). cbv zeta in P. fold y x in P.
  destruct Ax as (Uy & Ux & Ly & Lx). destruct P as (a & b & h & A1 & A2 & A3 & _ & NE).
  assert (T : forall r c, (r < length ys)%nat -> (c < length xs)%nat -> geo_x (at2 0 lons r c) (at2 0 lats r c) = Fx (nth r ys 0) (nth c xs 0) /\
     geo_y (at2 0 lons r c) (at2 0 lats r c) = Fy (nth r ys 0) (nth c xs 0) /\ geo_z (at2 0 lons r c) (at2 0 lats r c) = Fz (nth r ys 0) (nth c xs 0)).
  { intros r' c' H1 H2. pose proof (Tie r' c' H1 H2) as G. cbv zeta in G. apply pair_inj in G. destruct G as [G G3]. apply pair_inj in G. destruct G as [G1 G2]. auto. }
  pose proof (C111_position ys xs _ Fx Ky Kx r c y x Uy Ux (fun a b Ha Hb => proj1 (T a b Ha Hb)) Cx Hr Hy Hc Hx) as Bx.
  pose proof (C111_position ys xs _ Fy Ky Kx r c y x Uy Ux (fun a b Ha Hb => proj1 (proj2 (T a b Ha Hb))) Cy Hr Hy Hc Hx) as By.
  pose proof (C111_position ys xs _ Fz Ky Kx r c y x Uy Ux (fun a b Ha Hb => proj2 (proj2 (T a b Ha Hb))) Cz Hr Hy Hc Hx) as Bz. fold e in Bx, By, Bz.
  assert (Iy : inside ys y) by (apply (cell_inside ys r y Uy Hr Hy)). assert (Ix : inside xs x) by (apply (cell_inside xs c x Ux Hc Hx)).
  assert (Axis : / 1000000 <= Rabs (PropsGridLinear.bilinear ys xs (fun a b => geo_x (at2 0 lons a b) (at2 0 lats a b)) r c y x) \/ / 1000000 <= Rabs (PropsGridLinear.bilinear ys xs (fun a b => geo_y (at2 0 lons a b) (at2 0 lats a b)) r c y x)).
  { destruct Hdir as [H|H]; [right; pose proof (apart_from_axis _ _ _ _ By H); lra|left]. assert (H' : e + / 100 < Rabs (Fx y x)) by (pose proof (Rle_abs (Fx y x)); lra).
    pose proof (apart_from_axis _ _ _ _ Bx H'). lra. }
  specialize (NE Axis).
  destruct (computed 6370997 (8 / 10) (5 / 1000000) _ a b h _ _ _ (Fx y x) (Fy y x) (Fz y x) e (50 / 1000000000) ltac:(rewrite Rminus_eq_0, Rabs_R0; lra) NE ltac:(lra) (Sph y x Iy Ix) A1 A2 A3 Bx By Bz)
    as (lon & lat & El & B); [unfold earth in He; lra|destruct Hdir; [left|right]; lra|].
  exists lon, lat. apply pair_inj in El. destruct El as [-> ->]. split; [reflexivity|]. split; [reflexivity|]. unfold earth. pose proof pi_degree. lra.
Qed.
Print Assumptions C137_grid.

(** ** simple_modis_interpolator on double arrays *)
Lemma any_steps w s (lo la : Z -> Z -> R) : steps w s lo la 12741994.
Proof.
  assert (G : forall a b c d : R, step_le 12741994 a b c d).
  { assert (B : forall c a, -1 <= c <= 1 -> -1 <= a <= 1 -> Rabs (6370997 * c * a) <= 6370997).
    { intros c a Hc Ha. rewrite !Rabs_mult, (Rabs_pos_eq 6370997) by lra. apply Rabs_le in Hc, Ha.
      assert (0 <= Rabs c * Rabs a <= 1); [split; [apply Rmult_le_pos; apply Rabs_pos|]|lra]. rewrite <- (Rmult_1_r 1). apply Rmult_le_compat; auto using Rabs_pos. }
    assert (D : forall a b, Rabs a <= 6370997 -> Rabs b <= 6370997 -> Rabs (a - b) <= 12741994) by (intros a b Ha Hb; apply Rabs_le_inv in Ha, Hb; apply Rabs_le; lra).
    intros a b c d. unfold step_le, at_x, at_y, at_z. repeat split; apply D; try (apply B; apply COS_bound || apply SIN_bound).
    all: rewrite <- (Rmult_1_r (6370997 * sin _)); apply B; [apply SIN_bound|lra]. }
  split; intros; apply G.
Qed.
Theorem C137_simple : forall m k g n w (lon lat olon olat : ndarray (option R)) (lo la : Z -> Z -> R) s Fx Fy Fz Ky Kx,
  in_range b64 pi64 m -> accurate b64 m -> (0 <= n)%Z -> (2 <= w < 2 ^ 22)%Z -> shaped2 Float64 n w lon lat ->
  (forall a b, (0 <= a < n)%Z -> (0 <= b < w)%Z -> aat lon a b = Some (lo a b) /\ aat lat a b = Some (la a b) /\ Rabs (lo a b) <= 180 /\ Rabs (la a b) <= 90) ->
  @simple _ (F64 m) k g lon lat = Ok (olon, olat) -> (0 <= s)%Z -> ((s + 1) * 10 <= n)%Z ->
  true_scan 6370997 10 w (fun a => lo (s * 10 + a)%Z) (fun a => la (s * 10 + a)%Z) Fx Fy Fz Ky Kx ->
  forall r i, (0 <= r < fac2 k * 10)%Z -> (0 <= i < fac2 k * w)%Z -> let y := row_pos k r in let x := col_pos k i in
    let e := bilinear_error 10 w Ky Kx y x in e + 2 <= 6370997 / 175 -> e + 2 < Rabs (Fy y x) \/ e + 2 < Fx y x ->
    exists l p, aat olon (s * (fac2 k * 10) + r)%Z i = Some l /\ aat olat (s * (fac2 k * 10) + r)%Z i = Some p /\
      distance (ground 6370997 l p) (Fx y x, Fy y x, Fz y x) <= 7 * e + 6 / 5.
Proof.
  intros m k g n w lon lat olon olat lo la s Fx Fy Fz Ky Kx HR HA Hn Hw S F O Hs Hsn (Sx & Sy & Sz & Sp & Tie) r i Hr Hi y x e He Hd.
  destruct (C135_pixels m k g n w lon lat olon olat lo la HR HA Hn Hw S F O s r i Hs Hsn Hr Hi) as (a & b & h & P). cbv zeta in P. fold y x in P. destruct P as (_ & P1 & _ & P2).
  specialize (P1 _ (any_steps w s lo la)). specialize (P2 _ P1). destruct P1 as (A1 & A2 & A3).
  destruct (proj1 C125_constants k r Hr) as (Ry & _). fold y in Ry. destruct (proj1 (proj2 C125_constants) k w i ltac:(lia) Hi) as (Rx & _). fold x in Rx.
  assert (B : forall coordinate G, scan_field 10 w G Ky Kx ->
     (forall a c, (0 <= a < 10)%Z -> (0 <= c < w)%Z -> coordinate (lo (s * 10 + a)%Z c) (la (s * 10 + a)%Z c) = G (IZR a) (IZR c)) ->
     Rabs (PropsSimple.bilinear 10 w (fun a b => coordinate (lo (s * 10 + a)%Z b) (la (s * 10 + a)%Z b)) y x - G y x) <= e).
  { intros coordinate G SG T. unfold e, bilinear_error. apply C125_bilinear; auto; try lia; lra. }
  assert (T : forall a c, (0 <= a < 10)%Z -> (0 <= c < w)%Z -> at_x (lo (s * 10 + a)%Z c) (la (s * 10 + a)%Z c) = Fx (IZR a) (IZR c) /\
     at_y (lo (s * 10 + a)%Z c) (la (s * 10 + a)%Z c) = Fy (IZR a) (IZR c) /\ at_z (lo (s * 10 + a)%Z c) (la (s * 10 + a)%Z c) = Fz (IZR a) (IZR c)).
  { intros a' c Ha Hc. apply ground_coordinates. exact (Tie a' c Ha Hc). }
  pose proof (B at_x Fx Sx (fun a c Ha Hc => proj1 (T a c Ha Hc))) as Bx. pose proof (B at_y Fy Sy (fun a c Ha Hc => proj1 (proj2 (T a c Ha Hc)))) as By. pose proof (B at_z Fz Sz (fun a c Ha Hc => proj2 (proj2 (T a c Ha Hc)))) as Bz.
  set (px := PropsSimple.bilinear 10 w (fun a b => at_x (lo (s * 10 + a)%Z b) (la (s * 10 + a)%Z b)) y x) in *.
  set (py := PropsSimple.bilinear 10 w (fun a b => at_y (lo (s * 10 + a)%Z b) (la (s * 10 + a)%Z b)) y x) in *.
  set (pz := PropsSimple.bilinear 10 w (fun a b => at_z (lo (s * 10 + a)%Z b) (la (s * 10 + a)%Z b)) y x) in *. clearbody px py pz. clear B T.
  pose proof (Sp y x ltac:(lra) ltac:(lra)) as SP.
  set (far := 3e-6 + 12741994 / 10000000000000) in *. assert (Hfar : 0 <= far <= 5e-6) by (unfold far; lra). clearbody far.
  assert (E0 : 0 <= e) by (eapply Rle_trans; [apply Rabs_pos|exact Bx]).
  assert (NE : near_exact 6370997 (8 / 10) (5 / 1000000) a b h (aat olon (s * (fac2 k * 10) + r)%Z i, aat olat (s * (fac2 k * 10) + r)%Z i)).
  { apply P2; [lra| |].
    - assert (Q : forall q G, Rabs (q - G) <= e -> q * q <= 1001 / 1000 * G ^ 2 + 1001 * e ^ 2).
      { intros q G Hq. assert (Hq2 : (q - G) ^ 2 <= e ^ 2) by (rewrite <- !Rsqr_pow2; apply Rsqr_le_abs_1; rewrite (Rabs_pos_eq e) by lra; exact Hq).
        pose proof (pow2_ge_0 (G - 1000 * (q - G))). nra. }
      pose proof (Q _ _ Bx). pose proof (Q _ _ By). pose proof (Q _ _ Bz). unfold PropsGround.on_sphere in SP.
      assert (e ^ 2 <= (6370997 / 175) ^ 2) by (apply pow_incr; lra). lra.
    - destruct Hd as [H|H]; [right; pose proof (apart_from_axis _ _ _ _ By H); lra|left]. assert (H' : e + 2 < Rabs (Fx y x)) by (pose proof (Rle_abs (Fx y x)); lra).
      pose proof (apart_from_axis _ _ _ _ Bx H'). lra. }
  destruct (computed 6370997 (8 / 10) (5 / 1000000) _ a b h px py pz (Fx y x) (Fy y x) (Fz y x) e far ltac:(rewrite Rminus_eq_0, Rabs_R0; lra) NE ltac:(lra) SP A1 A2 A3 Bx By Bz)
    as (l & p & El & D); [lra|destruct Hd; [left|right]; lra|].
  exists l, p. apply pair_inj in El. destruct El as [-> ->]. split; [reflexivity|]. split; [reflexivity|]. pose proof pi_degree. lra.
Qed.
Print Assumptions C137_simple.

(** ** viiinterpolator on double arrays *)
Lemma four_near (v : nat -> nat -> R) G Ky Kx (s f ncol j r a c b : nat) :
  (r < s - 1)%nat -> (a < f)%nat -> (c < ncol - 1)%nat -> (b < f)%nat -> scan_field (Z.of_nat s) (Z.of_nat ncol) G Ky Kx ->
  (forall i k, (0 <= i < Z.of_nat s)%Z -> (0 <= k < Z.of_nat ncol)%Z -> v (j * s + Z.to_nat i)%nat (Z.to_nat k) = G (IZR i) (IZR k)) ->
  Rabs (four v (j * s + r) c (INR a / INR f) (INR b / INR f) - G (vii_y f r a) (vii_y f c b)) <= (Ky + Kx) / 8.
Proof.
  intros Hr Ha Hc Hb SG T. pose proof (vii_range f s r a Ha Hr) as Ry. pose proof (vii_range f ncol c b Hb Hc) as Rx.
  pose proof Ry as Ry'. pose proof Rx as Rx'. rewrite minus_IZR in Ry', Rx'.
  pose proof (C125_bilinear (Z.of_nat s) (Z.of_nat ncol) (fun i k => v (j * s + Z.to_nat i)%nat (Z.to_nat k)) G Ky Kx (vii_y f r a) (vii_y f c b)
    ltac:(lia) ltac:(lia) SG T ltac:(lra) ltac:(lra)) as B.
  rewrite (order2_in _ _ Ry), (order2_in _ _ Rx), (overhang_in _ _ Ry) in B.
  replace (four v (j * s + r) c (INR a / INR f) (INR b / INR f)) with (PropsSimple.bilinear (Z.of_nat s) (Z.of_nat ncol) (fun i k => v (j * s + Z.to_nat i)%nat (Z.to_nat k)) (vii_y f r a) (vii_y f c b)); [lra|].
  assert (F0 : forall m, (m < f)%nat -> 0 <= INR m / INR f < 1).
  { intros m Hm. apply lt_INR in Hm as Hm'. assert (0 < INR f) by (apply lt_0_INR; lia). split; [apply Rle_mult_inv_pos; [apply pos_INR|lra]|].
    apply (Rmult_lt_reg_r (INR f)); [lra|]. unfold Rdiv. rewrite Rmult_assoc, Rinv_l by lra. lra. }
  pose proof (F0 a Ha) as Fa. pose proof (F0 b Hb) as Fb. unfold PropsSimple.bilinear, vii_y, four.
  set (t := INR a / INR f) in *. set (u := INR b / INR f) in *. clearbody t u.
  assert (Pc : forall g : Z -> R, pwl (Z.of_nat ncol) g (INR c + u) = g (Z.of_nat c) + u * (g (Z.of_nat c + 1)%Z - g (Z.of_nat c))).
  { intros g. rewrite (pwl_piece _ g _ (Z.of_nat c)); [|lia|right; rewrite <- INR_IZR_INZ; lra|right; rewrite <- INR_IZR_INZ; lra]. rewrite <- INR_IZR_INZ. ring. }
  rewrite (pwl_piece _ _ _ (Z.of_nat r)); [|lia|right; rewrite <- INR_IZR_INZ; lra|right; rewrite <- INR_IZR_INZ; lra].
  rewrite !Pc, <- INR_IZR_INZ. replace (Z.to_nat (Z.of_nat r + 1)) with (r + 1)%nat by lia. replace (Z.to_nat (Z.of_nat c + 1)) with (c + 1)%nat by lia. rewrite !Nat2Z.id.
  rewrite Nat.add_assoc. ring.
Qed.
Theorem C137_vii_direct : forall m nan lon lat vlon vlat s f n_scans thr zt,
  doubles lon vlon 180 -> doubles lat vlat 90 -> args_ok [lon; lat] s f n_scans -> (Z.of_nat f <= 10000)%Z -> safe_lonlat lon vlon vlat thr ->
  exists olon olat, @tie_points_geo_interpolation _ (F64 m) nan lon lat s f (Some thr) zt = Ok (olon, olat) /\
    forall j G H Ky Kx, (j < n_scans)%nat ->
      scan_field (Z.of_nat s) (Z.of_nat (ncols lon)) G Ky Kx -> scan_field (Z.of_nat s) (Z.of_nat (ncols lon)) H Ky Kx ->
      (forall i k, (0 <= i < Z.of_nat s)%Z -> (0 <= k < Z.of_nat (ncols lon))%Z ->
         vlon (j * s + Z.to_nat i)%nat (Z.to_nat k) = G (IZR i) (IZR k) /\ vlat (j * s + Z.to_nat i)%nat (Z.to_nat k) = H (IZR i) (IZR k)) ->
      forall r a c b, (r < s - 1)%nat -> (a < f)%nat -> (c < ncols lon - 1)%nat -> (b < f)%nat ->
        exists l p, at_ olon (j * (s - 1) * f + r * f + a)%nat (c * f + b)%nat = Some l /\ at_ olat (j * (s - 1) * f + r * f + a)%nat (c * f + b)%nat = Some p /\
          Rabs (l - G (vii_y f r a) (vii_y f c b)) <= (Ky + Kx) / 8 + 3 / 10000000000000 /\ Rabs (p - H (vii_y f r a) (vii_y f c b)) <= (Ky + Kx) / 8 + 3 / 10000000000000.
Proof.
  intros m nan lon lat vlon vlat s f n_scans thr zt D1 D2 Ha Hf Hs.
  destruct (C89_geodetic m nan lon lat vlon vlat s f n_scans thr zt D1 D2 Ha Hf Hs) as (olon & olat & E & P). exists olon, olat. split; [exact E|].
  intros j G H Ky Kx Hj SG SH T r a c b Hr Hfa Hc Hfb. destruct (P j r a c b Hj Hr Hfa Hc Hfb) as [(l & -> & _ & L) (p & -> & _ & L')].
  pose proof (four_near vlon G Ky Kx s f (ncols lon) j r a c b Hr Hfa Hc Hfb SG (fun i k Hi Hk => proj1 (T i k Hi Hk))) as N1.
  pose proof (four_near vlat H Ky Kx s f (ncols lon) j r a c b Hr Hfa Hc Hfb SH (fun i k Hi Hk => proj2 (T i k Hi Hk))) as N2.
  exists l, p. split; [reflexivity|]. split; [reflexivity|]. pose proof (near_near _ _ _ _ _ L N1). pose proof (near_near _ _ _ _ _ L' N2). split; lra.
Qed.
Print Assumptions C137_vii_direct.

(** a sphere whose radius differs a little *)
Lemma distance_scale k x y z X Y Z : 0 <= k -> distance (k * x, k * y, k * z) (k * X, k * Y, k * Z) = k * distance (x, y, z) (X, Y, Z).
Proof.
  intros Hk. unfold PropsGround.distance. replace (_ + _) with (k ^ 2 * ((x - X) ^ 2 + (y - Y) ^ 2 + (z - Z) ^ 2)) by ring.
  rewrite sqrt_mult_alt by apply pow2_ge_0. rewrite <- Rsqr_pow2, sqrt_Rsqr by exact Hk. reflexivity.
Qed.
Theorem C137_vii : forall m nan lon lat vlon vlat s f n_scans thr zt,
  in_range b64 pi64 m -> accurate b64 m -> Rabs (zt - 8 / 10) <= / 2000 ->
  doubles lon vlon 180 -> doubles lat vlat 90 -> args_ok [lon; lat] s f n_scans -> (Z.of_nat f <= 10000)%Z ->
  (exists i j, (i < nrows lon)%nat /\ (j < ncols lon)%nat /\ thr < Rabs (vlat i j)) \/
  (exists i j k l, (i < nrows lon)%nat /\ (j < ncols lon)%nat /\ (k < nrows lon)%nat /\ (l < ncols lon)%nat /\ 180 + bpow radix2 (-45) <= vlon i j - vlon k l) ->
  exists olon olat, @tie_points_geo_interpolation _ (F64 m) nan lon lat s f (Some thr) (Some zt) = Ok (olon, olat) /\
    forall j Fx Fy Fz Ky Kx, (j < n_scans)%nat ->
      true_scan mean_earth (Z.of_nat s) (Z.of_nat (ncols lon)) (fun i k => vlon (j * s + Z.to_nat i)%nat (Z.to_nat k)) (fun i k => vlat (j * s + Z.to_nat i)%nat (Z.to_nat k)) Fx Fy Fz Ky Kx ->
      forall r a c b, (r < s - 1)%nat -> (a < f)%nat -> (c < ncols lon - 1)%nat -> (b < f)%nat ->
        let y := vii_y f r a in let x := vii_y f c b in let e := (Ky + Kx) / 8 in e + / 100 <= mean_earth / 175 -> e + / 100 < Rabs (Fy y x) \/ e + / 100 < Fx y x ->
        exists l p, at_ olon (j * (s - 1) * f + r * f + a)%nat (c * f + b)%nat = Some l /\ at_ olat (j * (s - 1) * f + r * f + a)%nat (c * f + b)%nat = Some p /\
          distance (ground mean_earth l p) (Fx y x, Fy y x, Fz y x) <= 7 * e + 6 / 5.
Proof.
  intros m nan lon lat vlon vlat s f n_scans thr zt HR HA Hzt D1 D2 Ha Hf Hs.
  destruct (C89_cartesian m nan lon lat vlon vlat s f n_scans thr zt HR HA ltac:(apply Rabs_le_inv in Hzt; lra) D1 D2 Ha Hf Hs) as (olon & olat & E & P). exists olon, olat. split; [exact E|].
  intros j Fx Fy Fz Ky Kx Hj (Sx & Sy & Sz & Sp & Tie) r a c b Hr Hfa Hc Hfb y x e He Hd.
  specialize (P j r a c b Hj Hr Hfa Hc Hfb). cbv zeta in P. destruct P as (qx & qy & qz & A1 & A2 & A3 & _ & NE).
  assert (T : forall i k, (0 <= i < Z.of_nat s)%Z -> (0 <= k < Z.of_nat (ncols lon))%Z ->
    pos_x (vlon (j * s + Z.to_nat i)%nat (Z.to_nat k)) (vlat (j * s + Z.to_nat i)%nat (Z.to_nat k)) = Fx (IZR i) (IZR k) /\
    pos_y (vlon (j * s + Z.to_nat i)%nat (Z.to_nat k)) (vlat (j * s + Z.to_nat i)%nat (Z.to_nat k)) = Fy (IZR i) (IZR k) /\
    pos_z (vlon (j * s + Z.to_nat i)%nat (Z.to_nat k)) (vlat (j * s + Z.to_nat i)%nat (Z.to_nat k)) = Fz (IZR i) (IZR k)).
  { intros i k Hi Hk. pose proof (Tie i k Hi Hk) as G. cbv zeta in G. apply pair_inj in G. destruct G as [G G3]. apply pair_inj in G. destruct G as [G1 G2]. auto. }
  pose proof (four_near (fun i k => pos_x (vlon i k) (vlat i k)) Fx Ky Kx s f (ncols lon) j r a c b Hr Hfa Hc Hfb Sx (fun i k Hi Hk => proj1 (T i k Hi Hk))) as Bx.
  pose proof (four_near (fun i k => pos_y (vlon i k) (vlat i k)) Fy Ky Kx s f (ncols lon) j r a c b Hr Hfa Hc Hfb Sy (fun i k Hi Hk => proj1 (proj2 (T i k Hi Hk)))) as By.
  pose proof (four_near (fun i k => pos_z (vlon i k) (vlat i k)) Fz Ky Kx s f (ncols lon) j r a c b Hr Hfa Hc Hfb Sz (fun i k Hi Hk => proj2 (proj2 (T i k Hi Hk)))) as Bz.
  fold y x e in Bx, By, Bz.
  set (px := four (fun i k => pos_x (vlon i k) (vlat i k)) _ _ _ _) in *. set (py := four (fun i k => pos_y (vlon i k) (vlat i k)) _ _ _ _) in *. set (pz := four (fun i k => pos_z (vlon i k) (vlat i k)) _ _ _ _) in *. clearbody px py pz.
  assert (E0 : 0 <= e) by (eapply Rle_trans; [apply Rabs_pos|exact Bx]).
  assert (Axis : / 1000000 <= Rabs px \/ / 1000000 <= Rabs py).
  { destruct Hd as [H|H]; [right; pose proof (apart_from_axis _ _ _ _ By H); lra|left]. assert (H' : e + / 100 < Rabs (Fx y x)) by (pose proof (Rle_abs (Fx y x)); lra).
    pose proof (apart_from_axis _ _ _ _ Bx H'). lra. }
  destruct (NE Axis) as (rad & Hrad & NE'). clear NE. change Rm with mean_earth in Hrad.
  pose proof (vii_range f s r a Hfa Hr) as Ry. pose proof (vii_range f (ncols lon) c b Hfb Hc) as Rx. rewrite minus_IZR in Ry, Rx. fold y in Ry. fold x in Rx.
  pose proof (Sp y x ltac:(lra) ltac:(lra)) as SP. set (X := Fx y x) in *. set (Y := Fy y x) in *. set (Z := Fz y x) in *. clearbody X Y Z.
  assert (Hm : mean_earth = 63710087714 / 10000) by reflexivity. apply Rabs_le_inv in Hrad.
  set (k := rad / mean_earth). assert (Ek : rad = k * mean_earth) by (unfold k; field; lra).
  assert (K1 : 1 - / 1000000000000000 <= k <= 1 + / 1000000000000000).
  { split; apply (Rmult_le_reg_r mean_earth); try lra; rewrite <- Ek; lra. }
  assert (SP' : on_sphere rad (k * X, k * Y, k * Z)) by (clearbody k; subst rad; unfold PropsGround.on_sphere in *; transitivity (k ^ 2 * (X ^ 2 + Y ^ 2 + Z ^ 2)); [ring|rewrite SP; ring]).
  assert (C : forall V q, V ^ 2 <= mean_earth ^ 2 -> Rabs (q - V) <= e -> Rabs (q - k * V) <= e + / 100000000).
  { intros V q HV Hq. assert (AV : Rabs V <= mean_earth). { rewrite <- (Rabs_pos_eq mean_earth) by lra. apply Rsqr_le_abs_0. unfold Rsqr. lra. }
    replace (q - k * V) with ((q - V) + (1 - k) * V) by ring. eapply Rle_trans; [apply Rabs_triang|]. apply Rplus_le_compat; [exact Hq|]. rewrite Rabs_mult.
    apply Rle_trans with (/ 1000000000000000 * mean_earth); [|lra]. apply Rmult_le_compat; try apply Rabs_pos; [apply Rabs_le; lra|exact AV]. }
  unfold PropsGround.on_sphere in SP. pose proof (pow2_ge_0 X). pose proof (pow2_ge_0 Y). pose proof (pow2_ge_0 Z).
  pose proof (C X px ltac:(lra) Bx) as Cx. pose proof (C Y py ltac:(lra) By) as Cy. pose proof (C Z pz ltac:(lra) Bz) as Cz. clear C.
  destruct (computed rad zt (5 / 1000000) _ qx qy qz px py pz (k * X) (k * Y) (k * Z) (e + / 100000000) (50 / 1000000000) Hzt NE' ltac:(lra) SP' A1 A2 A3 Cx Cy Cz)
    as (l & p & El & D); [lra| |].
  { assert (G : forall V, e + / 100 < V -> 50 / 1000000000 + (e + / 100000000) < k * V).
    { intros V HV. assert ((1 - / 1000000000000000) * V <= k * V) by (apply Rmult_le_compat_r; lra). lra. }
    destruct Hd as [H2|H2]; [left|right]; [rewrite Rabs_mult, (Rabs_pos_eq k) by lra|]; apply G; exact H2. }
  exists l, p. apply pair_inj in El. destruct El as [-> ->]. split; [reflexivity|]. split; [reflexivity|].
  replace (ground rad l p) with (k * (mean_earth * cos (p * (PI / 180)) * cos (l * (PI / 180))), k * (mean_earth * cos (p * (PI / 180)) * sin (l * (PI / 180))), k * (mean_earth * sin (p * (PI / 180)))) in D
    by (unfold ground; rewrite Ek; f_equal; [f_equal|]; ring).
  rewrite distance_scale in D by lra. fold (ground mean_earth l p) in D. set (dist := distance (ground mean_earth l p) (X, Y, Z)) in *.
  assert (D0 : 0 <= dist) by apply distance_pos. assert ((1 - / 1000000000000000) * dist <= k * dist) by (apply Rmult_le_compat_r; lra).
  pose proof pi_degree. assert (rad * (PI / 180) <= 6371009 * (1746 / 100000)) by (apply Rmult_le_compat; try lra; pose proof PI_RGT_0; lra). lra.
Qed.
Print Assumptions C137_vii.

(** ** modisinterpolator on float arrays *)
Theorem C137_view : forall m k g n w (lon lat satz olon olat : ndarray (option R)) (lo la z : Z -> Z -> R),
  in_range b64 pi64 m -> accurate b64 m ->
  even_grid k -> (0 <= n)%Z -> std_width k w -> PropsModis.shaped Float32 n w lon lat satz ->
  (forall a b, (0 <= a < n)%Z -> (0 <= b < w)%Z -> aat lon a b = Some (lo a b) /\ aat lat a b = Some (la a b) /\ aat satz a b = Some (z a b) /\
     Rabs (lo a b) <= 180 /\ Rabs (la a b) <= 90 /\ 0 <= z a b <= 70) ->
  @modis _ (F64_32 m) k g lon lat satz = Ok (olon, olat) ->
  forall s j i, (0 <= s)%Z -> ((s + 1) * scan_len k <= n)%Z -> (0 <= j < fine_len k)%Z -> (0 <= i < fine_width k)%Z ->
  let row := (s * scan_len k + row_cell k j)%Z in let col := col_cell k w i in
  let u := scan_pos k i - IZR col in let v := track_pos k j - IZR (row_cell k j) in
  0 <= u <= 1 -> 0 <= v <= 1 -> z row col <> z row (col + 1)%Z ->
  forall phi_a phi_b ta tb zeta theta A B A' B', seen (degrees (z row col)) phi_a ta -> seen (degrees (z row (col + 1)%Z)) phi_b tb ->
  0 <= zeta <= PI / 2 -> seen zeta ((1 - u) * phi_a + u * phi_b) theta ->
  orthonormal A B -> orthonormal A' B' ->
  let tie a b := ground 6370997 (lo a b) (la a b) in
  tie row col = circle 6370997 A B ta -> tie row (col + 1)%Z = circle 6370997 A B tb ->
  tie (row + 1)%Z col = circle 6370997 A' B' ta -> tie (row + 1)%Z (col + 1)%Z = circle 6370997 A' B' tb ->
  forall X Y Z delta, let T := (X, Y, Z) in on_sphere 6370997 T ->
  distance (mix v (circle 6370997 A B theta) (circle 6370997 A' B' theta)) T <= delta ->
  let d := 6370997 * ((tb - ta) ^ 2 / 8 + 5 / 6 * Rabs (phi_b - phi_a) ^ 3 + v * (1 - v) * (4e-7 * IZR (km k) ^ 2)) + delta in
  (* rounding errors *)
  let sep := Rabs (ta - tb) in 1e-5 <= sep ->
  let off := (0.000013 * (u * (1 - u)) + 0.00000061) * / sep + 0.000007 in
  forall L, spread lo la row col L -> let far := 27 * (9 / 8 + 0.000002 * / sep + off) + 2 * L * off in
  d + 2 * far <= 6370997 / 100 -> d + far + 1 < Rabs Y \/ d + far + 1 < X ->
  exists l p, aat olon (s * fine_len k + j)%Z i = Some l /\ aat olat (s * fine_len k + j)%Z i = Some p /\
    distance (ground 6370997 l p) T <= 4 * d + 7 * far + 4.
Proof.
  intros m k g n w lon lat satz olon olat lo la z HR HA Hk Hn Hw S F O s j i Hs Hsn Hj Hi row col u v Hu Hv ZN phi_a phi_b ta tb zeta theta A B A' B' Sa Sb Hz Sz OA OA' tie T1 T2 T3 T4
    X Y Z delta T ST DT d sep Hsep off L HL far Hd Hdir.
  assert (W2 : (2 <= w)%Z) by (destruct k; cbn [std_width] in Hw; lia).
  assert (SL : (2 <= scan_len k)%Z) by (destruct k; cbn [scan_len]; lia).
  assert (RC : (0 <= row_cell k j <= scan_len k - 2)%Z) by (unfold row_cell; lia).
  assert (CC : (0 <= col /\ col + 1 < w)%Z) by (unfold col, col_cell; lia).
  assert (RB : (0 <= row < n)%Z) by (unfold row; nia).
  destruct (F row col ltac:(lia) ltac:(lia)) as (_ & _ & _ & _ & _ & Ba). destruct (F row (col + 1)%Z ltac:(lia) ltac:(lia)) as (_ & _ & _ & _ & _ & Bb).
  assert (KM : (km k = 1 \/ km k = 5)%Z) by (unfold km; destruct (is_1km k); auto).
  assert (Esep : apart (z row col) (z row (col + 1)%Z) ta tb = sep).
  { unfold apart, sep. destruct (Req_EM_T (z row col) (z row (col + 1)%Z)); [contradiction|reflexivity]. }
  destruct (C74_coefficients m (km k) _ _ phi_a ta phi_b tb HA KM Ba Bb Sa Sb ltac:(cbv zeta; rewrite Esep; exact Hsep)) as (e & l & _ & _ & EA & _ & Be & Bl & _). rewrite Esep in Bl.
  destruct (C74_pixels m k g n w lon lat satz olon olat lo la z HR HA Hk Hn Hw S F O s j i Hs Hsn Hj Hi phi_a ta phi_b tb Sa Sb) as (e' & l' & EA' & P).
  { fold row col. rewrite Esep. exact Hsep. }
  fold row col in EA', P. rewrite EA in EA'. injection EA' as <- <-. cbv zeta in P. rewrite Esep in P. fold u v in P.
  assert (U4 : 0 <= u * (1 - u)) by (apply Rmult_le_pos; lra). assert (U5 : u * (1 - u) <= 1 / 4) by (pose proof (pow2_ge_0 (u - 1 / 2)); lra).
  assert (V4 : 0 <= v * (1 - v)) by (apply Rmult_le_pos; lra). assert (V5 : v * (1 - v) <= 1 / 4) by (pose proof (pow2_ge_0 (v - 1 / 2)); lra).
  rewrite (Rabs_pos_eq (u * (1 - u))) in P by exact U4. fold off in P.
  assert (I0 : 0 < / sep <= 100000).
  { split; [apply Rinv_0_lt_compat; lra|]. replace 100000 with (/ 1e-5) by lra. apply Rinv_le_contravar; lra. }
  assert (O0 : 0 <= off <= 4 / 10).
  { unfold off. split.
    - apply Rplus_le_le_0_compat; [|lra]. apply Rmult_le_pos; lra.
    - assert ((0.000013 * (u * (1 - u)) + 0.00000061) * / sep <= 0.00000386 * 100000) by (apply Rmult_le_compat; lra). lra. }
  set (reach := 9 / 8 + 0.000002 * / sep + off) in *. set (along := u + u * (1 - u) * e + v * (1 - v) * l) in *.
  assert (Vl : Rabs (v * (1 - v) * l) <= 0.000002 * / sep).
  { rewrite Rabs_mult, (Rabs_pos_eq (v * (1 - v))) by exact V4. apply Rle_trans with (1 / 4 * (0.000008 / sep)); [apply Rmult_le_compat; auto using Rabs_pos|unfold Rdiv; lra]. }
  assert (Ue : Rabs (u * (1 - u) * e) <= 2 * (u * (1 - u))) by (rewrite Rabs_mult, (Rabs_pos_eq (u * (1 - u))) by exact U4; rewrite Rmult_comm; apply Rmult_le_compat_r; assumption).
  apply Rabs_le_inv in Vl, Ue. pose proof (pow2_ge_0 (u - 3 / 4)) as Q1. pose proof (pow2_ge_0 (u - 1 / 4)) as Q2.
  specialize (P L reach HL ltac:(unfold reach; lra)).
  destruct P as (qx & qy & qz & (A1 & A2 & A3) & _ & NE); [unfold along, reach; apply Rplus_le_compat_r, Rabs_le; lra..|].
  fold far in A1, A2, A3, NE. fold along in A1, A2, A3, NE.
  pose proof (view_place (km k) z lo la row col u v e l KM EA Hu Hv Ba Bb ZN phi_a phi_b ta tb zeta theta A B A' B' Sa Sb Hz Sz OA OA' T1 T2 T3 T4 T delta DT) as D4. cbv zeta in D4. fold d along in D4.
  set (px := corners (fun a b => at_x (lo a b) (la a b)) row col v along) in *. set (py := corners (fun a b => at_y (lo a b) (la a b)) row col v along) in *. set (pz := corners (fun a b => at_z (lo a b) (la a b)) row col v along) in *.
  destruct (coordinates_of _ _ _ _ _ _ _ D4) as (Bx & By & Bz). assert (d0 : 0 <= d) by (eapply Rle_trans; [apply Rabs_pos|exact Bx]).
  assert (F0 : 0 <= far) by (eapply Rle_trans; [apply Rabs_pos|exact A1]).
  assert (NE' := NE ltac:(lra)). clear NE.
  assert (NN : px * px + py * py + pz * pz <= 6 / 5 * (6370997 * 6370997)).
  { assert (Dz : distance (px, py, pz) (0, 0, 0) <= 6370997 + 6370997 / 100).
    { eapply Rle_trans; [apply (distance_triangle _ T)|]. assert (E : distance T (0, 0, 0) = 6370997).
      { unfold T, PropsGround.distance. unfold T, PropsGround.on_sphere in ST. replace ((X - 0) ^ 2 + (Y - 0) ^ 2 + (Z - 0) ^ 2) with (X ^ 2 + Y ^ 2 + Z ^ 2) by ring. rewrite ST, <- Rsqr_pow2. apply sqrt_Rsqr. lra. }
      rewrite E. lra. }
    unfold PropsGround.distance in Dz. set (q := _ + _) in Dz. assert (Q0 : 0 <= q) by (unfold q; pose proof (pow2_ge_0 (px - 0)); pose proof (pow2_ge_0 (py - 0)); pose proof (pow2_ge_0 (pz - 0)); lra).
    assert (Q : q <= (6370997 + 6370997 / 100) ^ 2) by (rewrite <- (sqrt_sqrt q Q0), <- Rsqr_pow2; apply Rmult_le_compat; auto using sqrt_pos). unfold q in Q. lra. }
  specialize (NE' NN).
  assert (Axis : far + 1 <= Rabs px \/ far + 1 <= Rabs py).
  { destruct Hdir as [H|H]; [right; apply (apart_from_axis _ _ _ _ By); lra|left]. apply (apart_from_axis _ _ _ _ Bx). pose proof (Rle_abs X). lra. }
  specialize (NE' Axis).
  destruct (near_ground 6370997 (8 / 10) (16 / 1000000) qx qy qz _ T (d + 7 / 4 * far) ltac:(rewrite Rminus_eq_0, Rabs_R0; lra) NE' ltac:(lra) ST) as (ol & op & El & D).
  - eapply Rle_trans; [apply (distance_triangle _ (px, py, pz))|]. pose proof (box_distance _ _ _ _ _ _ _ A1 A2 A3). lra.
  - lra.
  - destruct Hdir as [H|H].
    + left. intros E0. pose proof (near_near _ _ _ _ _ A2 By) as Q. rewrite E0, Rminus_0_l, Rabs_Ropp in Q. lra.
    + right. pose proof (near_near _ _ _ _ _ A1 Bx) as Q. apply Rabs_le_inv in Q. lra.
  - exists ol, op. apply pair_inj in El. destruct El as [-> ->]. split; [reflexivity|]. split; [reflexivity|]. pose proof pi_degree. lra.
Qed.
Print Assumptions C137_view.

(** ** Cases *)
Lemma degree_bounds : 174 / 10000 <= PI / 180 <= 1746 / 100000.
Proof. pose proof PI_bounds. lra. Qed.
Lemma case_degrees r u0 k1 k2 n w : 0 < r -> let d := PI / 180 in
  true_scan r n w (fun _ c => k1 * IZR c) (fun a _ => u0 + k2 * IZR a) (case_x r (u0 * d) (k1 * d) (k2 * d)) (case_y r (u0 * d) (k1 * d) (k2 * d)) (case_z r (u0 * d) (k1 * d) (k2 * d)) (r * (k2 * d) ^ 2) (r * (k1 * d) ^ 2).
Proof.
  intros Hr d. destruct (case_scan r (u0 * d) (k1 * d) (k2 * d) n w Hr) as (S1 & S2 & S3 & S4 & S5). split; [exact S1|]. split; [exact S2|]. split; [exact S3|]. split; [exact S4|].
  intros a c Ha Hc. cbv zeta. rewrite <- S5 by assumption. assert (PI <> 0) by (pose proof PI_RGT_0; lra). unfold d. f_equal; field; assumption.
Qed.
(** simple MODIS on double arrays, tie points every 1/128 degree (870 m): every pixel is within three metres of its position *)
Example C137_case_simple : forall m g, in_range b64 pi64 m -> accurate b64 m ->
  let lon := {| adt := Float64; arows := 10; acols := 1354; aat := fun _ c => Some (1 / 128 * IZR c) |} in
  let lat := {| adt := Float64; arows := 10; acols := 1354; aat := fun a _ => Some (6 + 1 / 128 * IZR a) |} in
  exists olon olat, @simple _ (F64 m) To500m g lon lat = Ok (olon, olat) /\ forall r i, (0 <= r < 20)%Z -> (0 <= i < 2708)%Z ->
  exists l p, aat olon r i = Some l /\ aat olat r i = Some p /\ let y := row_pos To500m r in let x := col_pos To500m i in
    distance (ground 6370997 l p) (ground 6370997 (1 / 128 * x) (6 + 1 / 128 * y)) <= 3.
Proof.
  intros m g HR HA lon lat. assert (SH : shaped2 Float64 10 1354 lon lat) by (split; [|split; [|split; [|split; [|split]]]]; reflexivity).
  destruct (@simple_run _ (F64 m) To500m g Float64 10 1354 lon lat ltac:(discriminate) ltac:(lia) ltac:(lia) SH) as (olon & olat & O & _).
  exists olon, olat. split; [exact O|]. clear SH. intros r i Hr Hi. pose proof degree_bounds as DB. set (d := PI / 180) in *. set (w1 := 1 / 128 * d). set (K := 6370997 * w1 ^ 2).
  destruct (proj1 C125_constants To500m r Hr) as (Ry & Oy & Dy). destruct (proj1 (proj2 C125_constants) To500m 1354%Z i ltac:(lia) Hi) as (Rx & Dx).
  assert (W1 : 0 <= w1 <= 1365 / 10000000) by (unfold w1; lra).
  assert (KB : 0 <= K <= 16 / 100).
  { unfold K. assert (w1 ^ 2 <= (1365 / 10000000) ^ 2) by (apply pow_incr; lra). pose proof (pow2_ge_0 w1). lra. }
  pose proof (overhang_pos 10 (row_pos To500m r)) as P0.
  assert (E : bilinear_error 10 1354 K K (row_pos To500m r) (col_pos To500m i) <= 23 / 100).
  { unfold bilinear_error. assert (order2 10 (row_pos To500m r) * K <= 33 / 128 * (16 / 100)) by (apply Rmult_le_compat; try lra; eapply Rle_trans; [|apply Rmax_l]; lra).
    assert (A : 0 <= order2 1354 (col_pos To500m i)) by (eapply Rle_trans; [|apply Rmax_l]; lra).
    assert (order2 1354 (col_pos To500m i) * K <= 21 / 32 * (16 / 100)) by (apply Rmult_le_compat; lra).
    assert ((1 + 2 * overhang 10 (row_pos To500m r)) * (order2 1354 (col_pos To500m i) * K) <= 7 / 4 * (21 / 32 * (16 / 100))) by (apply Rmult_le_compat; try lra; apply Rmult_le_pos; lra). lra. }
  destruct (C137_simple m To500m g 10 1354 lon lat olon olat (fun _ c => 1 / 128 * IZR c) (fun a _ => 6 + 1 / 128 * IZR a) 0
    (case_x 6370997 (6 * d) w1 w1) (case_y 6370997 (6 * d) w1 w1) (case_z 6370997 (6 * d) w1 w1) K K) with (r := r) (i := i) as (l & p & E1 & E2 & B); auto.
  - lia.
  - split; [lia|reflexivity].
  - split; [|split; [|split; [|split; [|split]]]]; reflexivity.
  - intros a b Ha Hb. assert (0 <= IZR a <= 9) by (split; apply IZR_le; lia). assert (0 <= IZR b <= 1353) by (split; apply IZR_le; lia).
    split; [reflexivity|]. split; [reflexivity|]. rewrite !Rabs_pos_eq; lra.
  - lia.
  - lia.
  - apply (case_degrees 6370997 6 (1 / 128) (1 / 128) 10 1354). lra.
  - lra.
  - right. apply Rle_lt_trans with 3; [lra|]. unfold case_x.
    assert (R1 : -1 <= row_pos To500m r <= 10) by lra. assert (R2 : 0 <= col_pos To500m i <= 1354) by (split; [unfold col_pos; apply Rle_mult_inv_pos; [apply IZR_le; lia|cbn; lra]|lra]).
    assert (A1 : 0 <= 6 * d + w1 * row_pos To500m r <= 12 / 100) by (split; nra). assert (A2 : 0 <= w1 * col_pos To500m i <= 19 / 100) by (split; nra).
    assert (1 / 2 <= cos (6 * d + w1 * row_pos To500m r)) by (eapply Rle_trans; [|apply cos_ge]; nra).
    assert (1 / 2 <= cos (w1 * col_pos To500m i)) by (eapply Rle_trans; [|apply cos_ge]; nra). nra.
  - exists l, p. cbn [Z.mul Z.add] in E1, E2. split; [exact E1|]. split; [exact E2|]. cbv zeta.
    replace (ground 6370997 (1 / 128 * col_pos To500m i) (6 + 1 / 128 * row_pos To500m r)) with
      (case_x 6370997 (6 * d) w1 w1 (row_pos To500m r) (col_pos To500m i), case_y 6370997 (6 * d) w1 w1 (row_pos To500m r) (col_pos To500m i), case_z 6370997 (6 * d) w1 w1 (row_pos To500m r) (col_pos To500m i)); [lra|].
    unfold ground, case_x, case_y, case_z. fold d. replace (6 * d + w1 * row_pos To500m r) with ((6 + 1 / 128 * row_pos To500m r) * d) by (unfold w1; ring).
    replace (w1 * col_pos To500m i) with (1 / 128 * col_pos To500m i * d) by (unfold w1; ring). reflexivity.
Qed.
(** VII on doubles at 67 degrees north, tie points every 1/16 degree (7 km): every pixel is within 15 metres *)
Example C137_case_vii : forall m, in_range b64 pi64 m -> accurate b64 m ->
  let vlon := fun i k : nat => 1 / 16 * INR k in let vlat := fun i k : nat => 67 + 1 / 16 * INR i in
  let lon := {| dims := (0, 1)%nat; nrows := 21; ncols := 100; at_ := fun i k => Some (vlon i k) |} in
  let lat := {| dims := (0, 1)%nat; nrows := 21; ncols := 100; at_ := fun i k => Some (vlat i k) |} in
  exists olon olat, @tie_points_geo_interpolation _ (F64 m) None lon lat 21 8 (Some 60) (Some (3277 / 4096)) = Ok (olon, olat) /\
    forall r a c b, (r < 20)%nat -> (a < 8)%nat -> (c < 99)%nat -> (b < 8)%nat -> let y := vii_y 8 r a in let x := vii_y 8 c b in
      exists l p, at_ olon (r * 8 + a)%nat (c * 8 + b)%nat = Some l /\ at_ olat (r * 8 + a)%nat (c * 8 + b)%nat = Some p /\
        distance (ground mean_earth l p) (ground mean_earth (1 / 16 * x) (67 + 1 / 16 * y)) <= 15.
Proof.
  intros m HR HA vlon vlat lon lat. pose proof degree_bounds as DB. set (d := PI / 180) in *. set (w1 := 1 / 16 * d). set (u0 := 67 * d).
  assert (W1 : 10875 / 10000000 <= w1 <= 10913 / 10000000) by (unfold w1; lra). assert (U0 : 0 <= u0 <= 117 / 100) by (unfold u0; lra).
  destruct (C137_vii m None lon lat vlon vlat 21 8 1 60 (3277 / 4096) HR HA) as (olon & olat & E & H).
  - rewrite Rabs_pos_eq; lra.
  - split; [intros i k _ _; reflexivity|]. intros i k Hi Hk. cbn [nrows ncols lon] in Hi, Hk. unfold vlon. rewrite INR_IZR_INZ. replace (1 / 16 * IZR (Z.of_nat k)) with (IZR (Z.of_nat k) / 16) by field.
    split; [apply fl_16; [apply good_b64|cbn; lia|cbn; lia|lia]|]. assert (0 <= IZR (Z.of_nat k) <= 100) by (split; apply IZR_le; lia). rewrite Rabs_pos_eq; lra.
  - split; [intros i k _ _; reflexivity|]. intros i k Hi Hk. cbn [nrows ncols lat] in Hi, Hk. unfold vlat. rewrite INR_IZR_INZ. replace (67 + 1 / 16 * IZR (Z.of_nat i)) with (IZR (1072 + Z.of_nat i) / 16) by (rewrite plus_IZR; field).
    split; [apply fl_16; [apply good_b64|cbn; lia|cbn; lia|lia]|]. assert (0 <= IZR (1072 + Z.of_nat i) <= 1100) by (split; apply IZR_le; lia). rewrite Rabs_pos_eq; lra.
  - exists lon, [lat]. repeat split; try (cbn; lia). repeat constructor.
  - lia.
  - left. exists 0%nat, 0%nat. cbn [nrows ncols lon]. split; [lia|]. split; [lia|]. unfold vlat. cbn [INR]. rewrite Rabs_pos_eq; lra.
  - exists olon, olat. split; [exact E|]. intros r a c b Hr Ha Hc Hb y x.
    assert (KB : 0 <= mean_earth * w1 ^ 2 <= 759 / 100).
    { assert (w1 ^ 2 <= (10913 / 10000000) ^ 2) by (apply pow_incr; lra). pose proof (pow2_ge_0 w1). unfold mean_earth. lra. }
    assert (Rx : 0 <= x <= 99). { pose proof (vii_range 8 100 c b Hb ltac:(lia)) as R. fold x in R. cbn in R. lra. }
    assert (Ry : 0 <= y <= 20). { pose proof (vii_range 8 21 r a Ha ltac:(lia)) as R. fold y in R. cbn in R. lra. }
    assert (WX : 0 <= w1 * x <= 11 / 100) by nra. assert (WY : 0 <= w1 * y <= 3 / 100) by nra.
    destruct (H 0%nat (case_x mean_earth u0 w1 w1) (case_y mean_earth u0 w1 w1) (case_z mean_earth u0 w1 w1) (mean_earth * w1 ^ 2) (mean_earth * w1 ^ 2) ltac:(lia)) with (r := r) (a := a) (c := c) (b := b) as (l & p & E1 & E2 & B); auto.
    + destruct (case_degrees mean_earth 67 (1 / 16) (1 / 16) 21 100) as (S1 & S2 & S3 & S4 & S5); [unfold mean_earth; lra|]. split; [exact S1|]. split; [exact S2|]. split; [exact S3|]. split; [exact S4|].
      intros i k Hi Hk. pose proof (S5 i k Hi Hk) as S. cbv zeta in S |- *. unfold vlon, vlat. rewrite Nat.mul_0_l, Nat.add_0_l, !INR_IZR_INZ, !Z2Nat.id by lia. exact S.
    + unfold mean_earth at 3. lra.
    + right. fold y x. unfold case_x.
      assert (C1 : 1 / 4 <= cos (u0 + w1 * y)) by (eapply Rle_trans; [|apply cos_ge]; nra).
      assert (C2 : 1 / 4 <= cos (w1 * x)) by (eapply Rle_trans; [|apply cos_ge]; nra).
      assert (C3 : 1 / 16 <= cos (u0 + w1 * y) * cos (w1 * x)) by nra. rewrite Rmult_assoc. unfold mean_earth at 3. lra.
    + exists l, p. split; [exact E1|]. split; [exact E2|]. fold y x in B.
      replace (ground mean_earth (1 / 16 * x) (67 + 1 / 16 * y)) with (case_x mean_earth u0 w1 w1 y x, case_y mean_earth u0 w1 w1 y x, case_z mean_earth u0 w1 w1 y x); [lra|].
      unfold ground, case_x, case_y, case_z. fold d. replace ((67 + 1 / 16 * y) * d) with (u0 + w1 * y) by (unfold u0, w1; ring). replace (1 / 16 * x * d) with (w1 * x) by (unfold w1; ring). reflexivity.
Qed.
(** the geo grid interpolator on doubles: four tie points a degree apart; the pixel in the middle is within 3.5 km *)
Example C137_case_grid : forall m i, in_range b64 pi64 m -> accurate b64 m ->
  exists olon olat l p, geo_grid64 m i [0; 1] [0; 1] [[0; 1]; [0; 1]] [[20; 20]; [21; 21]] [1 / 2] [1 / 2] = Ok (olon, olat) /\
    at2 None olon 0 0 = Some l /\ at2 None olat 0 0 = Some p /\ distance (ground earth l p) (ground earth (1 / 2) (20 + 1 / 2)) <= 3500.
Proof.
  intros m i HR HA. pose proof degree_bounds as DB. set (d := PI / 180) in *. set (u0 := 20 * d).
  assert (D0 : 0 <= d <= 1746 / 100000) by lra.
  destruct (case_degrees earth 20 1 1 2 2) as (S1 & S2 & S3 & S4 & S5); [unfold earth; lra|]. fold d in S1, S2, S3, S4, S5. fold u0 in S1, S2, S3, S4, S5. set (K := earth * (1 * d) ^ 2) in *.
  assert (KB : 0 <= K <= 1943). { unfold K, earth. assert ((1 * d) ^ 2 <= (1746 / 100000) ^ 2) by (apply pow_incr; lra). pose proof (pow2_ge_0 (1 * d)). lra. }
  assert (CF : forall G, scan_field 2 2 G K K -> curved_field [0; 1] [0; 1] G K K).
  { intros G [A B]. split.
    - intros r Hr. cbn [length] in Hr. destruct (A (Z.of_nat r) ltac:(lia)) as (f1 & f2 & Q). exists f1, f2. intros x Hx. cbn in Hx.
      destruct r as [|[|r]]; [| |lia]; apply Q; lra.
    - intros x Hx. destruct Hx as [X1 X2]. cbn in X1, X2. destruct (B x ltac:(lra)) as (f1 & f2 & Q). exists f1, f2. intros y Hy. cbn in Hy. apply Q. lra. }
  assert (SP : forall y x, ground earth (1 * x) (20 + 1 * y) = (case_x earth u0 (1 * d) (1 * d) y x, case_y earth u0 (1 * d) (1 * d) y x, case_z earth u0 (1 * d) (1 * d) y x)).
  { intros y x. unfold ground, case_x, case_y, case_z. fold d. replace ((20 + 1 * y) * d) with (u0 + 1 * d * y) by (unfold u0; ring). replace (1 * x * d) with (1 * d * x) by ring. reflexivity. }
  assert (HF : fl b64 (1 / 2)). { replace (1 / 2) with (IZR 8 / 16) by lra. apply fl_16; [apply good_b64|cbn; lia|cbn; lia|lia]. }
  assert (IN : forall l, inside [0; 1] l -> 0 <= l <= 1) by (intros l [A B]; cbn in A, B; lra).
  destruct (C137_grid m i [0; 1] [0; 1] [[0; 1]; [0; 1]] [[20; 20]; [21; 21]] [1 / 2] [1 / 2] (case_x earth u0 (1 * d) (1 * d)) (case_y earth u0 (1 * d) (1 * d)) (case_z earth u0 (1 * d) (1 * d)) K K HR HA) as (olon & olat & E & H); auto.
  - repeat split; try (cbn; lia); intros a b H; destruct a as [|[|a]]; destruct b as [|[|b]]; cbn in *; try lia; lra.
  - intros k H. destruct k; cbn in *; [lra|lia].
  - intros k H. destruct k; cbn in *; [lra|lia].
  - repeat (apply Forall_cons; [apply fl_int; lia|]). apply Forall_nil.
  - repeat (apply Forall_cons; [apply fl_int; lia|]). apply Forall_nil.
  - split; [split; [reflexivity|repeat constructor]|]. split; [split; [reflexivity|repeat constructor]|].
    intros r c Hr Hc. destruct r as [|[|r]]; [| |cbn in Hr; lia]; (destruct c as [|[|c]]; [| |cbn in Hc; lia]); unfold at2; cbn; split; apply Rabs_le; lra.
  - apply Forall_cons; [split; [apply HF|unfold inside; cbn; lra]|apply Forall_nil].
  - apply Forall_cons; [split; [apply HF|unfold inside; cbn; lra]|apply Forall_nil].
  - intros r c Hr Hc. destruct r as [|[|r]]; [| |cbn in Hr; lia]; (destruct c as [|[|c]]; [| |cbn in Hc; lia]); unfold at2; cbn [nth]; rewrite <- SP; [f_equal..].
    all: ring.
  - intros y x Hy Hx. apply IN in Hy, Hx. apply S4; lra.
  - specialize (H 0%nat 0%nat 0%nat 0%nat ltac:(cbn; lia) ltac:(cbn; lia) ltac:(cbn; lia) ltac:(cbn; lia)). cbv zeta in H. unfold gap in H. cbn [nth] in H.
    destruct H as (l & p & E1 & E2 & B); [lra|lra|unfold earth at 1; lra| |].
    + right. unfold case_x. assert (C1 : 1 / 2 <= cos (u0 + 1 * d * (1 / 2))) by (eapply Rle_trans; [|apply cos_ge]; unfold u0; nra).
      assert (C2 : 1 / 2 <= cos (1 * d * (1 / 2))) by (eapply Rle_trans; [|apply cos_ge]; nra). assert (1 / 4 <= cos (u0 + 1 * d * (1 / 2)) * cos (1 * d * (1 / 2))) by nra. rewrite Rmult_assoc. unfold earth at 1. lra.
    + exists olon, olat, l, p. split; [exact E|]. split; [exact E1|]. split; [exact E2|]. replace (20 + 1 / 2) with (20 + 1 * (1 / 2)) by ring. replace (1 / 2) with (1 * (1 / 2)) at 1 by ring. rewrite SP. lra.
Qed.
(** the satellite-angle MODIS interpolation on float arrays: tie points along two meridians, seen under 10 to 37 degrees *)
Example C137_case_view : forall m, in_range b64 pi64 m -> accurate b64 m -> let zen (b : Z) := 10 + IZR b / 10 in let lam (a : R) := 1 / 10 + a / 1274 in
  let lo (a b : Z) := lam (IZR a) * (180 / PI) in let la (a b : Z) := thetaR (degrees (zen b)) * (180 / PI) in
  let arr (f : Z -> Z -> R) := {| adt := Float32; arows := 2; acols := 270; aat := fun a b => Some (f a b) |} in
  forall g, exists olon olat, @modis _ (F64_32 m) M5km_1km g (arr lo) (arr la) (arr (fun _ b => zen b)) = Ok (olon, olat) /\
  forall j i, (2 <= j <= 7)%Z -> (2 <= i <= 1346)%Z ->
  let b := ((i - 2) / 5)%Z in let u := IZR ((i - 2) mod 5) / 5 in let v := IZR (j - 2) / 5 in
  let phi := (1 - u) * phiR (degrees (zen b)) + u * phiR (degrees (zen (b + 1)%Z)) in
  exists l p, aat olon j i = Some l /\ aat olat j i = Some p /\
    PropsGround.distance (ground 6370997 l p) (ground 6370997 (lam v * (180 / PI)) (arc phi * (180 / PI))) <= 4500.
Proof.
  intros m HR HA zen lam lo la arr g.
  assert (SH : PropsModis.shaped Float32 2 270 (arr lo) (arr la) (arr (fun _ b => zen b))) by (repeat split).
  destruct (@modis_run _ (F64_32 m) M5km_1km g 2 270 (arr lo) (arr la) (arr (fun _ b => zen b)) ltac:(lia) (or_introl eq_refl) SH) as (c0 & p0 & olon & olat & _ & _ & _ & _ & _ & _ & O & _).
  exists olon, olat. split; [exact O|]. clear c0 p0. intros j i Hj Hi b u v phi. pose proof PI_bounds as HPI.
  assert (GC : forall l t, ground 6370997 (l * (180 / PI)) (t * (180 / PI)) = circle 6370997 (cos l, sin l, 0) (0, 0, 1) t).
  { intros l t. unfold ground, circle. replace (l * (180 / PI) * (PI / 180)) with l by (field; lra). replace (t * (180 / PI) * (PI / 180)) with t by (field; lra). f_equal; [f_equal|]; ring. }
  assert (ON : forall l, orthonormal (cos l, sin l, 0) (0, 0, 1)).
  { intros l. unfold orthonormal, dot. pose proof (sin2_cos2 l) as Q. unfold Rsqr in Q. repeat split; lra. }
  assert (ZB : forall b, (0 <= b < 270)%Z -> 10 <= zen b <= 37).
  { intros b' Hb. assert (0 <= IZR b' <= 269) by (split; apply IZR_le; lia). unfold zen. lra. }
  assert (RC : row_cell M5km_1km j = 0%Z) by (unfold row_cell; cbn [factor scan_len]; lia).
  assert (CB : col_cell M5km_1km 270 i = b).
  { unfold col_cell, first_col. cbn [is_1km factor]. unfold b. assert (0 <= (i - 2) / 5)%Z by (apply Z.div_pos; lia). assert ((i - 2) / 5 < 269)%Z by (apply Z.div_lt_upper_bound; lia). lia. }
  assert (BB : (0 <= b < 269)%Z) by (split; [apply Z.div_pos; lia|apply Z.div_lt_upper_bound; lia]).
  assert (EU : scan_pos M5km_1km i - IZR b = u).
  { unfold scan_pos, first_col, u. cbn [is_1km factor]. rewrite <- minus_IZR. rewrite (Z.div_mod (i - 2) 5) at 1 by lia. fold b. rewrite plus_IZR, mult_IZR. field. }
  assert (EV : track_pos M5km_1km j - IZR 0 = v). { unfold track_pos, v. cbn [factor]. rewrite minus_IZR. field. }
  assert (HU : 0 <= u <= 1). { unfold u. pose proof (Z.mod_pos_bound (i - 2) 5 ltac:(lia)) as [M1 M2]. apply (IZR_le 0) in M1. apply IZR_lt in M2. lra. }
  assert (HV : 0 <= v <= 1). { unfold v. assert (0 <= IZR (j - 2) <= 5) by (split; apply IZR_le; lia). lra. }
  pose proof (ZB b ltac:(lia)) as B1. pose proof (ZB (b + 1)%Z ltac:(lia)) as B2.
  assert (DG : forall z, 10 <= z <= 37 -> 0 <= degrees z <= z70) by (intros z Hz; unfold degrees, z70; split; [apply Rmult_le_pos; lra|apply Rmult_le_compat_r; lra]).
  set (za := degrees (zen b)) in *. set (zb := degrees (zen (b + 1)%Z)) in *. pose proof (DG _ B1) as Ra. pose proof (DG _ B2) as Rb. fold za in Ra. fold zb in Rb. pose proof z70_89 as Z9. pose proof z89_lt as Z9'.
  assert (SE : forall z, 0 <= z <= z70 -> seen z (phiR z) (thetaR z)).
  { intros z Hz. split; [apply phiR_range; lra|]. split; [|reflexivity]. rewrite (sin_phiR z) by lra. unfold kap. change PropsModisValues.earth with ModisAngles.Re. change height with Alt. field. unfold ModisAngles.Re, Alt. lra. }
  assert (DZ : zb - za = PI / 1800) by (unfold za, zb, zen, degrees; rewrite plus_IZR; field).
  assert (VW : forall z, 0 <= z <= z70 -> in_view (phiR z)).
  { intros z Hz. pose proof kap_b as K. split; [apply phiR_range; lra|]. rewrite sin_phiR by lra. replace (kap * sin z / kap) with (sin z) by (field; lra). apply sin_incr_1; pose proof z70_b; lra. }
  assert (VP : in_view phi). { pose proof (view_mix (phiR za) (phiR zb) u (VW za Ra) (VW zb Rb) HU) as V. unfold phi. replace ((1 - u) * phiR za + u * phiR zb) with (phiR za + (phiR zb - phiR za) * u) by ring. exact V. }
  destruct (zenith_in phi VP) as (ZS & ZR & _).
  assert (SP : seen (zenith phi) phi (arc phi)).
  { split; [apply VP|]. split; [|reflexivity]. rewrite ZS. unfold kap. change ModisAngles.Re with PropsModisValues.earth. change Alt with height. field. unfold PropsModisValues.earth, height. lra. }
  assert (PH : Rabs (phiR zb - phiR za) <= 0.0018).
  { pose proof (phi_lip zb za ltac:(lra) ltac:(lra)) as L. rewrite (Rabs_pos_eq (zb - za)), DZ in L by lra. pose proof kap_b. eapply Rle_trans; [exact L|].
    apply Rle_trans with (1 * (PI / 1800)); [apply Rmult_le_compat_r; lra|lra]. }
  assert (TH : 0 <= (thetaR zb - thetaR za) ^ 2 <= 0.0018 ^ 2).
  { split; [apply pow2_ge_0|]. pose proof (theta_diff zb za Rb Ra) as [_ L]. rewrite (Rabs_pos_eq (zb - za)), DZ in L by lra. rewrite <- pow2_abs. apply pow_incr. split; [apply Rabs_pos|lra]. }
  assert (P3 : 0 <= Rabs (phiR zb - phiR za) ^ 3 <= 0.0018 ^ 3) by (split; [apply pow_le, Rabs_pos|apply pow_incr; split; [apply Rabs_pos|exact PH]]).
  assert (V4 : 0 <= v * (1 - v) <= 1 / 4) by (split; [apply Rmult_le_pos; lra|pose proof (pow2_ge_0 (v - 1 / 2)); lra]).
  assert (LAM : lam v = lam 0 + v * (lam 1 - lam 0)) by (unfold lam; field).
  assert (OS : PropsGround.on_sphere 6370997 (ground 6370997 (lam v * (180 / PI)) (arc phi * (180 / PI)))).
  { unfold PropsGround.on_sphere, ground. set (q := arc phi * (180 / PI) * (PI / 180)). set (mm := lam v * (180 / PI) * (PI / 180)). pose proof (sin2_cos2 q) as Q1. pose proof (sin2_cos2 mm) as Q2. unfold Rsqr in Q1, Q2.
    transitivity (6370997 ^ 2 * (cos q * cos q * (sin mm * sin mm + cos mm * cos mm) + sin q * sin q)); [ring|]. rewrite Q2, Rmult_1_r, (Rplus_comm (cos q * cos q)), Q1. ring. }
  rewrite GC in OS |- *. set (T := circle 6370997 (cos (lam v), sin (lam v), 0) (0, 0, 1) (arc phi)) in *.
  assert (DT : PropsGround.distance (mix v (circle 6370997 (cos (lam 0), sin (lam 0), 0) (0, 0, 1) (arc phi)) (circle 6370997 (cos (lam 1), sin (lam 1), 0) (0, 0, 1) (arc phi))) T <= 1).
  { unfold T. rewrite LAM. eapply Rle_trans; [apply mix_meridians; lra|]. unfold lam. lra. }
  set (d := 6370997 * ((thetaR zb - thetaR za) ^ 2 / 8 + 5 / 6 * Rabs (phiR zb - phiR za) ^ 3 + v * (1 - v) * (4e-7 * IZR (km M5km_1km) ^ 2)) + 1).
  assert (D20 : d <= 20) by (unfold d, km; cbn [is_1km]; lra).
  assert (AB : 0 <= arc phi <= 1.222).
  { unfold arc. destruct VP as [VP1 VP2]. pose proof z70_b. split; [|lra]. assert (sin phi <= sin (zenith phi)); [|destruct (Rle_dec phi (zenith phi)); [lra|exfalso]].
    - rewrite ZS. pose proof kap_b. assert (0 <= sin phi) by (apply sin_ge_0; lra). apply (Rmult_le_reg_r kap); [lra|]. unfold Rdiv. rewrite Rmult_assoc, Rinv_l by lra. nra.
    - assert (sin (zenith phi) < sin phi) by (apply sin_increasing_1; lra). lra. }
  assert (TX : 1000 < 6370997 * (cos (arc phi) * cos (lam v) + sin (arc phi) * 0)).
  { assert (C1 : 1 / 4 <= cos (arc phi)) by (eapply Rle_trans; [|apply cos_ge; lra]; nra). assert (L1 : 0 <= lam v <= 1) by (unfold lam; lra).
    assert (C2 : 1 / 4 <= cos (lam v)) by (eapply Rle_trans; [|apply cos_ge; lra]; nra). assert (1 / 4 * (1 / 4) <= cos (arc phi) * cos (lam v)) by (apply Rmult_le_compat; lra). lra. }
  assert (SEP : 0.00017 <= Rabs (thetaR za - thetaR zb)).
  { pose proof (theta_diff za zb Ra Rb) as [L _]. replace (za - zb) with (- (PI / 1800)) in L by lra. rewrite Rabs_Ropp, Rabs_pos_eq in L by lra. lra. }
  assert (SEP2 : Rabs (thetaR zb - thetaR za) <= 0.0018).
  { pose proof (theta_diff zb za Rb Ra) as [_ L]. rewrite (Rabs_pos_eq (zb - za)), DZ in L by lra. lra. }
  assert (U4 : 0 <= u * (1 - u) <= 1 / 4) by (split; [apply Rmult_le_pos; lra|pose proof (pow2_ge_0 (u - 1 / 2)); lra]).
  set (sep := Rabs (thetaR za - thetaR zb)) in *. assert (IS : 0 < / sep <= 6000). { split; [apply Rinv_0_lt_compat; lra|]. rewrite <- (Rinv_inv 6000) by lra. apply Rinv_le_contravar; lra. }
  set (off := (0.000013 * (u * (1 - u)) + 0.00000061) * / sep + 0.000007).
  assert (OFF : 0 <= off <= 0.025). { unfold off. assert (0 <= (0.000013 * (u * (1 - u)) + 0.00000061) * / sep <= 0.0000040 * 6000); [|lra]. split; [apply Rmult_le_pos; lra|apply Rmult_le_compat; lra]. }
  set (far := 27 * (9 / 8 + 0.000002 * / sep + off) + 2 * 11470 * off). assert (FAR : 0 <= far <= 620) by (unfold far; lra).
  destruct (C137_view m M5km_1km g 2 270 (arr lo) (arr la) (arr (fun _ b => zen b)) olon olat lo la (fun _ b => zen b) HR HA) with (s := 0%Z) (j := j) (i := i) (phi_a := phiR za) (phi_b := phiR zb) (ta := thetaR za) (tb := thetaR zb)
    (zeta := zenith phi) (theta := arc phi) (A := (cos (lam 0), sin (lam 0), 0)) (B := (0, 0, 1)) (A' := (cos (lam 1), sin (lam 1), 0)) (B' := (0, 0, 1))
    (X := 6370997 * (cos (arc phi) * cos (lam v) + sin (arc phi) * 0)) (Y := 6370997 * (cos (arc phi) * sin (lam v) + sin (arc phi) * 0)) (Z := 6370997 * (cos (arc phi) * 0 + sin (arc phi) * 1)) (delta := 1) (L := 11470)
    as (l & p & E1 & E2 & D);
    rewrite ?RC, ?CB; change (0 * scan_len M5km_1km + 0)%Z with 0%Z; change (IZR 0) with 0; rewrite ?EU.
  - unfold even_grid. auto.
  - lia.
  - cbn. auto.
  - repeat split.
  - intros a c Ha Hc. specialize (ZB c Hc). split; [reflexivity|]. split; [reflexivity|]. split; [reflexivity|].
    assert (DP : 57 <= 180 / PI <= 58) by (assert (Q : 180 / PI * PI = 180) by (field; lra); split; apply (Rmult_le_reg_r PI); rewrite ?Q; lra).
    assert (0 <= IZR a <= 1) by (split; apply IZR_le; lia). split; [|split; [|lra]].
    + unfold lo, lam. rewrite Rabs_pos_eq by (apply Rmult_le_pos; lra). apply Rle_trans with (2 * 58); [apply Rmult_le_compat; lra|lra].
    + pose proof (DG _ ZB) as Q. pose proof (theta_range (degrees (zen c)) Q) as L.
      unfold la. rewrite Rabs_pos_eq by (apply Rmult_le_pos; lra). pose proof z70_b. apply Rle_trans with (1.222 * 58); [apply Rmult_le_compat; lra|lra].
  - exact O.
  - lia.
  - cbn. lia.
  - unfold fine_len. cbn. lia.
  - cbn. lia.
  - exact HU.
  - rewrite EV. exact HV.
  - unfold zen. rewrite plus_IZR. lra.
  - apply SE, Ra.
  - apply SE, Rb.
  - lra.
  - exact SP.
  - apply ON.
  - apply ON.
  - unfold lo, la. apply GC.
  - unfold lo, la. apply GC.
  - unfold lo, la. apply GC.
  - unfold lo, la. apply GC.
  - exact OS.
  - rewrite EV. exact DT.
  - fold sep. lra.
  - intros r _. apply coordinates_of. change (distance (ground 6370997 (lo r (b + 1)%Z) (la r (b + 1)%Z)) (ground 6370997 (lo r b) (la r b)) <= 11470).
    eapply Rle_trans; [apply ground_shift; lra|]. unfold lo, la. fold za zb. rewrite Rminus_eq_0, Rabs_R0, Rplus_0_l, <- Rmult_minus_distr_r, Rabs_mult, (Rabs_pos_eq (180 / PI)) by (apply Rle_mult_inv_pos; lra).
    replace (6370997 * (PI / 180) * (Rabs (thetaR zb - thetaR za) * (180 / PI))) with (6370997 * Rabs (thetaR zb - thetaR za)) by (field; lra). lra.
  - rewrite EV. fold d sep. fold off. fold far. lra.
  - right. rewrite EV. fold d sep. fold off. fold far. lra.
  - exists l, p. split; [exact E1|]. split; [exact E2|]. rewrite RC, EV in D. fold d in D. rewrite CB, EU in D. fold sep off in D. fold far in D. unfold T, circle. lra.
Qed.
