(** C120, C121: turning all tie points about the Earth's axis turns all pixels; mirrored tie points give mirrored pixels. *)
From Coq Require Import ZArith List Lia Bool Reals Lra Arith.
From Verif Require Import Spec Base Num Geo GeoProofs GeoAgree Interp InterpProofs Legacy LegacyProofs LegacyInst LegacyTie Chunks ChunksProofs PropsChunks GridLinear PropsGridLinear Cubic CubicProofs PropsCubic.
From Verif Require Import PropsBilinear PropsInterp PropsLegacy SimpleModisReal PropsSimple LegacyCubic PropsLegacyRows PropsLegacyCubic SplineGrid PropsSplineGrid PropsAccuracy.
From Verif Require Mem Modis SimpleModis PropsModis PropsModisValues Vii ViiProofs PropsVii.
Import ListNotations.
#[local] Existing Instance RT.
Open Scope R_scope.

(** ** Specification *)
(** turn by delta degrees to the east; mirror at the equator; mirror at the prime meridian *)
Inductive motion := Turn (delta : R) | NorthSouth | EastWest.
Definition congruent (a b : R) : Prop := exists k, a = b + 360 * IZR k.
(** the tie point lon', lat' is the tie point lon, lat after the motion *)
Definition moved (m : motion) (lon lat lon' lat' : R) : Prop :=
  match m with
  | Turn delta => congruent lon' (lon + delta) /\ lat' = lat
  | NorthSouth => congruent lon' lon /\ lat' = - lat
  | EastWest => congruent lon' (- lon) /\ lat' = lat
  end.
(** the same for pixels, which may be missing (NaN); positions with y = 0 and x < 0 have longitude 0 instead of 180 (C18) *)
Definition same_meridian (delta : R) (a a' : option R) : Prop :=
  match a, a' with
  | None, None => True
  | Some l, Some l' => congruent l' (l + delta) \/ (l = 0 /\ congruent l' (180 + delta)) \/ (l' = 0 /\ congruent 180 (l + delta))
  | _, _ => False
  end.
Definition moved_pixel (m : motion) (p p' : option R * option R) : Prop :=
  match m with
  | Turn delta => same_meridian delta (fst p) (fst p') /\ snd p' = snd p
  | NorthSouth => fst p' = fst p /\ snd p' = option_map Ropp (snd p)
  | EastWest => fst p' = option_map Ropp (fst p) /\ snd p' = snd p
  end.

(** ** The motions as linear maps *)
Definition a11 m := match m with Turn d => cos (d * (PI / 180)) | _ => 1 end.
Definition a12 m := match m with Turn d => - sin (d * (PI / 180)) | _ => 0 end.
Definition a21 m := match m with Turn d => sin (d * (PI / 180)) | _ => 0 end.
Definition a22 m := match m with Turn d => cos (d * (PI / 180)) | NorthSouth => 1 | EastWest => -1 end.
Definition a33 m := match m with NorthSouth => -1 | _ => 1 end.

Lemma rad_add a b : (a + b) * (PI / 180) = a * (PI / 180) + b * (PI / 180). Proof. ring. Qed.
Lemma congruent_cos a b : congruent a b -> cos (a * (PI / 180)) = cos (b * (PI / 180)).
Proof. intros [k ->]. replace ((b + 360 * IZR k) * (PI / 180)) with (b * (PI / 180) + IZR k * (2 * PI)) by field. apply cos_period_Z. Qed.
Lemma congruent_sin a b : congruent a b -> sin (a * (PI / 180)) = sin (b * (PI / 180)).
Proof. intros [k ->]. replace ((b + 360 * IZR k) * (PI / 180)) with (b * (PI / 180) + IZR k * (2 * PI)) by field. apply sin_period_Z. Qed.
Lemma moved_place r m lon lat lon' lat' : moved m lon lat lon' lat' ->
  let x := r * cos (lat * (PI / 180)) * cos (lon * (PI / 180)) in let y := r * cos (lat * (PI / 180)) * sin (lon * (PI / 180)) in let z := r * sin (lat * (PI / 180)) in
  r * cos (lat' * (PI / 180)) * cos (lon' * (PI / 180)) = a11 m * x + a12 m * y /\
  r * cos (lat' * (PI / 180)) * sin (lon' * (PI / 180)) = a21 m * x + a22 m * y /\
  r * sin (lat' * (PI / 180)) = a33 m * z.
Proof.
  intros H x y z. destruct m as [d| |]; cbn [moved a11 a12 a21 a22 a33] in *; destruct H as [C ->]; rewrite (congruent_cos _ _ C), (congruent_sin _ _ C); unfold x, y, z.
  - rewrite rad_add, cos_plus, sin_plus. repeat split; ring.
  - rewrite Ropp_mult_distr_l_reverse, cos_neg, sin_neg. repeat split; ring.
  - rewrite Ropp_mult_distr_l_reverse, cos_neg, sin_neg. repeat split; ring.
Qed.

Lemma angle_congruent a b : cos (a * (PI / 180)) = cos (b * (PI / 180)) -> sin (a * (PI / 180)) = sin (b * (PI / 180)) -> congruent a b.
Proof.
  intros C S. set (u := a * (PI / 180)) in *. set (v := b * (PI / 180)) in *. pose proof PI_RGT_0 as PP.
  assert (S0 : sin (u - v) = 0) by (rewrite sin_minus, C, S; ring).
  assert (C1 : cos (u - v) = 1) by (rewrite cos_minus, C, S; pose proof (sin2_cos2 v) as Q; unfold Rsqr in Q; lra).
  apply sin_eq_0_0 in S0 as [k Ek]. destruct (Z.Even_or_Odd k) as [[j ->]|[j ->]].
  - exists j. rewrite mult_IZR in Ek. unfold u, v in Ek.
    assert (E : (a - b) * (PI / 180) = (360 * IZR j) * (PI / 180)) by (transitivity (a * (PI / 180) - b * (PI / 180)); [ring|rewrite Ek; field]).
    apply Rmult_eq_reg_r in E; [lra|]. assert (0 < PI / 180) by lra. lra.
  - exfalso. rewrite Ek, plus_IZR, mult_IZR in C1. replace ((2 * IZR j + 1) * PI) with (PI + IZR j * (2 * PI)) in C1 by ring. rewrite cos_period_Z, cos_PI in C1. lra.
Qed.

(** ** One position *)
Lemma lat_depends radius thr low x y x' y' z : x * x + y * y = x' * x' + y' * y' ->
  snd (@xyz2lonlat_at _ RN radius thr low (Some x, Some y, z)) = snd (@xyz2lonlat_at _ RN radius thr low (Some x', Some y', z)).
Proof. intros E. unfold xyz2lonlat_at. cbn [snd nmul nadd RN lift2]. rewrite E. reflexivity. Qed.
Lemma square_zero x y : x * x + y * y = 0 -> x = 0 /\ y = 0.
Proof. intros H. split; nra. Qed.
Lemma turned_lon d x y : x * x + y * y <> 0 -> let x' := cos (d * (PI / 180)) * x + - sin (d * (PI / 180)) * y in let y' := sin (d * (PI / 180)) * x + cos (d * (PI / 180)) * y in
  same_meridian d (Some (rlon x y)) (Some (rlon x' y')).
Proof.
  intros H x' y'. set (c := cos (d * (PI / 180))) in *. set (s := sin (d * (PI / 180))) in *.
  assert (CS : c * c + s * s = 1) by (pose proof (sin2_cos2 (d * (PI / 180))) as Q; unfold Rsqr in Q; fold c s in Q; lra).
  assert (N : x' * x' + y' * y' = x * x + y * y).
  { unfold x', y'. transitivity ((c * c + s * s) * (x * x + y * y)); [ring|]. rewrite CS. ring. }
  assert (H' : x' * x' + y' * y' <> 0) by (rewrite N; exact H).
  assert (Rh : rho x' y' = rho x y) by (unfold rho; rewrite N; reflexivity).
  pose proof (rho_pos x y H) as P.
  assert (Good : forall u v, u * u + v * v <> 0 -> (v <> 0 \/ 0 < u) \/ (v = 0 /\ u < 0)).
  { intros u v Q. destruct (Req_dec v 0) as [->|]; [|left; left; assumption]. destruct (Rtotal_order u 0) as [A|[->|A]]; [right; split; [reflexivity|exact A]|exfalso; apply Q; ring|left; right; exact A]. }
  assert (DirX : forall l, rho x y * cos (l * (PI / 180)) = x -> rho x y * sin (l * (PI / 180)) = y -> rho x y * cos ((l + d) * (PI / 180)) = x' /\ rho x y * sin ((l + d) * (PI / 180)) = y').
  { intros l E1 E2. rewrite rad_add, cos_plus, sin_plus. fold c s. unfold x', y'. set (q := rho x y) in *. split.
    - transitivity (c * (q * cos (l * (PI / 180))) + - s * (q * sin (l * (PI / 180)))); [ring|rewrite E1, E2; reflexivity].
    - transitivity (s * (q * cos (l * (PI / 180))) + c * (q * sin (l * (PI / 180)))); [ring|rewrite E1, E2; reflexivity]. }
  assert (Anti : forall u v, u * u + v * v <> 0 -> v = 0 /\ u < 0 -> rlon u v = 0 /\ rho u v * cos (180 * (PI / 180)) = u /\ rho u v * sin (180 * (PI / 180)) = v).
  { clear. intros u v _ [-> Hu]. split; [apply rlon_antimeridian, Hu|]. replace (180 * (PI / 180)) with PI by field. rewrite cos_PI, sin_PI. split; [|ring].
    unfold rho. replace (u * u + 0 * 0) with ((- u) * (- u)) by ring. rewrite sqrt_square by lra. ring. }
  assert (Fin : forall l l', rho x y * cos (l * (PI / 180)) = x' -> rho x y * sin (l * (PI / 180)) = y' -> rho x y * cos (l' * (PI / 180)) = x' -> rho x y * sin (l' * (PI / 180)) = y' -> congruent l' l).
  { intros l l' E1 E2 E3 E4. apply angle_congruent; apply Rmult_eq_reg_l with (rho x y); lra. }
  cbn [same_meridian]. destruct (Good x y H) as [G|G]; destruct (Good x' y' H') as [G'|G'].
  - left. destruct (rlon_direction x y H G) as [D1 D2]. destruct (rlon_direction x' y' H' G') as [D3 D4]. rewrite Rh in D3, D4. destruct (DirX _ D1 D2) as [E1 E2]. exact (Fin _ _ E1 E2 D3 D4).
  - right. right. destruct (rlon_direction x y H G) as [D1 D2]. destruct (Anti x' y' H' G') as (Z & D3 & D4). rewrite Rh in D3, D4. split; [exact Z|]. destruct (DirX _ D1 D2) as [E1 E2]. exact (Fin _ _ E1 E2 D3 D4).
  - right. left. destruct (Anti x y H G) as (Z & D1 & D2). split; [exact Z|]. destruct (rlon_direction x' y' H' G') as [D3 D4]. rewrite Rh in D3, D4. destruct (DirX _ D1 D2) as [E1 E2]. exact (Fin _ _ E1 E2 D3 D4).
  - left. destruct (Anti x y H G) as (Z & D1 & D2). destruct (Anti x' y' H' G') as (Z' & D3 & D4). rewrite Rh in D3, D4. destruct (DirX _ D1 D2) as [E1 E2]. rewrite Z, Z'.
    destruct (Fin _ _ E1 E2 D3 D4) as [k Ek]. exists k. lra.
Qed.

Lemma sgn_opp y : sgn (- y) = - sgn y.
Proof. unfold sgn. destruct (Rlt_dec 0 (- y)), (Rlt_dec 0 y), (Rlt_dec (- y) 0), (Rlt_dec y 0); lra. Qed.
Lemma rlon_opp x y : rlon x (- y) = - rlon x y.
Proof. unfold rlon, rho. replace (- y * - y) with (y * y) by ring. rewrite sgn_opp. ring. Qed.
Lemma RNacos_opp a : @nacos _ RN (Some (- a)) = match @nacos _ RN (Some a) with Some v => Some (PI - v) | None => None end.
Proof.
  cbn [nacos RN]. unfold RNdom. destruct (Rle_dec (-1) a), (Rle_dec a 1), (Rle_dec (-1) (- a)), (Rle_dec (- a) 1); try lra; try reflexivity. f_equal. apply acos_opp.
Qed.

Lemma pixel_moved radius thr low m x y z : 0 < radius ->
  moved_pixel m (@xyz2lonlat_at _ RN (Some radius) (Some thr) low (Some x, Some y, Some z))
    (@xyz2lonlat_at _ RN (Some radius) (Some thr) low (Some (a11 m * x + a12 m * y), Some (a21 m * x + a22 m * y), Some (a33 m * z))).
Proof.
  intros HR. destruct m as [d| |]; cbn [moved_pixel a11 a12 a21 a22 a33].
  - set (c := cos (d * (PI / 180))). set (s := sin (d * (PI / 180))).
    assert (CS : c * c + s * s = 1) by (pose proof (sin2_cos2 (d * (PI / 180))) as Q; unfold Rsqr in Q; fold c s in Q; lra).
    assert (N : (c * x + - s * y) * (c * x + - s * y) + (s * x + c * y) * (s * x + c * y) = x * x + y * y).
    { transitivity ((c * c + s * s) * (x * x + y * y)); [ring|]. rewrite CS. ring. }
    rewrite Rmult_1_l. split; [|apply lat_depends; exact N].
    destruct (Req_dec (x * x + y * y) 0) as [E|E].
    + destruct (square_zero x y E) as [-> ->]. replace (c * 0 + - s * 0) with 0 by ring. replace (s * 0 + c * 0) with 0 by ring. rewrite np_lon_axis. exact I.
    + rewrite !np_lon; [|rewrite N; exact E|exact E]. apply turned_lon. exact E.
  - replace (1 * x + 0 * y) with x by ring. replace (0 * x + 1 * y) with y by ring. replace (-1 * z) with (- z) by ring. split; [reflexivity|].
    unfold xyz2lonlat_at. cbn [snd]. cbn [nmul nadd RN lift2]. rewrite !np_sign_RN, sgn_opp.
    set (q := @nsub _ RN (@nz _ RN 90) (@rad2deg _ RN (@nasin _ RN (@ndiv _ RN (@nsqrt _ RN (Some (x * x + y * y))) (Some radius))))).
    assert (Q : @nmul _ RN (Some (- sgn z)) q = option_map Ropp (@nmul _ RN (Some (sgn z)) q)).
    { destruct q as [q|]; cbn [nmul RN lift2 option_map]; [|reflexivity]. f_equal. ring. }
    destruct low; [|exact Q]. cbn [ndiv RN]. rewrite !RNdiv_some by lra. rewrite !np_abs_RN. replace (- z / radius) with (- (z / radius)) by (field; lra). rewrite Rabs_Ropp.
    destruct (@nltb _ RN (Some (Rabs (z / radius))) (Some thr)); [|exact Q].
    rewrite RNacos_opp. destruct (@nacos _ RN (Some (z / radius))) as [v|]; [|reflexivity]. rewrite !rad2deg_RN. cbn [nsub nz RN lift2 option_map]. f_equal. pose proof PI_RGT_0. field. lra.
  - replace (1 * x + 0 * y) with x by ring. replace (0 * x + -1 * y) with (- y) by ring. rewrite Rmult_1_l. split; [|apply lat_depends; ring].
    destruct (Req_dec (x * x + y * y) 0) as [E|E].
    + destruct (square_zero x y E) as [-> ->]. replace (- 0) with 0 by ring. rewrite np_lon_axis. reflexivity.
    + rewrite !np_lon; [rewrite rlon_opp; reflexivity|exact E|]. replace (- y * - y) with (y * y) by ring. exact E.
Qed.

(** ** All tie points at once *)
Lemma xyz_moved m x y z : moved_pixel m (@xyz2lonlat _ RN (Some x, Some y, Some z)) (@xyz2lonlat _ RN (Some (a11 m * x + a12 m * y), Some (a21 m * x + a22 m * y), Some (a33 m * z))).
Proof. unfold xyz2lonlat, EARTH_RADIUS. cbn [nz ndiv RN]. rewrite RNdiv_some by lra. apply pixel_moved. lra. Qed.
Lemma cy_moved thr m x y z : moved_pixel m (@cy_xyz2lonlat _ RN true (Some thr) (Some x, Some y, Some z))
  (@cy_xyz2lonlat _ RN true (Some thr) (Some (a11 m * x + a12 m * y), Some (a21 m * x + a22 m * y), Some (a33 m * z))).
Proof. rewrite !cy_agrees. unfold EARTH_RADIUS. cbn [nz RN]. apply pixel_moved. lra. Qed.
Lemma at_moved m lon lat lon' lat' : moved m lon lat lon' lat' ->
  at_x lon' lat' = a11 m * at_x lon lat + a12 m * at_y lon lat /\ at_y lon' lat' = a21 m * at_x lon lat + a22 m * at_y lon lat /\ at_z lon' lat' = a33 m * at_z lon lat.
Proof. exact (moved_place 6370997 m lon lat lon' lat'). Qed.
Definition moved_array (m : motion) (rows cols : nat) (lons lats lons' lats' : list (list R)) : Prop :=
  forall r c, (r < rows)%nat -> (c < cols)%nat -> moved m (at2 0 lons r c) (at2 0 lats r c) (at2 0 lons' r c) (at2 0 lats' r c).
Definition moved_pixels (m : motion) (rows cols : nat) (lons lats lons' lats' : list (list (option R))) : Prop :=
  forall r c, (r < rows)%nat -> (c < cols)%nat -> moved_pixel m (at2 None lons r c, at2 None lats r c) (at2 None lons' r c, at2 None lats' r c).

Lemma place_moved m lon lat lon' lat' : moved m lon lat lon' lat' ->
  let p := @lonlat2xyz R RT lon lat in let p' := @lonlat2xyz R RT lon' lat' in
  fst (fst p') = a11 m * fst (fst p) + a12 m * snd (fst p) /\ snd (fst p') = a21 m * fst (fst p) + a22 m * snd (fst p) /\ snd p' = a33 m * snd p.
Proof. intros H p p'. unfold p, p'. rewrite !legacy_place. cbn [fst snd]. exact (at_moved m lon lat lon' lat' H). Qed.

Lemma bilinear_two ys xs f g h a b r c y x : increasing ys -> increasing xs -> (S r < length ys)%nat -> (S c < length xs)%nat ->
  (forall i j, (i < length ys)%nat -> (j < length xs)%nat -> h i j = a * f i j + b * g i j) ->
  PropsGridLinear.bilinear ys xs h r c y x = a * PropsGridLinear.bilinear ys xs f r c y x + b * PropsGridLinear.bilinear ys xs g r c y x.
Proof.
  intros Iy Ix Hr Hc H. pose proof (step_pos ys r Iy Hr) as S1. pose proof (step_pos xs c Ix Hc) as S2.
  unfold PropsGridLinear.bilinear, straight_line. cbv zeta. rewrite !H by lia. field. lra.
Qed.

Theorem C120_grid : forall m i ys xs lons lats lons' lats' fy fx,
  axes ys xs -> shaped (length ys) (length xs) lons -> shaped (length ys) (length xs) lats -> shaped (length ys) (length xs) lons' -> shaped (length ys) (length xs) lats' ->
  extrapolates i \/ (Forall (inside ys) fy /\ Forall (inside xs) fx) ->
  moved_array m (length ys) (length xs) lons lats lons' lats' ->
  exists olon olat olon' olat', geo_grid i ys xs lons lats fy fx = Ok (olon, olat) /\ geo_grid i ys xs lons' lats' fy fx = Ok (olon', olat') /\
    moved_pixels m (length fy) (length fx) olon olat olon' olat'.
Proof.
  intros m i ys xs lons lats lons' lats' fy fx A S1 S2 S3 S4 X M.
  destruct (C91_position i ys xs lons lats fy fx A S1 S2 X) as (olon & olat & E & _ & _ & P).
  destruct (C91_position i ys xs lons' lats' fy fx A S3 S4 X) as (olon' & olat' & E' & _ & _ & P').
  exists olon, olat, olon', olat'. split; [exact E|]. split; [exact E'|]. intros p q Hp Hq. destruct A as (Iy & Ix & Ly & Lx).
  destruct (C90_cells ys (nth p fy 0) Iy Ly) as [r Hr]. destruct (C90_cells xs (nth q fx 0) Ix Lx) as [c Hc].
  specialize (P p q r c Hp Hq Hr Hc). specialize (P' p q r c Hp Hq Hr Hc). cbv zeta beta in P, P'. rewrite P, P'. clear P P'.
  set (y := nth p fy 0) in *. set (x := nth q fx 0) in *.
  assert (T : forall a b, (a < length ys)%nat -> (b < length xs)%nat -> let w := tie_xyz lons lats a b in let w' := tie_xyz lons' lats' a b in
    fst (fst w') = a11 m * fst (fst w) + a12 m * snd (fst w) /\ snd (fst w') = a21 m * fst (fst w) + a22 m * snd (fst w) /\ snd w' = a33 m * snd w).
  { intros a b Ha Hb. apply place_moved. apply M; assumption. }
  rewrite (bilinear_two ys xs (fun a b => fst (fst (tie_xyz lons lats a b))) (fun a b => snd (fst (tie_xyz lons lats a b))) (fun a b => fst (fst (tie_xyz lons' lats' a b))) (a11 m) (a12 m) r c y x Iy Ix (proj1 Hr) (proj1 Hc)) by (intros a b Ha Hb; apply (T a b Ha Hb)).
  rewrite (bilinear_two ys xs (fun a b => fst (fst (tie_xyz lons lats a b))) (fun a b => snd (fst (tie_xyz lons lats a b))) (fun a b => snd (fst (tie_xyz lons' lats' a b))) (a21 m) (a22 m) r c y x Iy Ix (proj1 Hr) (proj1 Hc)) by (intros a b Ha Hb; apply (T a b Ha Hb)).
  rewrite (bilinear_two ys xs (fun a b => snd (tie_xyz lons lats a b)) (fun a b => snd (tie_xyz lons lats a b)) (fun a b => snd (tie_xyz lons' lats' a b)) (a33 m) 0 r c y x Iy Ix (proj1 Hr) (proj1 Hc)) by (intros a b Ha Hb; rewrite (proj2 (proj2 (T a b Ha Hb))); ring).
  rewrite (Rmult_0_l (PropsGridLinear.bilinear _ _ _ _ _ _ _)), Rplus_0_r. apply xyz_moved.
Qed.

Lemma nth_map_seq {A} (f : nat -> A) n i d : (i < n)%nat -> nth i (map f (seq 0 n)) d = f i.
Proof. intros H. rewrite (nth_indep _ d (f 0%nat)) by (rewrite map_length, seq_length; exact H). rewrite map_nth, seq_nth by exact H. reflexivity. Qed.
Lemma tensor_two i ys xs f g h a b y x u v : enough (deg_y i) ys -> enough (deg_x i) xs ->
  (forall r c, (r < length ys)%nat -> (c < length xs)%nat -> h r c = a * f r c + b * g r c) ->
  tensor_value i ys xs f y x u -> tensor_value i ys xs g y x v -> tensor_value i ys xs h y x (a * u + b * v).
Proof.
  intros Ey Ex H (s & S & Fs & FS & ->) (t & T & Ft & FT & ->). exists (fun r z => a * s r z + b * t r z), (fun z => a * S z + b * T z). split; [|split; [|reflexivity]].
  - intros r Hr. apply (fit_lin _ xs (map (f r) (seq 0 (length xs))) (map (g r) (seq 0 (length xs))) _ a b (s r) (t r) Ex); try (rewrite map_length, seq_length; reflexivity); [|exact (Fs r Hr)|exact (Ft r Hr)].
    intros j Hj. rewrite !nth_map_seq by exact Hj. exact (H r j Hr Hj).
  - apply (fit_lin _ ys (map (fun r => s r x) (seq 0 (length ys))) (map (fun r => t r x) (seq 0 (length ys))) _ a b S T Ey); try (rewrite map_length, seq_length; reflexivity); [|exact FS|exact FT].
    intros j Hj. rewrite !nth_map_seq by exact Hj. reflexivity.
Qed.

Theorem C120_spline : forall m other i ys xs lons lats lons' lats' fy fx,
  enough (deg_y i) ys -> enough (deg_x i) xs -> degree (deg_y i) -> degree (deg_x i) ->
  shaped (length ys) (length xs) lons -> shaped (length ys) (length xs) lats -> shaped (length ys) (length xs) lons' -> shaped (length ys) (length xs) lats' ->
  not_descending fy -> not_descending fx ->
  moved_array m (length ys) (length xs) lons lats lons' lats' ->
  exists olon olat olon' olat', geo_spline other i ys xs lons lats fy fx = Ok (olon, olat) /\ geo_spline other i ys xs lons' lats' fy fx = Ok (olon', olat') /\
    moved_pixels m (length fy) (length fx) olon olat olon' olat'.
Proof.
  intros m other i ys xs lons lats lons' lats' fy fx Ey Ex Dy Dx S1 S2 S3 S4 Ny Nx M.
  destruct (C106_position other i ys xs lons lats fy fx Ey Ex Dy Dx S1 S2 Ny Nx) as (olon & olat & E & _ & _ & P).
  destruct (C106_position other i ys xs lons' lats' fy fx Ey Ex Dy Dx S3 S4 Ny Nx) as (olon' & olat' & E' & _ & _ & P').
  exists olon, olat, olon', olat'. split; [exact E|]. split; [exact E'|]. intros p q Hp Hq.
  set (y := nth p fy 0) in *. set (x := nth q fx 0) in *.
  destruct (C106_exists i ys xs (fun r c => fst (fst (tie_position lons lats r c))) y x Ey Ex Dy Dx) as (px & Vx & _).
  destruct (C106_exists i ys xs (fun r c => snd (fst (tie_position lons lats r c))) y x Ey Ex Dy Dx) as (py & Vy & _).
  destruct (C106_exists i ys xs (fun r c => snd (tie_position lons lats r c)) y x Ey Ex Dy Dx) as (pz & Vz & _).
  assert (T : forall a b, (a < length ys)%nat -> (b < length xs)%nat -> let w := tie_position lons lats a b in let w' := tie_position lons' lats' a b in
    fst (fst w') = a11 m * fst (fst w) + a12 m * snd (fst w) /\ snd (fst w') = a21 m * fst (fst w) + a22 m * snd (fst w) /\ snd w' = a33 m * snd w).
  { intros a b Ha Hb. apply place_moved. apply M; assumption. }
  rewrite (P p q px py pz Hp Hq Vx Vy Vz). rewrite (P' p q (a11 m * px + a12 m * py) (a21 m * px + a22 m * py) (a33 m * pz) Hp Hq).
  - apply xyz_moved.
  - eapply (tensor_two i ys xs _ _ _ (a11 m) (a12 m)); [exact Ey|exact Ex| |exact Vx|exact Vy]. intros a b Ha Hb. apply (T a b Ha Hb).
  - eapply (tensor_two i ys xs _ _ _ (a21 m) (a22 m)); [exact Ey|exact Ex| |exact Vx|exact Vy]. intros a b Ha Hb. apply (T a b Ha Hb).
  - replace (a33 m * pz) with (a33 m * pz + 0 * pz) by ring. eapply (tensor_two i ys xs _ _ _ (a33 m) 0); [exact Ey|exact Ex| |exact Vz|exact Vz]. intros a b Ha Hb. rewrite (proj2 (proj2 (T a b Ha Hb))). ring.
Qed.

(** the MODIS interpolators without and with the zenith angles *)
Lemma pwl_two n v w a b x : pwl n (fun c => a * v c + b * w c) x = a * pwl n v x + b * pwl n w x.
Proof. unfold pwl. cbv zeta. ring. Qed.
Section ModisTies.
Import Modis SimpleModis PropsModis PropsModisValues.
Local Open Scope Z_scope.
Definition ties_at (n w : Z) (lon lat : ndarray (option R)) (lo la : Z -> Z -> R) : Prop :=
  forall a b, 0 <= a < n -> 0 <= b < w -> aat lon a b = Some (lo a b) /\ aat lat a b = Some (la a b).
Definition moved_ties (m : motion) (n w : Z) (lo la lo' la' : Z -> Z -> R) : Prop :=
  forall a b, 0 <= a < n -> 0 <= b < w -> moved m (lo a b) (la a b) (lo' a b) (la' a b).

Theorem C120_simple : forall m k g dt n w (lon lat lon' lat' olon olat olon' olat' : ndarray (option R)) lo la lo' la',
  dt <> OtherDtype -> 2 <= w -> shaped2 dt n w lon lat -> shaped2 dt n w lon' lat' -> ties_at n w lon lat lo la -> ties_at n w lon' lat' lo' la' ->
  moved_ties m n w lo la lo' la' ->
  @simple _ RN k g lon lat = Ok (olon, olat) -> @simple _ RN k g lon' lat' = Ok (olon', olat') ->
  forall r i, 0 <= r -> (r / (fac2 k * 10) + 1) * 10 <= n -> 0 <= i < fac2 k * w ->
    moved_pixel m (aat olon r i, aat olat r i) (aat olon' r i, aat olat' r i).
Proof.
  intros m k g dt n w lon lat lon' lat' olon olat olon' olat' lo la lo' la' Hd Hw S S' T T' M E E' r i Hr Hn Hi.
  assert (F : 0 < fac2 k * 10) by (destruct k; cbn; lia). pose proof (Z.div_mod r (fac2 k * 10) ltac:(lia)) as D. pose proof (Z.mod_pos_bound r (fac2 k * 10) F) as B.
  set (s := r / (fac2 k * 10)) in *. set (j := r mod (fac2 k * 10)) in *. assert (Hs : 0 <= s) by (apply Z.div_pos; lia).
  replace r with (s * (fac2 k * 10) + j) by lia.
  pose proof (C56_bilinear k g dt n w lon lat olon olat lo la Hd Hw S T E s j i Hs Hn B Hi) as P. pose proof (C56_bilinear k g dt n w lon' lat' olon' olat' lo' la' Hd Hw S' T' E' s j i Hs Hn B Hi) as P'.
  cbv zeta in P, P'. rewrite P, P'. clear P P'.
  assert (L : forall h a b, (forall p q, 0 <= p < n -> 0 <= q < w -> h (lo' p q) (la' p q) = (a * at_x (lo p q) (la p q) + b * at_y (lo p q) (la p q))%R) ->
    PropsSimple.bilinear 10 w (fun p q => h (lo' (s * 10 + p)%Z q) (la' (s * 10 + p)%Z q)) (row_pos k j) (col_pos k i) =
    (a * PropsSimple.bilinear 10 w (fun p q => at_x (lo (s * 10 + p)%Z q) (la (s * 10 + p)%Z q)) (row_pos k j) (col_pos k i) + b * PropsSimple.bilinear 10 w (fun p q => at_y (lo (s * 10 + p)%Z q) (la (s * 10 + p)%Z q)) (row_pos k j) (col_pos k i))%R).
  { intros h a b H. unfold PropsSimple.bilinear. rewrite <- pwl_two. apply pwl_ext; [lia|]. intros p Hp. rewrite <- pwl_two. apply pwl_ext; [lia|]. intros q Hq. apply H; lia. }
  rewrite (L at_x (a11 m) (a12 m)) by (intros p q Hp Hq; apply (at_moved m); apply M; assumption). rewrite (L at_y (a21 m) (a22 m)) by (intros p q Hp Hq; apply (at_moved m); apply M; assumption). clear L.
  assert (L : PropsSimple.bilinear 10 w (fun p q => at_z (lo' (s * 10 + p)%Z q) (la' (s * 10 + p)%Z q)) (row_pos k j) (col_pos k i) =
    (a33 m * PropsSimple.bilinear 10 w (fun p q => at_z (lo (s * 10 + p)%Z q) (la (s * 10 + p)%Z q)) (row_pos k j) (col_pos k i))%R).
  { unfold PropsSimple.bilinear. set (A := fun p => pwl w _ _). transitivity (a33 m * pwl 10 (fun p => pwl w (fun q => at_z (lo (s * 10 + p)%Z q) (la (s * 10 + p)%Z q)) (col_pos k i)) (row_pos k j) + 0 * pwl 10 (fun p => pwl w (fun q => at_z (lo (s * 10 + p)%Z q) (la (s * 10 + p)%Z q)) (col_pos k i)) (row_pos k j))%R; [|ring].
    rewrite <- pwl_two. apply pwl_ext; [lia|]. intros p Hp. unfold A. rewrite <- pwl_two. apply pwl_ext; [lia|]. intros q Hq. rewrite (proj2 (proj2 (at_moved m _ _ _ _ (M (s * 10 + p) q ltac:(lia) ltac:(lia))))). ring. }
  rewrite L. apply cy_moved.
Qed.

Lemma corners_two f g h a b row col v u : (forall p q, p = row \/ p = row + 1 -> q = col \/ q = col + 1 -> h p q = (a * f p q + b * g p q)%R) ->
  corners h row col v u = (a * corners f row col v u + b * corners g row col v u)%R.
Proof. intros H. unfold corners. rewrite !H by auto. ring. Qed.
Theorem C120_modis : forall m k g n w (lon lat lon' lat' satz olon olat olon' olat' : ndarray (option R)) lo la lo' la' (z : Z -> Z -> R),
  even_grid k -> 0 <= n -> std_width k w -> PropsModis.shaped Float32 n w lon lat satz -> PropsModis.shaped Float32 n w lon' lat' satz ->
  ties_at n w lon lat lo la -> ties_at n w lon' lat' lo' la' -> moved_ties m n w lo la lo' la' ->
  (forall a b, 0 <= a < n -> 0 <= b < w -> aat satz a b = Some (z a b) /\ (0 <= z a b <= 89)%R) ->
  (forall a b, 0 <= a < n -> 0 <= b -> b + 1 < w -> ~ (z a b = 0 /\ z a (b + 1)%Z = 0)%R) ->
  @modis _ RN k g lon lat satz = Ok (olon, olat) -> @modis _ RN k g lon' lat' satz = Ok (olon', olat') ->
  forall r i, 0 <= r -> (r / fine_len k + 1) * scan_len k <= n -> 0 <= i < fine_width k ->
    moved_pixel m (aat olon r i, aat olat r i) (aat olon' r i, aat olat' r i).
Proof.
  intros m k g n w lon lat lon' lat' satz olon olat olon' olat' lo la lo' la' z Hk Hn Hw S S' T T' M Z1 Z2 E E' r i Hr Hs Hi.
  assert (F : 0 < fine_len k) by (destruct k; cbn; lia). pose proof (Z.div_mod r (fine_len k) ltac:(lia)) as D. pose proof (Z.mod_pos_bound r (fine_len k) F) as B.
  set (s := r / fine_len k) in *. set (j := r mod fine_len k) in *. assert (H0 : 0 <= s) by (apply Z.div_pos; lia).
  replace r with (s * fine_len k + j) by lia.
  assert (W : forall lon0 lat0 lo0 la0, ties_at n w lon0 lat0 lo0 la0 -> forall a b, 0 <= a < n -> 0 <= b < w -> aat lon0 a b = Some (lo0 a b) /\ aat lat0 a b = Some (la0 a b) /\ aat satz a b = Some (z a b) /\ (0 <= z a b <= 89)%R).
  { intros lon0 lat0 lo0 la0 T0 a b Ha Hb. destruct (T0 a b Ha Hb), (Z1 a b Ha Hb). auto. }
  destruct (C69_pixels k g n w lon lat satz olon olat lo la z Hk Hn Hw S (W _ _ _ _ T) Z2 E s j i H0 Hs B Hi) as (e & l & C & P).
  destruct (C69_pixels k g n w lon' lat' satz olon' olat' lo' la' z Hk Hn Hw S' (W _ _ _ _ T') Z2 E' s j i H0 Hs B Hi) as (e' & l' & C' & P').
  rewrite C in C'. inversion C'. subst e' l'. cbv zeta in P, P'. rewrite P, P'. clear P P' C C' W.
  set (row := s * scan_len k + row_cell k j). set (col := col_cell k w i). set (v := (track_pos k j - IZR (row_cell k j))%R). set (u := (_ + _ + v * _ * _)%R).
  assert (R1 : 0 <= row /\ row + 1 < n). { assert (2 <= scan_len k) by (destruct k; cbn; lia). unfold row, row_cell. nia. }
  assert (C1 : 0 <= col /\ col + 1 < w). { assert (2 <= w) by (unfold std_width in Hw; destruct k; cbn in Hw; lia). unfold col, col_cell. lia. }
  assert (A : forall p q, p = row \/ p = row + 1 -> q = col \/ q = col + 1 -> moved m (lo p q) (la p q) (lo' p q) (la' p q)) by (intros p q Hp Hq; apply M; lia).
  rewrite (corners_two (fun a b => at_x (lo a b) (la a b)) (fun a b => at_y (lo a b) (la a b)) (fun a b => at_x (lo' a b) (la' a b)) (a11 m) (a12 m)) by (intros p q Hp Hq; apply (at_moved m); apply A; assumption).
  rewrite (corners_two (fun a b => at_x (lo a b) (la a b)) (fun a b => at_y (lo a b) (la a b)) (fun a b => at_y (lo' a b) (la' a b)) (a21 m) (a22 m)) by (intros p q Hp Hq; apply (at_moved m); apply A; assumption).
  rewrite (corners_two (fun a b => at_z (lo a b) (la a b)) (fun a b => at_z (lo a b) (la a b)) (fun a b => at_z (lo' a b) (la' a b)) (a33 m) 0) by (intros p q Hp Hq; rewrite (proj2 (proj2 (at_moved m _ _ _ _ (A p q Hp Hq)))); ring).
  rewrite Rmult_0_l, Rplus_0_r. apply cy_moved.
Qed.
End ModisTies.

(** the legacy functions (cubic splines) *)
Lemma through_two ks u v h a b s t : through ks u s -> through ks v t -> (forall i, (i < length ks)%nat -> nth i h 0 = a * nth i u 0 + b * nth i v 0) -> through ks h (fun x => a * s x + b * t x).
Proof. intros S T H i Hi. rewrite H, <- (S i Hi), <- (T i Hi) by exact Hi. reflexivity. Qed.
Definition metop_values (c : R -> R -> R) (lons lats : list (list R)) (r : nat) : list R := map (fun q => c (at2 0 lons r q) (at2 0 lats r q)) (seq 0 105).
Lemma metop_canon c lons lats r : metop_spline c lons lats r (cubic_splev metop_knots (metop_values c lons lats r)) /\
  forall s, metop_spline c lons lats r s -> forall x, s x = cubic_splev metop_knots (metop_values c lons lats r) x.
Proof.
  destruct (C99_spline metop_knots (metop_values c lons lats r) metop_knots_inc ltac:(rewrite metop_knots_length; lia)) as (A & B & U).
  split; [split; [exact A|exact B]|]. intros s [A' B'] x. now apply U.
Qed.
Lemma metop_two f g h a b lons lats lons' lats' r x : (forall q, (q < 105)%nat -> h (at2 0 lons' r q) (at2 0 lats' r q) = a * f (at2 0 lons r q) (at2 0 lats r q) + b * g (at2 0 lons r q) (at2 0 lats r q)) ->
  cubic_splev metop_knots (metop_values h lons' lats' r) x = a * cubic_splev metop_knots (metop_values f lons lats r) x + b * cubic_splev metop_knots (metop_values g lons lats r) x.
Proof.
  intros H. symmetry. destruct (metop_canon f lons lats r) as [[Af Bf] _]. destruct (metop_canon g lons lats r) as [[Ag Bg] _].
  apply (proj2 (metop_canon h lons' lats' r) (fun x => a * cubic_splev metop_knots (metop_values f lons lats r) x + b * cubic_splev metop_knots (metop_values g lons lats r) x)).
  split; [apply spline3_lin; assumption|]. eapply through_two; [exact Bf|exact Bg|]. intros i Hi. rewrite metop_knots_length in Hi. rewrite !nth_map_seq by exact Hi. now apply H.
Qed.
Theorem C120_metop : forall m other spl2 n lons lats lons' lats' lo la lo' la', shaped n 105 lons -> shaped n 105 lats -> shaped n 105 lons' -> shaped n 105 lats' ->
  moved_array m n 105 lons lats lons' lats' ->
  metop20kmto1km (spl1_with other) spl2 lons lats = Ok (lo, la) -> metop20kmto1km (spl1_with other) spl2 lons' lats' = Ok (lo', la') ->
  moved_pixels m n 2048 lo la lo' la'.
Proof.
  intros m other spl2 n lons lats lons' lats' lo la lo' la' S1 S2 S3 S4 M E E' r J Hr HJ.
  rewrite (C109_pixel other spl2 n lons lats lo la r J _ S1 S2 E Hr HJ (fun c => proj1 (metop_canon c lons lats r))).
  rewrite (C109_pixel other spl2 n lons' lats' lo' la' r J _ S3 S4 E' Hr HJ (fun c => proj1 (metop_canon c lons' lats' r))).
  rewrite (metop_two at_x at_y at_x (a11 m) (a12 m) lons lats lons' lats') by (intros q Hq; apply (at_moved m); now apply M).
  rewrite (metop_two at_x at_y at_y (a21 m) (a22 m) lons lats lons' lats') by (intros q Hq; apply (at_moved m); now apply M).
  rewrite (metop_two at_z at_z at_z (a33 m) 0 lons lats lons' lats') by (intros q Hq; rewrite (proj2 (proj2 (at_moved m _ _ _ _ (M r q Hr Hq)))); ring).
  rewrite Rmult_0_l, Rplus_0_r. apply xyz_moved.
Qed.

Lemma row_canon f v : row_spline f v (cubic_splev (knots f) (line_data f v)) /\ forall s, row_spline f v s -> forall x, s x = cubic_splev (knots f) (line_data f v) x.
Proof.
  destruct (layout_of f) as (g & m & W & L & delta & dc & o & Y).
  destruct (C99_spline (knots f) (line_data f v) (knots_inc _ _ _ _ _ _ _ _ Y) (knots_length _ _ _ _ _ _ _ _ Y)) as (A & B & U).
  split; [split; assumption|]. intros s' [A' B'] x. now apply U.
Qed.
Lemma row_two f u v h a b x : (forall c, (0 <= c < Z.of_nat (tie_cols f))%Z -> h c = a * u c + b * v c) ->
  cubic_splev (knots f) (line_data f h) x = a * cubic_splev (knots f) (line_data f u) x + b * cubic_splev (knots f) (line_data f v) x.
Proof.
  intros H. symmetry. destruct (row_canon f u) as [[Au Bu] _]. destruct (row_canon f v) as [[Av Bv] _].
  apply (proj2 (row_canon f h) (fun x => a * cubic_splev (knots f) (line_data f u) x + b * cubic_splev (knots f) (line_data f v) x)).
  split; [apply spline3_lin; assumption|]. eapply through_two; [exact Bu|exact Bv|]. intros i Hi. unfold knots in Hi. rewrite map_length in Hi.
  unfold line_data. set (F := fun w J => pwl (Z.of_nat (tie_cols f)) w (x_of f J)).
  assert (N : forall w, nth i (map (F w) (knot_columns f)) 0 = F w (nth i (knot_columns f) 0%nat)).
  { intros w. rewrite (nth_indep _ 0 (F w 0%nat)) by (rewrite map_length; exact Hi). apply map_nth. }
  change (nth i (map (F h) (knot_columns f)) 0 = a * nth i (map (F u) (knot_columns f)) 0 + b * nth i (map (F v) (knot_columns f)) 0).
  rewrite !N. unfold F. rewrite <- pwl_two. apply pwl_ext; [destruct f; cbn [tie_cols]; lia|exact H].
Qed.
Theorem C120_legacy : forall m f spl1 other K lons lats lons' lats' lo la lo' la',
  shaped (K * tie_rows f) (tie_cols f) lons -> shaped (K * tie_rows f) (tie_cols f) lats -> shaped (K * tie_rows f) (tie_cols f) lons' -> shaped (K * tie_rows f) (tie_cols f) lats' ->
  moved_array m (K * tie_rows f) (tie_cols f) lons lats lons' lats' ->
  legacy f spl1 (spl2_with other) lons lats = Ok (lo, la) -> legacy f spl1 (spl2_with other) lons' lats' = Ok (lo', la') ->
  moved_pixels m (K * (zoom f * tie_rows f)) (fine_cols f) lo la lo' la'.
Proof.
  intros m f spl1 other K lons lats lons' lats' lo la lo' la' S1 S2 S3 S4 M E E' r J Hr HJ.
  assert (Z0 : (zoom f * tie_rows f <> 0)%nat) by (destruct f; cbn; lia).
  pose proof (Nat.div_mod r (zoom f * tie_rows f) Z0) as D. pose proof (Nat.mod_upper_bound r (zoom f * tie_rows f) Z0) as B.
  set (q := (r / (zoom f * tie_rows f))%nat) in *. set (j := (r mod (zoom f * tie_rows f))%nat) in *.
  assert (Hq : (q < K)%nat) by (apply Nat.div_lt_upper_bound; [exact Z0|lia]).
  assert (Er : r = (q * (zoom f * tie_rows f) + j)%nat) by lia. rewrite Er.
  pose proof (C102_pixel f spl1 other K lons lats lo la q j J _ S1 S2 E Hq B HJ (fun c a _ => proj1 (row_canon f (PropsLegacyCubic.tie_values f lons lats q c a)))) as P.
  pose proof (C102_pixel f spl1 other K lons' lats' lo' la' q j J _ S3 S4 E' Hq B HJ (fun c a _ => proj1 (row_canon f (PropsLegacyCubic.tie_values f lons' lats' q c a)))) as P'.
  cbv zeta in P, P'. rewrite P, P'. clear P P'. set (X := column_position f J). set (Y := y_of f j).
  assert (R2 : (2 <= Z.of_nat (tie_rows f))%Z) by (destruct f; cbn; lia).
  set (pos := fun c lo0 la0 => pwl (Z.of_nat (tie_rows f)) (fun a => cubic_splev (knots f) (line_data f (PropsLegacyCubic.tie_values f lo0 la0 q c a)) X) Y).
  assert (In : forall a c, (0 <= a < Z.of_nat (tie_rows f))%Z -> (0 <= c < Z.of_nat (tie_cols f))%Z -> let R0 := (q * tie_rows f + Z.to_nat a)%nat in
    moved m (at2 0 lons R0 (Z.to_nat c)) (at2 0 lats R0 (Z.to_nat c)) (at2 0 lons' R0 (Z.to_nat c)) (at2 0 lats' R0 (Z.to_nat c))).
  { intros a c Ha Hc R0. apply M; [|lia]. unfold R0. assert ((S q * tie_rows f <= K * tie_rows f)%nat) by (apply Nat.mul_le_mono_r; lia). cbn in H. lia. }
  assert (L : forall u v h a b, (forall lon lat lon' lat', moved m lon lat lon' lat' -> h lon' lat' = a * u lon lat + b * v lon lat) -> pos h lons' lats' = a * pos u lons lats + b * pos v lons lats).
  { intros u v h a b H. unfold pos. rewrite <- pwl_two. apply pwl_ext; [exact R2|]. intros c Hc. apply row_two. intros d Hd. unfold PropsLegacyCubic.tie_values. apply H. now apply In. }
  change (moved_pixel m (@xyz2lonlat _ RN (Some (pos at_x lons lats), Some (pos at_y lons lats), Some (pos at_z lons lats))) (@xyz2lonlat _ RN (Some (pos at_x lons' lats'), Some (pos at_y lons' lats'), Some (pos at_z lons' lats')))).
  rewrite (L at_x at_y at_x (a11 m) (a12 m)) by (intros; now apply (at_moved m)). rewrite (L at_x at_y at_y (a21 m) (a22 m)) by (intros; now apply (at_moved m)).
  rewrite (L at_z at_z at_z (a33 m) 0) by (intros ? ? ? ? H; rewrite (proj2 (proj2 (at_moved m _ _ _ _ H))); ring).
  rewrite Rmult_0_l, Rplus_0_r. apply xyz_moved.
Qed.
Print Assumptions C120_grid.
Print Assumptions C120_spline.
Print Assumptions C120_simple.
Print Assumptions C120_modis.
Print Assumptions C120_metop.
Print Assumptions C120_legacy.

(** ** VII *)
Section ViiMotions.
Import Vii ViiProofs PropsVii.
Local Open Scope R_scope.
Variable nan : option R.
Notation vii_run := (@tie_points_geo_interpolation _ RN nan).

Lemma vii_weights s f n_scans nc i k : (2 <= s)%nat -> (1 <= f)%nat -> (2 <= nc)%nat -> (i < n_scans * (s - 1) * f)%nat -> (k < (nc - 1) * f)%nat ->
  exists W : (nat -> nat -> R) -> R,
    (forall u v h a b, (forall p q, (p < n_scans * s)%nat -> (q < nc)%nat -> h p q = a * u p q + b * v p q) -> W h = a * W u + b * W v) /\
    (forall c, W (fun _ _ => c) = c) /\
    forall datas data out v, produced nan datas s f n_scans data out -> ncols data = nc -> finite_da data v -> at_ out i k = Some (W v).
Proof.
  intros Hs Hf Hn Hi Hk. destruct (address s f n_scans i Hs Hf Hi) as (j & r & a & -> & Hj & Hr & Ha).
  set (c := (k / f)%nat). set (b := (k mod f)%nat).
  assert (Ek : k = (c * f + b)%nat) by (unfold c, b; rewrite (Nat.div_mod k f) at 1; lia).
  assert (Hb : (b < f)%nat) by (unfold b; apply Nat.mod_upper_bound; lia).
  assert (Hc : (c < nc - 1)%nat) by (unfold c; apply Nat.div_lt_upper_bound; lia). clearbody c b. subst k.
  set (t := INR a / INR f). set (u := INR b / INR f). set (p := (j * s + r)%nat).
  assert (Hp : (p + 1 < n_scans * s)%nat) by (unfold p; nia).
  exists (fun v => (1 - t) * (1 - u) * v p c + (1 - t) * u * v p (c + 1)%nat + t * (1 - u) * v (p + 1)%nat c + t * u * v (p + 1)%nat (c + 1)%nat).
  split; [|split].
  - intros u0 v h x y H. rewrite !H by lia. ring.
  - intros. ring.
  - intros datas data out v P E F. subst nc. exact (C37_bilinear nan datas s f n_scans data out v j r a c b P F Hj Hr Ha Hc Hb).
Qed.

Lemma vii_place lon lat : @vii_lonlat2xyz _ RT lon lat =
  (63710087714 / 10000 * cos (lat * (PI / 180)) * cos (lon * (PI / 180)), 63710087714 / 10000 * cos (lat * (PI / 180)) * sin (lon * (PI / 180)), 63710087714 / 10000 * sin (lat * (PI / 180))).
Proof. unfold vii_lonlat2xyz, deg2rad, MEAN_EARTH_RADIUS. cbn [nmul ndiv ncos nsin npi nz RT]. reflexivity. Qed.
Definition vx (vlon vlat : nat -> nat -> R) (i j : nat) := fst (fst (@vii_lonlat2xyz _ RT (vlon i j) (vlat i j))).
Definition vy (vlon vlat : nat -> nat -> R) (i j : nat) := snd (fst (@vii_lonlat2xyz _ RT (vlon i j) (vlat i j))).
Definition vz (vlon vlat : nat -> nat -> R) (i j : nat) := snd (@vii_lonlat2xyz _ RT (vlon i j) (vlat i j)).

(** the cartesian mode by weights *)
Lemma vii_cartesian lon lat vlon vlat s f n_scans thr zt : finite_da lon vlon -> finite_da lat vlat -> args_ok [lon; lat] s f n_scans -> ~ safe_lonlat lon vlon vlat thr ->
  exists olon olat, vii_run lon lat s f (Some thr) zt = Ok (olon, olat) /\ nrows olon = (n_scans * (s - 1) * f)%nat /\ ncols olon = ((ncols lon - 1) * f)%nat /\
    forall i k W, (forall datas data out v, produced nan datas s f n_scans data out -> ncols data = ncols lon -> finite_da data v -> at_ out i k = Some (W v)) ->
      (at_ olon i k, at_ olat i k) = @vii_xyz2lonlat _ RN zt (Some (W (vx vlon vlat)), Some (W (vy vlon vlat)), Some (W (vz vlon vlat))).
Proof.
  intros F1 F2 A U.
  destruct (C39_cartesian_when_unsafe nan lon lat vlon vlat s f n_scans thr zt F1 F2 A U) as (x & y & z & ox & oy & oz & olon & olat & Exyz & X1 & X2 & Y1 & Y2 & Z1 & Z2 & Px & Py & Pz & E & O1 & O2 & O).
  exists olon, olat. split; [exact E|]. destruct (produced_pixels _ _ _ _ _ _ _ Px) as ((_ & N1 & N2 & _) & _). split; [congruence|]. split; [congruence|].
  intros i k W HW. rewrite O.
  assert (Fx : finite_da x (vx vlon vlat)). { intros a b Ha Hb. rewrite X1 in Ha. rewrite X2 in Hb. specialize (Exyz a b Ha Hb). rewrite vii_lonlat2xyz_RN in Exyz. now injection Exyz. }
  assert (Fy : finite_da y (vy vlon vlat)). { intros a b Ha Hb. rewrite Y1 in Ha. rewrite Y2 in Hb. specialize (Exyz a b Ha Hb). rewrite vii_lonlat2xyz_RN in Exyz. now injection Exyz. }
  assert (Fz : finite_da z (vz vlon vlat)). { intros a b Ha Hb. rewrite Z1 in Ha. rewrite Z2 in Hb. specialize (Exyz a b Ha Hb). rewrite vii_lonlat2xyz_RN in Exyz. now injection Exyz. }
  rewrite (HW _ _ _ _ Px X2 Fx), (HW _ _ _ _ Py Y2 Fy), (HW _ _ _ _ Pz Z2 Fz). reflexivity.
Qed.
Definition moved_vii (m : motion) (rows cols : nat) (vlon vlat vlon' vlat' : nat -> nat -> R) : Prop :=
  forall i j, (i < rows)%nat -> (j < cols)%nat -> moved m (vlon i j) (vlat i j) (vlon' i j) (vlat' i j).

(** both runs in the cartesian mode *)
Theorem C121_cartesian_partial : forall m lon lat lon' lat' vlon vlat vlon' vlat' s f n_scans thr zt,
  finite_da lon vlon -> finite_da lat vlat -> finite_da lon' vlon' -> finite_da lat' vlat' ->
  args_ok [lon; lat] s f n_scans -> args_ok [lon'; lat'] s f n_scans -> ncols lon' = ncols lon ->
  moved_vii m (nrows lon) (ncols lon) vlon vlat vlon' vlat' ->
  ~ safe_lonlat lon vlon vlat thr -> ~ safe_lonlat lon' vlon' vlat' thr ->
  exists olon olat olon' olat', vii_run lon lat s f (Some thr) (Some zt) = Ok (olon, olat) /\ vii_run lon' lat' s f (Some thr) (Some zt) = Ok (olon', olat') /\
    forall i k, (i < nrows olon)%nat -> (k < ncols olon)%nat -> moved_pixel m (at_ olon i k, at_ olat i k) (at_ olon' i k, at_ olat' i k).
Proof.
  intros m lon lat lon' lat' vlon vlat vlon' vlat' s f n_scans thr zt F1 F2 F3 F4 A A' C M U U'.
  destruct (vii_cartesian lon lat vlon vlat s f n_scans thr (Some zt) F1 F2 A U) as (olon & olat & E & N1 & N2 & O).
  destruct (vii_cartesian lon' lat' vlon' vlat' s f n_scans thr (Some zt) F3 F4 A' U') as (olon' & olat' & E' & _ & _ & O').
  exists olon, olat, olon', olat'. split; [exact E|]. split; [exact E'|]. intros i k Hi Hk.
  pose proof A as (first & rest & [= <- <-] & Hs2 & Hf & Hn & Hr & Hc & Hd). rewrite N1 in Hi. rewrite N2 in Hk.
  destruct (vii_weights s f n_scans (ncols lon) i k Hs2 Hf Hc Hi Hk) as (W & L & _ & V).
  rewrite (O i k W V), (O' i k W) by (rewrite C; exact V). rewrite !vii_agrees, mean_radius_RN.
  assert (T : forall p q, (p < n_scans * s)%nat -> (q < ncols lon)%nat -> vx vlon' vlat' p q = a11 m * vx vlon vlat p q + a12 m * vy vlon vlat p q /\
    vy vlon' vlat' p q = a21 m * vx vlon vlat p q + a22 m * vy vlon vlat p q /\ vz vlon' vlat' p q = a33 m * vz vlon vlat p q).
  { intros p q Hp Hq. unfold vx, vy, vz. rewrite !vii_place. cbn [fst snd]. apply moved_place. apply M; [rewrite Hr|]; assumption. }
  rewrite (L (vx vlon vlat) (vy vlon vlat) (vx vlon' vlat') (a11 m) (a12 m)) by (intros p q Hp Hq; apply (T p q Hp Hq)).
  rewrite (L (vx vlon vlat) (vy vlon vlat) (vy vlon' vlat') (a21 m) (a22 m)) by (intros p q Hp Hq; apply (T p q Hp Hq)).
  rewrite (L (vz vlon vlat) (vz vlon vlat) (vz vlon' vlat') (a33 m) 0) by (intros p q Hp Hq; rewrite (proj2 (proj2 (T p q Hp Hq))); ring).
  rewrite Rmult_0_l, Rplus_0_r. apply pixel_moved. lra.
Qed.
Print Assumptions C121_cartesian_partial.

(** both runs in longitudes and latitudes *)
Definition lon_sign m : R := match m with EastWest => -1 | _ => 1 end.
Definition lon_shift m : R := match m with Turn d => d | _ => 0 end.
Definition lat_sign m : R := match m with NorthSouth => -1 | _ => 1 end.
Lemma moved_affine m lon lat lon' lat' : moved m lon lat lon' lat' <-> (exists k, lon' = lon_sign m * lon + lon_shift m + 360 * IZR k) /\ lat' = lat_sign m * lat.
Proof.
  destruct m as [d| |]; cbn [moved lon_sign lon_shift lat_sign]; unfold congruent; split; intros [[k K] L]; (split; [exists k; rewrite K; ring|rewrite L; ring]).
Qed.
Theorem C121_geodetic_partial : forall m lon lat lon' lat' vlon vlat vlon' vlat' s f n_scans thr zt,
  finite_da lon vlon -> finite_da lat vlat -> finite_da lon' vlon' -> finite_da lat' vlat' ->
  args_ok [lon; lat] s f n_scans -> args_ok [lon'; lat'] s f n_scans -> ncols lon' = ncols lon ->
  moved_vii m (nrows lon) (ncols lon) vlon vlat vlon' vlat' ->
  safe_lonlat lon vlon vlat thr -> safe_lonlat lon' vlon' vlat' thr ->
  (forall i j k l, (i < nrows lon)%nat -> (j < ncols lon)%nat -> (k < nrows lon)%nat -> (l < ncols lon)%nat -> vlon i j - vlon k l < 180) ->
  exists olon olat olon' olat', vii_run lon lat s f (Some thr) zt = Ok (olon, olat) /\ vii_run lon' lat' s f (Some thr) zt = Ok (olon', olat') /\
    forall i k, (i < nrows olon)%nat -> (k < ncols olon)%nat -> exists x y x' y', at_ olon i k = Some x /\ at_ olat i k = Some y /\ at_ olon' i k = Some x' /\ at_ olat' i k = Some y' /\ moved m x y x' y'.
Proof.
  intros m lon lat lon' lat' vlon vlat vlon' vlat' s f n_scans thr zt F1 F2 F3 F4 A A' C M S S' Lt.
  destruct (C39_geodetic_when_safe nan lon lat vlon vlat s f n_scans thr zt F1 F2 A S) as (olon & olat & E & P1 & P2 & _).
  destruct (C39_geodetic_when_safe nan lon' lat' vlon' vlat' s f n_scans thr zt F3 F4 A' S') as (olon' & olat' & E' & P3 & P4 & _).
  exists olon, olat, olon', olat'. split; [exact E|]. split; [exact E'|]. intros i k Hi Hk.
  destruct (produced_pixels _ _ _ _ _ _ _ P1) as ((_ & N1 & N2 & _) & _). rewrite N1 in Hi. rewrite N2 in Hk.
  assert (Dims : forall lo la : darray (option R), args_ok [lo; la] s f n_scans -> nrows lo = (n_scans * s)%nat /\ (1 <= n_scans)%nat /\ (2 <= s)%nat /\ (1 <= f)%nat /\ (2 <= ncols lo)%nat /\ ncols la = ncols lo).
  { intros lo la X. pose proof X as (first & rest & [= <- <-] & Hs2 & Hf & Hn & Hr & Hc & Hd). rewrite Forall_forall in Hd. destruct (Hd la) as [D _]; [right; now left|]. apply shape_eqb_eq in D as [_ D]. repeat split; auto. }
  destruct (Dims _ _ A) as (Hr & Hn & Hs2 & Hf & Hc & Hc1). destruct (Dims _ _ A') as (Hr' & _ & _ & _ & _ & Hc2).
  destruct (vii_weights s f n_scans (ncols lon) i k Hs2 Hf Hc Hi Hk) as (W & L & K & V).
  exists (W vlon), (W vlat), (W vlon'), (W vlat'). split; [exact (V _ _ _ _ P1 eq_refl F1)|]. split; [exact (V _ _ _ _ P2 Hc1 F2)|]. split; [exact (V _ _ _ _ P3 C F3)|]. split; [apply (V _ _ _ _ P4); [congruence|exact F4]|].
  apply moved_affine.
  assert (R0 : (0 < nrows lon)%nat) by nia.
  assert (C0 : (0 < ncols lon)%nat) by lia.
  destruct (proj1 (proj1 (moved_affine _ _ _ _ _) (M 0%nat 0%nat R0 C0))) as [k0 K0].
  assert (G : forall p q, (p < n_scans * s)%nat -> (q < ncols lon)%nat -> vlon' p q = lon_sign m * vlon p q + 1 * (lon_shift m + 360 * IZR k0)).
  { intros p q Hp Hq. destruct (proj1 (proj1 (moved_affine _ _ _ _ _) (M p q ltac:(lia) Hq))) as [k1 K1].
    enough (k1 = k0) as -> by (rewrite K1; ring).
    pose proof (Lt p q 0%nat 0%nat ltac:(lia) Hq R0 C0) as B1. pose proof (Lt 0%nat 0%nat p q R0 C0 ltac:(lia) Hq) as B2.
    pose proof (proj2 S' p q 0%nat 0%nat ltac:(lia) ltac:(lia) ltac:(lia) ltac:(lia)) as B3. pose proof (proj2 S' 0%nat 0%nat p q ltac:(lia) ltac:(lia) ltac:(lia) ltac:(lia)) as B4.
    rewrite K0, K1 in B3, B4.
    assert (Q : -1 < IZR (k1 - k0) < 1) by (rewrite minus_IZR; destruct m; cbn [lon_sign] in *; lra).
    destruct Q as [Q1 Q2]. apply (lt_IZR (-1)) in Q1. apply (lt_IZR _ 1) in Q2. lia. }
  split.
  - exists k0. rewrite (L vlon (fun _ _ => lon_shift m + 360 * IZR k0) vlon' (lon_sign m) 1) by (intros; now rewrite G). rewrite K. ring.
  - rewrite (L vlat vlat vlat' (lat_sign m) 0) by (intros p q Hp Hq; rewrite (proj2 (proj1 (moved_affine _ _ _ _ _) (M p q ltac:(lia) Hq))); ring). ring.
Qed.
Print Assumptions C121_geodetic_partial.

(** the mode depends on the position of the prime meridian: tie points at the longitudes -10 and 10 and the latitude 60, and the same turned by 180 degrees *)
Theorem C121_refuted : exists m lon lat lon' lat' vlon vlat vlon' vlat' s f n_scans thr zt olon olat olon' olat' i k,
  finite_da lon vlon /\ finite_da lat vlat /\ finite_da lon' vlon' /\ finite_da lat' vlat' /\
  args_ok [lon; lat] s f n_scans /\ args_ok [lon'; lat'] s f n_scans /\ ncols lon' = ncols lon /\
  moved_vii m (nrows lon) (ncols lon) vlon vlat vlon' vlat' /\
  vii_run lon lat s f (Some thr) (Some zt) = Ok (olon, olat) /\ vii_run lon' lat' s f (Some thr) (Some zt) = Ok (olon', olat') /\
  (i < nrows olon)%nat /\ (k < ncols olon)%nat /\ ~ moved_pixel m (at_ olon i k, at_ olat i k) (at_ olon' i k, at_ olat' i k).
Proof.
  set (vl := fun l (i k : nat) => if (k =? 0)%nat then l else - l). set (vp := fun (i k : nat) => 60).
  assert (A : forall l, args_ok [am_lon l; am_lat 60] 2 2 1).
  { intros l. exists (am_lon l), [am_lat 60]. repeat split; cbn; try lia. repeat constructor. }
  assert (F1 : forall l, finite_da (am_lon l) (vl l)) by (intros l i j _ _; reflexivity).
  assert (F2 : finite_da (am_lat 60) vp) by (intros i j _ _; reflexivity).
  assert (Sa : safe_lonlat (am_lon 10) (vl 10) vp 60).
  { split; [intros; unfold vp; rewrite Rabs_pos_eq; lra|]. intros i j k l _ _ _ _. unfold vl. destruct (j =? 0)%nat, (l =? 0)%nat; lra. }
  assert (U : ~ safe_lonlat (am_lon (-170)) (vl (-170)) vp 60).
  { intros [_ B]. specialize (B 0%nat 1%nat 0%nat 0%nat ltac:(cbn; lia) ltac:(cbn; lia) ltac:(cbn; lia) ltac:(cbn; lia)). cbn in B. lra. }
  destruct (C39_geodetic_when_safe nan (am_lon 10) (am_lat 60) (vl 10) vp 2 2 1 60 (Some (8 / 10)) (F1 10) F2 (A 10) Sa) as (olon & olat & E & P1 & P2 & _).
  destruct (vii_cartesian (am_lon (-170)) (am_lat 60) (vl (-170)) vp 2 2 1 60 (Some (8 / 10)) (F1 (-170)) F2 (A (-170)) U) as (olon' & olat' & E' & N1 & N2 & O).
  exists (Turn 180), (am_lon 10), (am_lat 60), (am_lon (-170)), (am_lat 60), (vl 10), vp, (vl (-170)), vp, 2%nat, 2%nat, 1%nat, 60, (8 / 10), olon, olat, olon', olat', 0%nat, 1%nat.
  split; [apply F1|]. split; [exact F2|]. split; [apply F1|]. split; [exact F2|]. split; [apply A|]. split; [apply A|]. split; [reflexivity|]. split.
  { intros i j _ _. cbn [moved]. split; [|reflexivity]. unfold vl. destruct (j =? 0)%nat; [exists (-1)%Z|exists 0%Z]; lra. }
  split; [exact E|]. split; [exact E'|]. destruct (produced_pixels _ _ _ _ _ _ _ P1) as ((_ & M1 & M2 & _) & _). split; [rewrite M1; cbn; lia|]. split; [rewrite M2; cbn; lia|].
  intros [_ H]. cbn [snd] in H.
  set (W := fun v : nat -> nat -> R => (v 0%nat 0%nat + v 0%nat 1%nat) / 2).
  assert (V : forall datas data out v, produced nan datas 2 2 1 data out -> ncols data = 2%nat -> finite_da data v -> at_ out 0%nat 1%nat = Some (W v)).
  { intros datas data out v P C F. pose proof (C37_bilinear nan datas 2 2 1 data out v 0 0 0 0 1 P F ltac:(lia) ltac:(lia) ltac:(lia) ltac:(rewrite C; lia) ltac:(lia)) as B.
    cbv zeta in B. cbn [Nat.mul Nat.add Nat.sub] in B. rewrite B. f_equal. unfold W. cbn [INR]. field. }
  rewrite (V _ _ _ _ P2 eq_refl F2) in H. specialize (O 0%nat 1%nat W V). apply (f_equal snd) in O. cbn [snd] in O. rewrite H in O. clear H V P1 P2 E E' N1 N2 M1 M2 U Sa F1 F2 A.
  rewrite vii_agrees, mean_radius_RN in O. unfold W, vx, vy, vz in O. rewrite !vii_place in O. unfold vp, vl in O. cbn [fst snd Nat.eqb] in O.
  replace (- -170) with 170 in O by ring. replace (-170 * (PI / 180)) with (- (170 * (PI / 180))) in O by ring. rewrite cos_neg, sin_neg in O.
  set (r := 63710087714 / 10000) in O. assert (Hr : 0 < r) by (unfold r; lra). replace (60 * (PI / 180)) with (PI / 3) in O by field. rewrite cos_PI3, sin_PI3 in O.
  set (c := cos (170 * (PI / 180))) in O. set (d := sin (170 * (PI / 180))) in O.
  assert (Cb : -1 < c < 0).
  { pose proof PI_RGT_0. unfold c. split.
    - rewrite <- cos_PI. apply cos_decreasing_1; lra.
    - apply cos_lt_0; lra. }
  clearbody c d r.
  replace ((r * (1 / 2) * c + r * (1 / 2) * c) / 2) with (r * (c / 2)) in O by field. replace ((r * (1 / 2) * - d + r * (1 / 2) * d) / 2) with 0 in O by field.
  replace ((r * (sqrt 3 / 2) + r * (sqrt 3 / 2)) / 2) with (r * (sqrt 3 / 2)) in O by field.
  assert (S3 : 8 / 10 < sqrt 3 / 2). { assert (1.7 < sqrt 3); [|lra]. rewrite <- (sqrt_square 1.7) by lra. apply sqrt_lt_1; lra. }
  unfold xyz2lonlat_at in O. cbn [snd ndiv nmul nadd RN lift2] in O. rewrite !RNdiv_some in O by lra. rewrite np_abs_RN in O. replace (r * (sqrt 3 / 2) / r) with (sqrt 3 / 2) in O by (field; lra).
  rewrite Rabs_pos_eq in O by lra. cbn [nltb RN liftb] in O. unfold Rltb in O. destruct (Rlt_dec (sqrt 3 / 2) (8 / 10)) as [L|_]; [lra|].
  replace (r * (c / 2) * (r * (c / 2)) + 0 * 0) with ((r * (- c / 2)) * (r * (- c / 2))) in O by field. rewrite RNsqrt_some in O by nra. rewrite sqrt_square in O by nra. rewrite RNdiv_some in O by lra.
  replace (r * (- c / 2) / r) with (- c / 2) in O by (field; lra). rewrite np_sign_RN in O. unfold sgn in O. destruct (Rlt_dec 0 (r * (sqrt 3 / 2))) as [_|L]; [|exfalso; apply L; nra].
  cbn [nasin RN] in O. rewrite RNdom_some in O by lra. rewrite rad2deg_RN in O. cbn [nsub nmul nz RN lift2] in O. injection O as O.
  assert (Q : asin (- c / 2) < PI / 6).
  { pose proof PI_RGT_0. rewrite <- (asin_sin (PI / 6)) by lra. rewrite sin_PI6. destruct (Rlt_le_dec (asin (- c / 2)) (asin (1 / 2))) as [L|L]; [exact L|exfalso].
    pose proof (asin_bound (- c / 2)) as B1. pose proof (asin_bound (1 / 2)) as B2. pose proof (sin_incr_1 (asin (1 / 2)) (asin (- c / 2)) ltac:(lra) ltac:(lra) ltac:(lra) ltac:(lra) L) as B3.
    rewrite !sin_asin in B3 by lra. lra. }
  pose proof PI_RGT_0 as PP. assert (asin (- c / 2) * (180 / PI) < 30).
  { apply Rlt_le_trans with (PI / 6 * (180 / PI)); [apply Rmult_lt_compat_r; [apply Rdiv_lt_0_compat; lra|exact Q]|]. right. field. lra. }
  lra.
Qed.
Print Assumptions C121_refuted.
End ViiMotions.

(** ** Cases *)
(** tie points turned over the antimeridian *)
Example C120_case : axes [0; 1] [0; 1] /\ shaped 2 2 [[0; 10]; [0; 10]] /\
  moved_array (Turn 175) 2 2 [[0; 10]; [0; 10]] [[40; 40]; [45; 45]] [[175; -175]; [175; -175]] [[40; 40]; [45; 45]] /\
  moved_array EastWest 2 2 [[0; 10]; [0; 10]] [[40; 40]; [45; 45]] [[0; 350]; [0; -10]] [[40; 40]; [45; 45]].
Proof.
  assert (I : increasing [0; 1]). { intros i j Hij. cbn [length] in Hij. assert (j = 1%nat) as -> by lia. assert (i = 0%nat) as -> by lia. cbn. lra. }
  split; [split; [exact I|split; [exact I|cbn; split; lia]]|]. split; [split; [reflexivity|repeat constructor]|].
  split; intros [|[|r]] [|[|c]] Hr Hc; try lia; (split; [|reflexivity]); cbn [at2 nth].
  all: first [exists 0%Z; cbn; lra|exists (-1)%Z; cbn; lra|exists 1%Z; cbn; lra].
Qed.
(** the exceptional half plane: the position with longitude 180 is given longitude 0, turned by 90 degrees it is given longitude -90 *)
Example C120_half_plane : rlon (-1) 0 = 0 /\ rlon 0 (-1) = -90 /\ ~ congruent (-90) (0 + 90) /\ same_meridian 90 (Some (rlon (-1) 0)) (Some (rlon 0 (-1))).
Proof.
  assert (E1 : rlon (-1) 0 = 0) by (apply rlon_antimeridian; lra).
  assert (E2 : rlon 0 (-1) = -90).
  { unfold rlon. replace (0 / rho 0 (-1)) with 0 by (unfold Rdiv; ring). rewrite acos_0. unfold sgn. destruct (Rlt_dec 0 (-1)); [lra|]. destruct (Rlt_dec (-1) 0); [|lra]. pose proof PI_RGT_0. field. lra. }
  split; [exact E1|]. split; [exact E2|]. split.
  - intros [k K]. assert (Q : IZR (2 * k) = IZR (-1)) by (rewrite mult_IZR; lra). apply eq_IZR in Q. lia.
  - rewrite E1, E2. right. left. split; [reflexivity|]. exists (-1)%Z. lra.
Qed.
