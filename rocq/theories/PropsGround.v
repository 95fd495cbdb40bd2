(** C112, C113: errors of cartesian positions and errors on the ground. *)
From Coq Require Import ZArith List Lia Bool Reals Lra Arith.
From Verif Require Import Spec Base Num Geo GeoProofs Interp InterpProofs Legacy LegacyProofs LegacyInst LegacyTie Chunks ChunksProofs PropsChunks GridLinear PropsGridLinear Cubic PropsCubic.
From Verif Require Import PropsBilinear PropsInterp PropsLegacy PropsSimple PropsLegacyRows PropsFloatAcc SplineGrid PropsSplineGrid PropsAccuracy.
Import ListNotations.
#[local] Existing Instance RT.
Open Scope R_scope.

(** ** Specification *)
Definition distance (p q : R * R * R) : R :=
  let '(x, y, z) := p in let '(x', y', z') := q in sqrt ((x - x') ^ 2 + (y - y') ^ 2 + (z - z') ^ 2).
(** the point of the sphere of radius r at a longitude and a latitude in degrees *)
Definition ground (r lon lat : R) : R * R * R :=
  (r * cos (lat * (PI / 180)) * cos (lon * (PI / 180)), r * cos (lat * (PI / 180)) * sin (lon * (PI / 180)), r * sin (lat * (PI / 180))).
Definition on_sphere (r : R) (p : R * R * R) : Prop := let '(x, y, z) := p in x ^ 2 + y ^ 2 + z ^ 2 = r ^ 2.

(** ** Proof *)
Lemma cauchy3 a b c d e f : (a * d + b * e + c * f) ^ 2 <= (a ^ 2 + b ^ 2 + c ^ 2) * (d ^ 2 + e ^ 2 + f ^ 2).
Proof. pose proof (pow2_ge_0 (a * e - b * d)). pose proof (pow2_ge_0 (a * f - c * d)). pose proof (pow2_ge_0 (b * f - c * e)). nra. Qed.
Lemma norm_triangle a b c d e f :
  sqrt ((a + d) ^ 2 + (b + e) ^ 2 + (c + f) ^ 2) <= sqrt (a ^ 2 + b ^ 2 + c ^ 2) + sqrt (d ^ 2 + e ^ 2 + f ^ 2).
Proof.
  set (u := a ^ 2 + b ^ 2 + c ^ 2). set (v := d ^ 2 + e ^ 2 + f ^ 2).
  assert (U : 0 <= u) by (unfold u; pose proof (pow2_ge_0 a); pose proof (pow2_ge_0 b); pose proof (pow2_ge_0 c); lra).
  assert (V : 0 <= v) by (unfold v; pose proof (pow2_ge_0 d); pose proof (pow2_ge_0 e); pose proof (pow2_ge_0 f); lra).
  pose proof (sqrt_pos u) as Pu. pose proof (sqrt_pos v) as Pv.
  rewrite <- (sqrt_square (sqrt u + sqrt v)) by lra. apply sqrt_le_1_alt.
  replace ((sqrt u + sqrt v) * (sqrt u + sqrt v)) with (sqrt u * sqrt u + sqrt v * sqrt v + 2 * (sqrt u * sqrt v)) by ring. rewrite !sqrt_sqrt by assumption.
  assert (C : a * d + b * e + c * f <= sqrt u * sqrt v).
  { rewrite <- sqrt_mult by assumption. apply Rle_trans with (Rabs (a * d + b * e + c * f)); [apply Rle_abs|].
    rewrite <- sqrt_Rsqr_abs. apply sqrt_le_1_alt. unfold Rsqr. pose proof (cauchy3 a b c d e f) as C. unfold u, v. lra. }
  set (q := sqrt u * sqrt v) in *. clearbody q. unfold u, v. lra.
Qed.
Lemma distance_triangle p q s : distance p s <= distance p q + distance q s.
Proof.
  destruct p as [[a b] c], q as [[d e] f], s as [[g h] i]. unfold distance.
  pose proof (norm_triangle (a - d) (b - e) (c - f) (d - g) (e - h) (f - i)) as T.
  replace (a - d + (d - g)) with (a - g) in T by ring. replace (b - e + (e - h)) with (b - h) in T by ring. replace (c - f + (f - i)) with (c - i) in T by ring. exact T.
Qed.
Lemma distance_pos p q : 0 <= distance p q.
Proof. destruct p as [[a b] c], q as [[d e] f]. apply sqrt_pos. Qed.
Lemma distance_sym p q : distance p q = distance q p.
Proof. destruct p as [[a b] c], q as [[d e] f]. unfold distance. f_equal. ring. Qed.

(** distances from the axis differ by at most the distance *)
Lemma rho_diff x y X Y z Z : Rabs (rho x y - rho X Y) <= distance (x, y, z) (X, Y, Z).
Proof.
  assert (G : forall a b c d, rho a b <= rho c d + sqrt ((a - c) ^ 2 + (b - d) ^ 2 + 0 ^ 2)).
  { intros a b c d. pose proof (norm_triangle c d 0 (a - c) (b - d) 0) as T. replace (c + (a - c)) with a in T by ring. replace (d + (b - d)) with b in T by ring.
    unfold rho. replace (a * a + b * b) with (a ^ 2 + b ^ 2 + (0 + 0) ^ 2) by ring. replace (c * c + d * d) with (c ^ 2 + d ^ 2 + 0 ^ 2) by ring. exact T. }
  assert (B : sqrt ((x - X) ^ 2 + (y - Y) ^ 2 + 0 ^ 2) <= distance (x, y, z) (X, Y, Z)).
  { apply sqrt_le_1_alt. pose proof (pow2_ge_0 (z - Z)). lra. }
  pose proof (G x y X Y) as G1. pose proof (G X Y x y) as G2.
  replace (sqrt ((X - x) ^ 2 + (Y - y) ^ 2 + 0 ^ 2)) with (sqrt ((x - X) ^ 2 + (y - Y) ^ 2 + 0 ^ 2)) in G2 by (f_equal; ring).
  apply Rabs_le. lra.
Qed.
Lemma coordinate_diff x y X Y z Z : Rabs (z - Z) <= distance (x, y, z) (X, Y, Z).
Proof. unfold distance. rewrite <- sqrt_Rsqr_abs. apply sqrt_le_1_alt. unfold Rsqr. pose proof (pow2_ge_0 (x - X)). pose proof (pow2_ge_0 (y - Y)). lra. Qed.

(** two numbers whose squares sum up to r^2 with the squares of nearby numbers *)
Lemma legs r s S t T lo k d : 0 <= s -> 0 <= S -> s ^ 2 + t ^ 2 = r ^ 2 -> S ^ 2 + T ^ 2 = r ^ 2 -> 0 < lo -> lo <= s + S -> Rabs t + Rabs T <= k * lo -> Rabs (t - T) <= d -> Rabs (s - S) <= k * d.
Proof.
  intros Hs HS E1 E2 Hlo HL HT Hd. assert (E : (s - S) * (s + S) = - ((t - T) * (t + T))) by nra.
  assert (Hd0 : 0 <= d) by (eapply Rle_trans; [apply Rabs_pos|exact Hd]).
  assert (B : Rabs (s - S) * (s + S) <= d * (k * lo)).
  { rewrite <- (Rabs_pos_eq (s + S)) by lra. rewrite <- Rabs_mult, E, Rabs_Ropp, Rabs_mult. apply Rmult_le_compat; [apply Rabs_pos|apply Rabs_pos|exact Hd|].
    eapply Rle_trans; [apply Rabs_triang|exact HT]. }
  assert (B2 : Rabs (s - S) * lo <= Rabs (s - S) * (s + S)) by (apply Rmult_le_compat_l; [apply Rabs_pos|exact HL]).
  apply (Rmult_le_reg_r lo); [exact Hlo|]. lra.
Qed.

Lemma cos_asin' a : -1 <= a <= 1 -> cos (asin a) = sqrt (1 - a * a).
Proof. intros H. rewrite cos_asin by exact H. reflexivity. Qed.

(** for any threshold near 0.8 between the two formulas of the latitude *)
Lemma ground_threshold t r x y z P d : 799 / 1000 <= t <= 801 / 1000 -> 0 < r -> on_sphere r P -> distance (x, y, z) P <= d -> d <= r / 100 ->
  y <> 0 \/ 0 < x ->
  exists lon lat, @xyz2lonlat_at _ RN (Some r) (Some t) true (Some x, Some y, Some z) = (Some lon, Some lat) /\
    distance (ground r lon lat) P <= 4 * d.
Proof.
  intros Ht Hr HP Hd Hd100 Hdir. destruct P as [[X Y] Z]. red in HP.
  assert (Hxy : x * x + y * y <> 0) by (destruct Hdir; nra).
  pose proof (rho_pos x y Hxy) as Pr. pose proof (rho_sq x y) as Qr. pose proof (rho_nonneg X Y) as PR. pose proof (rho_sq X Y) as QR.
  destruct (rlon_direction x y Hxy Hdir) as [Lc Ls].
  pose proof (Rle_trans _ _ _ (rho_diff x y X Y z Z) Hd) as Dr. pose proof (Rle_trans _ _ _ (coordinate_diff x y X Y z Z) Hd) as Dz.
  pose proof (Rle_trans _ _ _ (distance_pos (x, y, z) (X, Y, Z)) Hd) as D0.
  assert (AZ : Rabs (z / r) = Rabs z / r) by (unfold Rdiv; rewrite Rabs_mult, (Rabs_pos_eq (/ r)) by (left; now apply Rinv_0_lt_compat); reflexivity).
  assert (Az : Rabs Z <= Rabs z + d /\ Rabs z <= Rabs Z + d).
  { split; unfold Rabs in *; destruct (Rcase_abs z), (Rcase_abs Z), (Rcase_abs (z - Z)); lra. }
  assert (SqZ : Rabs Z ^ 2 = Z ^ 2) by (rewrite <- !Rsqr_pow2; symmetry; apply Rsqr_abs).
  assert (Sqz : Rabs z ^ 2 = z ^ 2) by (rewrite <- !Rsqr_pow2; symmetry; apply Rsqr_abs).
  pose proof (Rabs_pos Z) as PZ. pose proof (Rabs_pos z) as Pz.
  destruct (Rlt_dec (Rabs (z / r)) t) as [L|L].
  - exists (rlon x y), (rlat_z r z). split; [apply exact_low; auto; lra|].
    assert (Lz : Rabs z < 801 / 1000 * r) by (rewrite AZ in L; apply (Rmult_lt_reg_r (/ r)); [now apply Rinv_0_lt_compat|]; replace (801 / 1000 * r * / r) with (801 / 1000) by (field; lra); unfold Rdiv in *; lra).
    assert (Bz : -1 <= z / r <= 1) by (apply Rabs_le_inv; lra).
    assert (El : rlat_z r z * (PI / 180) = asin (z / r)).
    { unfold rlat_z. rewrite Rmult_minus_distr_r, rad_deg. rewrite acos_asin by exact Bz. lra. }
    set (c := r * cos (asin (z / r))).
    assert (Pc : 0 <= c) by (apply Rmult_le_pos; [lra|]; rewrite cos_asin' by exact Bz; apply sqrt_pos).
    assert (Es : r * sin (asin (z / r)) = z) by (rewrite sin_asin by exact Bz; field; lra).
    assert (Ec : c ^ 2 + z ^ 2 = r ^ 2).
    { rewrite <- Es at 1. unfold c. pose proof (sin2_cos2 (asin (z / r))) as SC. unfold Rsqr in SC. replace (r ^ 2) with (r ^ 2 * 1) by ring. rewrite <- SC. ring. }
    assert (EC : rho X Y ^ 2 + Z ^ 2 = r ^ 2) by lra.
    assert (Kc : 598 / 1000 * r <= c) by (apply Rsqr_incr_0_var; [unfold Rsqr; nra|exact Pc]).
    assert (KC : 58 / 100 * r <= rho X Y) by (apply Rsqr_incr_0_var; [unfold Rsqr; nra|exact PR]).
    assert (Dc : Rabs (c - rho X Y) <= 14 / 10 * d).
    { apply (legs r c (rho X Y) z Z (117 / 100 * r)); try assumption; try lra. }
    unfold ground. rewrite El. fold c. rewrite Es.
    eapply Rle_trans; [apply (distance_triangle _ (x, y, z))|].
    assert (B : distance (c * cos (rlon x y * (PI / 180)), c * sin (rlon x y * (PI / 180)), z) (x, y, z) = Rabs (c - rho x y)).
    { set (l := rlon x y * (PI / 180)) in *. set (q := rho x y) in *. clearbody l q. clear - Lc Ls.
      unfold distance. rewrite <- Lc, <- Ls, <- sqrt_Rsqr_abs. f_equal. unfold Rsqr. pose proof (sin2_cos2 l) as SC. unfold Rsqr in SC.
      transitivity ((c - q) ^ 2 * (sin l * sin l + cos l * cos l)); [ring|]. rewrite SC. ring. }
    rewrite B. apply Rabs_le_inv in Dc, Dr. assert (Rabs (c - rho x y) <= 3 * d) by (apply Rabs_le; lra). lra.
  - apply Rnot_lt_le in L.
    assert (Lz : 799 / 1000 * r <= Rabs z) by (rewrite AZ in L; apply (Rmult_le_reg_r (/ r)); [now apply Rinv_0_lt_compat|]; replace (799 / 1000 * r * / r) with (799 / 1000) by (field; lra); unfold Rdiv in *; lra).
    assert (KZ : 789 / 1000 * r <= Rabs Z) by lra.
    assert (KC : rho X Y <= 62 / 100 * r) by (apply Rsqr_incr_0_var; [unfold Rsqr; nra|lra]).
    assert (Kr : rho x y <= 63 / 100 * r) by (apply Rabs_le_inv in Dr; lra).
    exists (rlon x y), (rlat_xy r x y z). split; [apply exact_high; auto; lra|].
    assert (Bq : -1 <= rho x y / r <= 1).
    { split; [apply Rle_trans with 0; [lra|]; apply Rle_mult_inv_pos; lra|]. apply (Rmult_le_reg_r r); [exact Hr|]. replace (rho x y / r * r) with (rho x y) by (field; lra). lra. }
    set (a := asin (rho x y / r)). set (c := r * cos a).
    assert (Sa : r * sin a = rho x y) by (unfold a; rewrite sin_asin by exact Bq; field; lra).
    assert (Pc : 0 <= c) by (apply Rmult_le_pos; [lra|]; unfold a; rewrite cos_asin' by exact Bq; apply sqrt_pos).
    assert (Ec : c ^ 2 + rho x y ^ 2 = r ^ 2).
    { rewrite <- Sa. unfold c. pose proof (sin2_cos2 a) as SC. unfold Rsqr in SC. replace (r ^ 2) with (r ^ 2 * 1) by ring. rewrite <- SC. ring. }
    assert (EC : Rabs Z ^ 2 + rho X Y ^ 2 = r ^ 2) by lra.
    assert (Kc : 77 / 100 * r <= c) by (apply Rsqr_incr_0_var; [unfold Rsqr; nra|exact Pc]).
    assert (Dc : Rabs (c - Rabs Z) <= 1 * d).
    { apply (legs r c (Rabs Z) (rho x y) (rho X Y) (155 / 100 * r)); try assumption; try lra. rewrite !Rabs_pos_eq by lra. lra. }
    assert (El : rlat_xy r x y z * (PI / 180) = sgn z * (PI / 2 - a)).
    { unfold rlat_xy. fold a. rewrite Rmult_assoc, Rmult_minus_distr_r, rad_deg. f_equal. lra. }
    assert (Cs : cos (sgn z * (PI / 2 - a)) = sin a /\ r * sin (sgn z * (PI / 2 - a)) - Z = sgn z * (c - Rabs Z)).
    { unfold sgn. destruct (Rlt_dec 0 z) as [Hz|Hz]; [|destruct (Rlt_dec z 0) as [Hz'|Hz']].
      - rewrite Rmult_1_l, cos_shift, sin_shift. split; [reflexivity|]. fold c. rewrite (Rabs_pos_eq Z); [ring|].
        rewrite (Rabs_pos_eq z) in Lz by lra. apply Rabs_le_inv in Dz. lra.
      - replace (-1 * (PI / 2 - a)) with (- (PI / 2 - a)) by ring. rewrite cos_neg, sin_neg, cos_shift, sin_shift. split; [reflexivity|].
        rewrite (Rabs_left Z); [unfold c; ring|]. rewrite (Rabs_left z) in Lz by lra. apply Rabs_le_inv in Dz. lra.
      - replace z with 0 in Lz by lra. rewrite Rabs_R0 in Lz. lra. }
    destruct Cs as [Cs1 Cs2]. unfold ground. rewrite El, Cs1, Sa, Lc, Ls.
    assert (Sg : Rabs (sgn z * (c - Rabs Z)) <= d).
    { rewrite Rabs_mult. assert (S1 : Rabs (sgn z) <= 1) by (unfold sgn; destruct (Rlt_dec 0 z); [rewrite Rabs_R1; lra|destruct (Rlt_dec z 0); [rewrite Rabs_left by lra; lra|rewrite Rabs_R0; lra]]).
      apply Rle_trans with (1 * d); [|lra]. apply Rmult_le_compat; [apply Rabs_pos|apply Rabs_pos|exact S1|lra]. }
    eapply Rle_trans; [apply (distance_triangle _ (x, y, Z))|].
    assert (B1 : distance (x, y, r * sin (sgn z * (PI / 2 - a))) (x, y, Z) <= d).
    { unfold distance. rewrite Cs2. replace ((x - x) ^ 2 + (y - y) ^ 2 + (sgn z * (c - Rabs Z)) ^ 2) with (Rsqr (sgn z * (c - Rabs Z))) by (unfold Rsqr; ring). rewrite sqrt_Rsqr_abs. exact Sg. }
    assert (B2 : distance (x, y, Z) (X, Y, Z) <= d).
    { eapply Rle_trans; [|exact Hd]. unfold distance. apply sqrt_le_1_alt. pose proof (pow2_ge_0 (z - Z)). replace (Z - Z) with 0 by ring. lra. }
    lra.
Qed.
Theorem C112_ground : forall r x y z P d, 0 < r -> on_sphere r P -> distance (x, y, z) P <= d -> d <= r / 100 ->
  y <> 0 \/ 0 < x ->
  exists lon lat, @xyz2lonlat_at _ RN (Some r) (Some (8 / 10)) true (Some x, Some y, Some z) = (Some lon, Some lat) /\
    distance (ground r lon lat) P <= 4 * d.
Proof. intros r x y z P d. apply ground_threshold. lra. Qed.
Print Assumptions C112_ground.

(** the conditions; three metres beside a point of the sphere *)
Example C112_case : on_sphere 6370997 (6370997, 0, 0) /\ distance (6370997, 3, 0) (6370997, 0, 0) <= 3 /\ 3 <= 6370997 / 100 /\ (3 <> 0 \/ 0 < 6370997).
Proof. unfold on_sphere, distance. split; [ring|]. split; [|lra]. replace ((6370997 - 6370997) ^ 2 + (3 - 0) ^ 2 + (0 - 0) ^ 2) with (3 * 3) by ring. rewrite sqrt_square; lra. Qed.
(** the last condition cannot be dropped: on the 180th meridian the result is on the other side of the earth (C18) *)
Example C112_antimeridian : exists lon lat, @xyz2lonlat_at _ RN (Some 1) (Some (8 / 10)) true (Some (-1), Some 0, Some 0) = (Some lon, Some lat) /\
  on_sphere 1 (-1, 0, 0) /\ distance (ground 1 lon lat) (-1, 0, 0) = 2.
Proof.
  assert (R1 : rho (-1) 0 = 1) by (unfold rho; replace (-1 * -1 + 0 * 0) with (1 * 1) by ring; apply sqrt_square; lra).
  exists (rlon (-1) 0), (rlat_z 1 0). split; [|split; [unfold on_sphere; ring|]].
  - apply exact_low; try lra. replace (0 / 1) with 0 by field. rewrite Rabs_R0. lra.
  - unfold ground, rlon, rlat_z, sgn. rewrite R1. destruct (Rlt_dec 0 0); [lra|]. replace (0 / 1) with 0 by field. rewrite acos_0, half_pi_deg, !Rmult_0_r, Rmult_0_l.
    replace ((90 - 90) * (PI / 180)) with 0 by ring. rewrite cos_0, sin_0. unfold distance. replace ((1 * 1 * 1 - -1) ^ 2 + (1 * 1 * 0 - 0) ^ 2 + (1 * 0 - 0) ^ 2) with (2 * 2) by ring. apply sqrt_square. lra.
Qed.

(** ** C113 *)
Definition earth : R := 6370997.
Lemma ground3 x y z X Y Z e : on_sphere earth (X, Y, Z) -> Rabs (x - X) <= e -> Rabs (y - Y) <= e -> Rabs (z - Z) <= e -> e <= earth / 175 -> e < Rabs Y \/ e < X ->
  exists lon lat, @xyz2lonlat _ RN (Some x, Some y, Some z) = (Some lon, Some lat) /\ distance (ground earth lon lat) (X, Y, Z) <= 7 * e.
Proof.
  intros HP Hx Hy Hz He Hd. assert (E0 : 0 <= e) by (eapply Rle_trans; [apply Rabs_pos|exact Hx]).
  assert (D : distance (x, y, z) (X, Y, Z) <= 7 / 4 * e).
  { unfold distance. rewrite <- (sqrt_square (7 / 4 * e)) by lra. apply sqrt_le_1_alt.
    assert (Q : forall a, Rabs a <= e -> a ^ 2 <= e ^ 2) by (intros a Ha; rewrite <- !Rsqr_pow2; apply Rsqr_le_abs_1; rewrite (Rabs_pos_eq e) by lra; exact Ha).
    pose proof (Q _ Hx). pose proof (Q _ Hy). pose proof (Q _ Hz). pose proof (pow2_ge_0 e). lra. }
  destruct (C112_ground earth x y z (X, Y, Z) (7 / 4 * e)) as (lon & lat & E & B); [unfold earth; lra|exact HP|exact D|unfold earth in *; lra| |].
  - apply Rabs_le_inv in Hx, Hy. destruct Hd as [Hd|Hd]; [left|right; lra]. intros ->. unfold Rabs in Hd. destruct (Rcase_abs Y); lra.
  - exists lon, lat. split; [|lra]. unfold xyz2lonlat, EARTH_RADIUS. cbn [nz RN ndiv]. rewrite RNdiv_some by lra. exact E.
Qed.

Theorem C113_metop : forall other spl2 n lons lats lo la r J (fx fy fz : R -> R) K,
  shaped n 105 lons -> shaped n 105 lats -> metop20kmto1km (spl1_with other) spl2 lons lats = Ok (lo, la) -> (r < n)%nat -> (J < 2048)%nat ->
  bounded_fourth fx 0 2047 K -> bounded_fourth fy 0 2047 K -> bounded_fourth fz 0 2047 K ->
  (forall t, 0 <= t <= 2047 -> on_sphere earth (fx t, fy t, fz t)) ->
  (forall c, (c < 105)%nat -> let t := nth c metop_knots 0 in ground earth (at2 0 lons r c) (at2 0 lats r c) = (fx t, fy t, fz t)) ->
  7500 * K <= earth / 175 -> 7500 * K < Rabs (fy (INR J)) \/ 7500 * K < fx (INR J) ->
  exists lon lat, at2 None lo r J = Some lon /\ at2 None la r J = Some lat /\
    distance (ground earth lon lat) (fx (INR J), fy (INR J), fz (INR J)) <= 52500 * K.
Proof.
  intros other spl2 n lons lats lo la r J fx fy fz K S1 S2 Hrun Hr HJ Bx By Bz Sp Tie HK Dir.
  set (s := fun coordinate => cubic_splev metop_knots (map (fun c => coordinate (at2 0 lons r c) (at2 0 lats r c)) (seq 0 105))).
  assert (Hs : forall coordinate, metop_spline coordinate lons lats r (s coordinate)).
  { intros coordinate. destruct (C99_spline metop_knots (map (fun c => coordinate (at2 0 lons r c) (at2 0 lats r c)) (seq 0 105)) metop_knots_inc ltac:(rewrite metop_knots_length; lia)) as (A & B & _). split; [exact A|exact B]. }
  pose proof (C109_pixel other spl2 n lons lats lo la r J s S1 S2 Hrun Hr HJ Hs) as E.
  assert (T : forall c, (c < 105)%nat -> at_x (at2 0 lons r c) (at2 0 lats r c) = fx (nth c metop_knots 0) /\ at_y (at2 0 lons r c) (at2 0 lats r c) = fy (nth c metop_knots 0) /\ at_z (at2 0 lons r c) (at2 0 lats r c) = fz (nth c metop_knots 0)).
  { intros c Hc. pose proof (Tie c Hc) as G. cbv zeta in G. apply pair_inj in G. destruct G as [G G3]. apply pair_inj in G. destruct G as [G1 G2]. auto. }
  assert (HJ' : 0 <= INR J <= 2047) by (split; [apply pos_INR|]; rewrite INR_IZR_INZ; apply IZR_le; lia).
  destruct (ground3 (s at_x (INR J)) (s at_y (INR J)) (s at_z (INR J)) (fx (INR J)) (fy (INR J)) (fz (INR J)) (7500 * K)) as (lon & lat & E2 & B); auto.
  - apply (C109_accuracy at_x lons lats r (s at_x) fx K J (Hs at_x) Bx); [|exact HJ]. intros c Hc. now apply T.
  - apply (C109_accuracy at_y lons lats r (s at_y) fy K J (Hs at_y) By); [|exact HJ]. intros c Hc. now apply T.
  - apply (C109_accuracy at_z lons lats r (s at_z) fz K J (Hs at_z) Bz); [|exact HJ]. intros c Hc. now apply T.
  - exists lon, lat. rewrite E2 in E. apply pair_inj in E. destruct E as [-> ->]. split; [reflexivity|]. split; [reflexivity|]. lra.
Qed.
Print Assumptions C113_metop.

(** tie points on a surface *)
Definition tie_points_on (ys xs : list R) (lons lats : list (list R)) (Fx Fy Fz : R -> R -> R) : Prop :=
  forall r c, (r < length ys)%nat -> (c < length xs)%nat ->
    let y := nth r ys 0 in let x := nth c xs 0 in ground earth (at2 0 lons r c) (at2 0 lats r c) = (Fx y x, Fy y x, Fz y x).
Definition spherical (ys xs : list R) (Fx Fy Fz : R -> R -> R) : Prop :=
  forall y x, inside ys y -> inside xs x -> on_sphere earth (Fx y x, Fy y x, Fz y x).

Theorem C113_spline : forall other hy hx ys xs lons lats fy fx (Fx Fy Fz : R -> R -> R) Ky Kx e,
  evenly hy ys -> evenly hx xs -> (4 <= length ys)%nat -> (4 <= length xs)%nat ->
  shaped (length ys) (length xs) lons -> shaped (length ys) (length xs) lats -> not_descending fy -> not_descending fx ->
  smooth_field ys xs Fx Ky Kx -> smooth_field ys xs Fy Ky Kx -> smooth_field ys xs Fz Ky Kx ->
  tie_points_on ys xs lons lats Fx Fy Fz -> spherical ys xs Fx Fy Fz ->
  e = 15 / 64 * (Ky * hy ^ 4 + 11 / 2 * (Kx * hx ^ 4)) -> e <= earth / 175 ->
  exists olon olat, geo_spline other default_degrees ys xs lons lats fy fx = Ok (olon, olat) /\
    forall m n, (m < length fy)%nat -> (n < length fx)%nat -> let y := nth m fy 0 in let x := nth n fx 0 in
      inside ys y -> inside xs x -> e < Rabs (Fy y x) \/ e < Fx y x ->
      exists lon lat, at2 None olon m n = Some lon /\ at2 None olat m n = Some lat /\ distance (ground earth lon lat) (Fx y x, Fy y x, Fz y x) <= 7 * e.
Proof.
  intros other hy hx ys xs lons lats fy fx Fx Fy Fz Ky Kx e Ey Ex Ly Lx S1 S2 Ty Tx Sx Sy Sz Tie Sp He He2.
  assert (Ny : enough (deg_y default_degrees) ys) by (split; [exact (evenly_increasing _ _ Ey)|cbn [deg_y default_degrees]; lia]).
  assert (Nx : enough (deg_x default_degrees) xs) by (split; [exact (evenly_increasing _ _ Ex)|cbn [deg_x default_degrees]; lia]).
  assert (D3 : degree 3) by (right; reflexivity).
  destruct (C106_position other default_degrees ys xs lons lats fy fx Ny Nx D3 D3 S1 S2 Ty Tx) as (olon & olat & E & _ & _ & Px).
  exists olon, olat. split; [exact E|]. intros m n Hm Hn y x Hy Hx Dir.
  pose proof (fun f => C106_exists default_degrees ys xs f y x Ny Nx D3 D3) as Ex1.
  assert (Near : forall f F, smooth_field ys xs F Ky Kx -> (forall r c, (r < length ys)%nat -> (c < length xs)%nat -> f r c = F (nth r ys 0) (nth c xs 0)) ->
     exists V, tensor_value default_degrees ys xs f (nearest ys y) (nearest xs x) V /\ Rabs (V - F y x) <= e).
  { intros f F SF Hf. destruct (Ex1 f) as (V & HV & _). exists V. split; [exact HV|]. rewrite He. now apply (C110_position hy hx ys xs f F Ky Kx y x V). }
  assert (T : forall r c, (r < length ys)%nat -> (c < length xs)%nat -> fst (fst (tie_position lons lats r c)) = Fx (nth r ys 0) (nth c xs 0) /\ snd (fst (tie_position lons lats r c)) = Fy (nth r ys 0) (nth c xs 0) /\ snd (tie_position lons lats r c) = Fz (nth r ys 0) (nth c xs 0)).
  { intros r c Hr Hc. pose proof (Tie r c Hr Hc) as G. cbv zeta in G. unfold tie_position. rewrite legacy_place. cbn [fst snd]. apply pair_inj in G. destruct G as [G G3]. apply pair_inj in G. destruct G as [G1 G2]. auto. }
  destruct (Near (fun r c => fst (fst (tie_position lons lats r c))) Fx Sx) as (px & Vx & Bx); [intros r c Hr Hc; now apply T|].
  destruct (Near (fun r c => snd (fst (tie_position lons lats r c))) Fy Sy) as (py & Vy & By); [intros r c Hr Hc; now apply T|].
  destruct (Near (fun r c => snd (tie_position lons lats r c)) Fz Sz) as (pz & Vz & Bz); [intros r c Hr Hc; now apply T|].
  pose proof (Px m n px py pz Hm Hn Vx Vy Vz) as E2.
  destruct (ground3 px py pz (Fx y x) (Fy y x) (Fz y x) e (Sp y x Hy Hx) Bx By Bz He2 Dir) as (lon & lat & E3 & B).
  exists lon, lat. rewrite E3 in E2. apply pair_inj in E2. destruct E2 as [-> ->]. auto.
Qed.
Print Assumptions C113_spline.

Theorem C113_grid : forall i ys xs lons lats fy fx (Fx Fy Fz : R -> R -> R) Ky Kx,
  axes ys xs -> shaped (length ys) (length xs) lons -> shaped (length ys) (length xs) lats ->
  Forall (inside ys) fy -> Forall (inside xs) fx ->
  curved_field ys xs Fx Ky Kx -> curved_field ys xs Fy Ky Kx -> curved_field ys xs Fz Ky Kx ->
  tie_points_on ys xs lons lats Fx Fy Fz -> spherical ys xs Fx Fy Fz ->
  exists olon olat, geo_grid i ys xs lons lats fy fx = Ok (olon, olat) /\
    forall m n r c, (m < length fy)%nat -> (n < length fx)%nat -> (S r < length ys)%nat -> (S c < length xs)%nat ->
      let y := nth m fy 0 in let x := nth n fx 0 in nth r ys 0 <= y <= nth (S r) ys 0 -> nth c xs 0 <= x <= nth (S c) xs 0 ->
      let e := (Ky * gap ys r ^ 2 + Kx * gap xs c ^ 2) / 8 in e <= earth / 175 -> e < Rabs (Fy y x) \/ e < Fx y x ->
      exists lon lat, at2 None olon m n = Some lon /\ at2 None olat m n = Some lat /\ distance (ground earth lon lat) (Fx y x, Fy y x, Fz y x) <= 7 * e.
Proof.
  intros i ys xs lons lats fy fx Fx Fy Fz Ky Kx Ha S1 S2 Iy Ix Sx Sy Sz Tie Sp.
  destruct (C91_position i ys xs lons lats fy fx Ha S1 S2 (or_intror (conj Iy Ix))) as (olon & olat & E & _ & _ & Px). destruct Ha as (Uy & Ux & Ly & Lx).
  exists olon, olat. split; [exact E|]. intros m n r c Hm Hn Hr Hc y x Hy Hx e He Dir.
  rewrite Forall_forall in Iy, Ix. assert (Hy' : inside ys y) by (apply Iy, nth_In, Hm). assert (Hx' : inside xs x) by (apply Ix, nth_In, Hn).
  specialize (Px m n r c Hm Hn). cbv zeta in Px. fold y x in Px. specialize (Px (conj Hr (conj (or_intror (proj1 Hy)) (or_intror (proj2 Hy)))) (conj Hc (conj (or_intror (proj1 Hx)) (or_intror (proj2 Hx))))).
  assert (T : forall r c, (r < length ys)%nat -> (c < length xs)%nat -> fst (fst (PropsGridLinear.tie_xyz lons lats r c)) = Fx (nth r ys 0) (nth c xs 0) /\ snd (fst (PropsGridLinear.tie_xyz lons lats r c)) = Fy (nth r ys 0) (nth c xs 0) /\ snd (PropsGridLinear.tie_xyz lons lats r c) = Fz (nth r ys 0) (nth c xs 0)).
  { intros a b Ha Hb. pose proof (Tie a b Ha Hb) as G. cbv zeta in G. unfold PropsGridLinear.tie_xyz. rewrite legacy_place. cbn [fst snd]. apply pair_inj in G. destruct G as [G G3]. apply pair_inj in G. destruct G as [G1 G2]. auto. }
  set (bx := PropsGridLinear.bilinear ys xs (fun a b => fst (fst (PropsGridLinear.tie_xyz lons lats a b))) r c y x) in Px.
  set (by_ := PropsGridLinear.bilinear ys xs (fun a b => snd (fst (PropsGridLinear.tie_xyz lons lats a b))) r c y x) in Px.
  set (bz := PropsGridLinear.bilinear ys xs (fun a b => snd (PropsGridLinear.tie_xyz lons lats a b)) r c y x) in Px.
  destruct (ground3 bx by_ bz (Fx y x) (Fy y x) (Fz y x) e (Sp y x Hy' Hx')) as (lon & lat & E3 & B); auto.
  - apply C111_position; auto. intros a b Ha Hb. now apply T.
  - apply C111_position; auto. intros a b Ha Hb. now apply T.
  - apply C111_position; auto. intros a b Ha Hb. now apply T.
  - exists lon, lat. rewrite E3 in Px. apply pair_inj in Px. destruct Px as [-> ->]. auto.
Qed.
Print Assumptions C113_grid.

(** a scan along the equator, one kilometre per column: every pixel within a millimetre of its true place *)
Example C113_case : let w := / 6371 in let lons := [map (fun t => w * t * (180 / PI)) metop_knots] in let lats := [repeat 0 105] in
  forall lo la J, metop20kmto1km (spl1_with (fun _ _ _ _ => 0)) (fun _ _ _ _ => 0) lons lats = Ok (lo, la) -> (J < 2048)%nat ->
  exists lon lat, at2 None lo 0 J = Some lon /\ at2 None la 0 J = Some lat /\
    distance (ground earth lon lat) (earth * cos (w * INR J), earth * sin (w * INR J), 0) <= / 1000.
Proof.
  intros w lons lats lo la J Hrun HJ. set (K := earth * w ^ 4).
  assert (Kb : 0 <= K /\ 52500 * K <= / 1000) by (unfold K, w, earth; lra).
  assert (S1 : shaped 1 105 lons) by (split; [reflexivity|]; apply Forall_cons; [|apply Forall_nil]; rewrite map_length; apply metop_knots_length).
  assert (S2 : shaped 1 105 lats) by (split; [reflexivity|]; apply Forall_cons; [|apply Forall_nil]; apply repeat_length).
  assert (HJ' : 0 <= INR J <= 2047) by (split; [apply pos_INR|]; rewrite INR_IZR_INZ; apply IZR_le; lia).
  assert (S : forall c x, derivable_pt_lim (fun t => c * sin (w * t)) x (c * w * cos (w * x))).
  { intros c x. eapply deriv_eq; [apply (derivable_pt_lim_scal (fun t => sin (w * t)) c)|]; [|rewrite Rmult_assoc; reflexivity].
    eapply deriv_eq; [apply (deriv_ext (fun t => sin (0 + w * t))); [intros; f_equal; ring|apply (deriv_affine sin 0 w x), derivable_pt_lim_sin]|]. rewrite Rplus_0_l. ring. }
  assert (C : forall c x, derivable_pt_lim (fun t => c * cos (w * t)) x (- (c * w) * sin (w * x))).
  { intros c x. eapply deriv_eq; [apply (derivable_pt_lim_scal (fun t => cos (w * t)) c)|]; [|instantiate (1 := - w * sin (w * x)); ring].
    eapply deriv_eq; [apply (deriv_ext (fun t => cos (0 + w * t))); [intros; f_equal; ring|apply (deriv_affine cos 0 w x), derivable_pt_lim_cos]|]. rewrite Rplus_0_l. ring. }
  assert (Kle : forall a, Rabs a <= 1 -> Rabs (K * a) <= K).
  { intros a Ha. rewrite Rabs_mult, Rabs_pos_eq by lra. rewrite <- (Rmult_1_r K) at 2. apply Rmult_le_compat_l; lra. }
  assert (PI6 : w * INR J <= 1 / 3) by (apply (Rmult_le_reg_l 6371); [lra|]; replace (6371 * (w * INR J)) with (INR J) by (unfold w; field); lra).
  assert (W0 : 0 <= w * INR J) by (apply Rmult_le_pos; [unfold w; lra|lra]).
  destruct (C113_metop (fun _ _ _ _ => 0) (fun _ _ _ _ => 0) 1 lons lats lo la 0 J (fun t => earth * cos (w * t)) (fun t => earth * sin (w * t)) (fun _ => 0) K S1 S2 Hrun ltac:(lia) HJ) as (lon & lat & E1 & E2 & B).
  - do 4 eexists. intros x _. split; [apply C|]. split; [apply S|]. split; [apply C|]. split; [apply S|]. cbv beta.
    replace (- (- (earth * w) * w * w) * w * cos (w * x)) with (K * cos (w * x)) by (unfold K; ring). apply Kle, Rabs_le, COS_bound.
  - do 4 eexists. intros x _. split; [apply S|]. split; [apply C|]. split; [apply S|]. split; [apply C|]. cbv beta.
    replace (- (- (earth * w * w) * w * w) * sin (w * x)) with (K * sin (w * x)) by (unfold K; ring). apply Kle, Rabs_le, SIN_bound.
  - exists (fun _ => 0), (fun _ => 0), (fun _ => 0), (fun _ => 0). intros t _. repeat split; try apply derivable_pt_lim_const. rewrite Rabs_R0. lra.
  - intros t _. unfold on_sphere. pose proof (sin2_cos2 (w * t)) as SC. unfold Rsqr in SC. replace (earth ^ 2) with (earth ^ 2 * 1) by ring. rewrite <- SC. ring.
  - intros c Hc t. unfold at2, lons, lats. cbn [nth]. rewrite (nth_map' _ _ _ 0) by (now rewrite metop_knots_length). rewrite nth_repeat. fold t.
    unfold ground. rewrite rad_deg, Rmult_0_l, cos_0, sin_0. f_equal; [f_equal|]; ring.
  - unfold earth. lra.
  - right. assert (Q : 1 / 2 <= cos (w * INR J)).
    { rewrite <- cos_PI3. pose proof PI2_1. apply cos_decr_1; lra. }
    assert (earth * (1 / 2) <= earth * cos (w * INR J)) by (apply Rmult_le_compat_l; [unfold earth; lra|exact Q]). unfold earth in *. lra.
  - exists lon, lat. split; [exact E1|]. split; [exact E2|]. lra.
Qed.
