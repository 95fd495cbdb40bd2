(** Proofs about the lon/lat <-> cartesian conversions, over the reals. *)
From Coq Require Import ZArith List Lia Bool Reals Lra.
From Verif Require Import Base Num Geo.
Import ListNotations.
Open Scope R_scope.

(** ** trigonometry *)
Lemma asin_le a b : -1 <= a -> a <= b -> b <= 1 -> asin a <= asin b.
Proof.
  intros H1 H2 H3. destruct (Rle_lt_dec (asin a) (asin b)) as [H|H]; [exact H|exfalso].
  pose proof (asin_bound a). pose proof (asin_bound b).
  assert (G : sin (asin b) < sin (asin a)) by (apply sin_increasing_1; lra).
  rewrite !sin_asin in G by lra. lra.
Qed.
Lemma asin_lt a b : -1 <= a -> a < b -> b <= 1 -> asin a < asin b.
Proof.
  intros H1 H2 H3. destruct (asin_le a b H1 (Rlt_le _ _ H2) H3) as [H|H]; [exact H|exfalso].
  assert (sin (asin a) = sin (asin b)) by now f_equal. rewrite !sin_asin in H0 by lra. lra.
Qed.
Lemma asin_opp' a : -1 <= a <= 1 -> asin (- a) = - asin a.
Proof. intros _. apply asin_opp. Qed.
Lemma asin_0' : asin 0 = 0.
Proof. apply asin_0. Qed.
Lemma asin_pos a : 0 <= a <= 1 -> 0 <= asin a.
Proof. intros H. rewrite <- asin_0'. apply asin_le; lra. Qed.

Lemma deg_rad k : k * (PI / 180) * (180 / PI) = k.
Proof. pose proof PI_RGT_0. field. lra. Qed.
Lemma rad_deg k : k * (180 / PI) * (PI / 180) = k.
Proof. pose proof PI_RGT_0. field. lra. Qed.
Lemma half_pi_deg : PI / 2 * (180 / PI) = 90.
Proof. pose proof PI_RGT_0. field. lra. Qed.
Lemma deg_factor_pos : 0 < 180 / PI.
Proof. pose proof PI_RGT_0. apply Rdiv_lt_0_compat; lra. Qed.

(** sign of a real number *)
Definition sgn (y : R) : R := if Rlt_dec 0 y then 1 else if Rlt_dec y 0 then -1 else 0.

(** distance from the axis *)
Definition rho (x y : R) : R := sqrt (x * x + y * y).

Lemma rho_pos x y : x * x + y * y <> 0 -> 0 < rho x y.
Proof. intros H. apply sqrt_lt_R0. assert (0 <= x * x + y * y) by nra. lra. Qed.
Lemma rho_sq x y : rho x y * rho x y = x * x + y * y.
Proof. apply sqrt_sqrt. nra. Qed.
Lemma rho_nonneg x y : 0 <= rho x y.
Proof. apply sqrt_pos. Qed.

Lemma rho_ratio x y : x * x + y * y <> 0 -> -1 <= x / rho x y <= 1.
Proof.
  intros H. pose proof (rho_pos x y H) as P. pose proof (rho_sq x y) as Q.
  split.
  - apply Rmult_le_reg_r with (rho x y); [exact P|]. replace (x / rho x y * rho x y) with x by (field; lra). nra.
  - apply Rmult_le_reg_r with (rho x y); [exact P|]. replace (x / rho x y * rho x y) with x by (field; lra). nra.
Qed.

(** what the code computes on finite numbers *)
Definition rlon (x y : R) : R := acos (x / rho x y) * (180 / PI) * sgn y.
Definition rlat_z (radius z : R) : R := 90 - acos (z / radius) * (180 / PI).
Definition rlat_xy (radius x y z : R) : R := sgn z * (90 - asin (rho x y / radius) * (180 / PI)).

Lemma np_sign_RN y : @np_sign _ RN (Some y) = Some (sgn y).
Proof.
  unfold np_sign, sgn. cbn [nltb neqb nz RN liftb]. unfold Rltb, Reqb.
  destruct (Rlt_dec 0 y); [reflexivity|]. destruct (Rlt_dec y 0); [reflexivity|].
  destruct (Req_EM_T y 0); [reflexivity|lra].
Qed.
Lemma c_sign_RN y : @c_sign _ RN (Some y) = Some (sgn y).
Proof.
  unfold c_sign, sgn. cbn [nltb nz RN liftb]. unfold Rltb.
  destruct (Rlt_dec 0 y); [reflexivity|]. destruct (Rlt_dec y 0); reflexivity.
Qed.
Lemma np_abs_RN y : @np_abs _ RN (Some y) = Some (Rabs y).
Proof.
  unfold np_abs. cbn [nltb nsub nz RN liftb lift2]. unfold Rltb.
  destruct (Rlt_dec y 0); f_equal; [rewrite Rabs_left by lra; ring|rewrite Rabs_right by lra; reflexivity].
Qed.
Lemma rad2deg_RN a : @rad2deg _ RN (Some a) = Some (a * (180 / PI)).
Proof. unfold rad2deg. cbn [nmul ndiv nz npi RN]. rewrite RNdiv_some by (pose proof PI_RGT_0; lra). reflexivity. Qed.
Lemma deg2rad_RN a : @deg2rad _ RN (Some a) = Some (a * (PI / 180)).
Proof. unfold deg2rad. cbn [nmul ndiv nz npi RN]. rewrite RNdiv_some by lra. reflexivity. Qed.

(** the model over [RN] on finite points of the closed ball, off the axis *)
Lemma xyz2lonlat_RN radius thr low x y z :
  0 < radius -> x * x + y * y <> 0 -> x * x + y * y + z * z <= radius * radius ->
  @xyz2lonlat_at _ RN (Some radius) (Some thr) low (Some x, Some y, Some z) =
  (Some (rlon x y),
   Some (if low && (if Rlt_dec (Rabs (z / radius)) thr then true else false)
         then rlat_z radius z else rlat_xy radius x y z)).
Proof.
  intros HR Hxy Hball. unfold xyz2lonlat_at.
  cbn [nmul nadd nsub ndiv nsqrt nacos nasin nz nltb RN lift2].
  assert (P : 0 < rho x y) by now apply rho_pos.
  rewrite (RNsqrt_some (x * x + y * y)) by nra. fold (rho x y).
  rewrite !RNdiv_some by lra.
  rewrite RNdom_some by now apply rho_ratio.
  rewrite !np_sign_RN, np_abs_RN.
  assert (Hr1 : 0 <= rho x y / radius <= 1).
  { pose proof (rho_sq x y). split.
    - apply Rmult_le_pos; [lra|left; now apply Rinv_0_lt_compat].
    - apply Rmult_le_reg_r with radius; [exact HR|].
      replace (rho x y / radius * radius) with (rho x y) by (field; lra). nra. }
  assert (Hz : -1 <= z / radius <= 1).
  { split; apply Rmult_le_reg_r with radius; try exact HR;
    replace (z / radius * radius) with z by (field; lra); nra. }
  rewrite !RNdom_some by lra. rewrite !rad2deg_RN. cbn [lift2 liftb].
  unfold rlon, rlat_z, rlat_xy, Rltb. f_equal.
  destruct low; cbn [andb]; [|reflexivity]. destruct (Rlt_dec (Rabs (z / radius)) thr); reflexivity.
Qed.

(** ** directions *)
Lemma acos_sin_part x y : x * x + y * y <> 0 -> sin (acos (x / rho x y)) = Rabs y / rho x y.
Proof.
  intros H. pose proof (rho_pos x y H) as P. pose proof (rho_ratio x y H) as B. pose proof (rho_sq x y) as Q.
  rewrite sin_acos by exact B.
  assert (E : 1 - (x / rho x y)² = (Rabs y / rho x y) * (Rabs y / rho x y)).
  { unfold Rsqr. pose proof (Rsqr_abs y) as A. unfold Rsqr in A.
    apply Rmult_eq_reg_r with (rho x y * rho x y); [|nra].
    replace ((1 - x / rho x y * (x / rho x y)) * (rho x y * rho x y)) with (rho x y * rho x y - x * x) by (field; lra).
    replace (Rabs y / rho x y * (Rabs y / rho x y) * (rho x y * rho x y)) with (Rabs y * Rabs y) by (field; lra).
    rewrite <- A, Q. ring. }
  rewrite E. apply sqrt_square. apply Rmult_le_pos; [apply Rabs_pos|left; now apply Rinv_0_lt_compat].
Qed.

Lemma rlon_direction x y : x * x + y * y <> 0 -> y <> 0 \/ 0 < x ->
  rho x y * cos (rlon x y * (PI / 180)) = x /\ rho x y * sin (rlon x y * (PI / 180)) = y.
Proof.
  intros H Hd. pose proof (rho_pos x y H) as P. pose proof (rho_ratio x y H) as B.
  unfold rlon. set (a := acos (x / rho x y)).
  replace (a * (180 / PI) * sgn y * (PI / 180)) with (a * sgn y)
    by (pose proof PI_RGT_0; field; lra).
  assert (Ca : cos a = x / rho x y) by (apply cos_acos; exact B).
  assert (Sa : sin a = Rabs y / rho x y) by (now apply acos_sin_part).
  unfold sgn. destruct (Rlt_dec 0 y) as [Hp|Hp]; [|destruct (Rlt_dec y 0) as [Hn|Hn]].
  - rewrite Rmult_1_r, Ca, Sa, Rabs_right by lra. split; field; lra.
  - replace (a * -1) with (- a) by ring. rewrite cos_neg, sin_neg, Ca, Sa, Rabs_left by lra. split; field; lra.
  - assert (y = 0) by lra. subst y. rewrite Rmult_0_r, cos_0, sin_0.
    destruct Hd as [Hd|Hd]; [lra|]. split; [|ring].
    unfold rho. replace (x * x + 0 * 0) with (x * x) by ring. rewrite sqrt_square by lra. ring.
Qed.

Lemma rlon_bound x y : -180 <= rlon x y <= 180.
Proof.
  unfold rlon. pose proof (acos_bound (x / rho x y)) as [A B]. pose proof deg_factor_pos as D.
  pose proof PI_RGT_0.
  assert (0 <= acos (x / rho x y) * (180 / PI) <= 180).
  { split; [apply Rmult_le_pos; lra|]. replace 180 with (PI * (180 / PI)) at 2 by (field; lra).
    apply Rmult_le_compat_r; lra. }
  unfold sgn. destruct (Rlt_dec 0 y); [lra|]. destruct (Rlt_dec y 0); lra.
Qed.

(** ** round trip *)
Lemma lonlat2xyz_RN radius lon lat :
  @lonlat2xyz_at _ RN (Some radius) (Some lon) (Some lat) =
  let '(x, y, z) := @lonlat2xyz_at _ RT radius lon lat in (Some x, Some y, Some z).
Proof.
  unfold lonlat2xyz_at. rewrite !deg2rad_RN. reflexivity.
Qed.

Lemma cos_lat_pos lat : -90 < lat < 90 -> 0 < cos (lat * (PI / 180)).
Proof.
  intros H. pose proof PI_RGT_0. apply cos_gt_0.
  - replace (- (PI / 2)) with (-90 * (PI / 180)) by field. apply Rmult_lt_compat_r; lra.
  - replace (PI / 2) with (90 * (PI / 180)) by field. apply Rmult_lt_compat_r; lra.
Qed.

Lemma lat_rad_bound lat : -90 < lat < 90 -> - (PI / 2) < lat * (PI / 180) < PI / 2.
Proof.
  intros H. pose proof PI_RGT_0. split.
  - replace (- (PI / 2)) with (-90 * (PI / 180)) by field. apply Rmult_lt_compat_r; lra.
  - replace (PI / 2) with (90 * (PI / 180)) by field. apply Rmult_lt_compat_r; lra.
Qed.
Lemma lon_rad_bound lon : -180 < lon < 180 -> - PI < lon * (PI / 180) < PI.
Proof.
  intros H. pose proof PI_RGT_0. split.
  - replace (- PI) with (-180 * (PI / 180)) by field. apply Rmult_lt_compat_r; lra.
  - replace PI with (180 * (PI / 180)) at 2 by field. apply Rmult_lt_compat_r; lra.
Qed.

Lemma rho_on_sphere radius lam phi : 0 < radius -> 0 < cos phi ->
  rho (radius * cos phi * cos lam) (radius * cos phi * sin lam) = radius * cos phi.
Proof.
  intros HR Hc. unfold rho.
  replace (radius * cos phi * cos lam * (radius * cos phi * cos lam) + radius * cos phi * sin lam * (radius * cos phi * sin lam))
    with ((radius * cos phi) * (radius * cos phi) * (sin lam * sin lam + cos lam * cos lam)) by ring.
  pose proof (sin2_cos2 lam) as S. unfold Rsqr in S. rewrite S, Rmult_1_r.
  apply sqrt_square. nra.
Qed.

Lemma rlon_on_sphere c lam : 0 < c -> - PI < lam < PI ->
  rho (c * cos lam) (c * sin lam) = c ->
  rlon (c * cos lam) (c * sin lam) = lam * (180 / PI).
Proof.
  intros Hc Hl Er. unfold rlon. rewrite Er.
  replace (c * cos lam / c) with (cos lam) by (field; lra).
  destruct (Rtotal_order lam 0) as [Hn|[H0|Hp]].
  - assert (S : sin lam < 0).
    { replace lam with (- - lam) by ring. rewrite sin_neg. assert (0 < sin (- lam)) by (apply sin_gt_0; lra). lra. }
    rewrite <- cos_neg, acos_cos by lra.
    unfold sgn. destruct (Rlt_dec 0 (c * sin lam)); [nra|]. destruct (Rlt_dec (c * sin lam) 0); [ring|nra].
  - subst lam. rewrite sin_0, cos_0, acos_1. ring.
  - assert (S : 0 < sin lam) by (apply sin_gt_0; lra). rewrite acos_cos by lra.
    unfold sgn. destruct (Rlt_dec 0 (c * sin lam)); [ring|nra].
Qed.

Lemma rlat_z_on_sphere radius phi : 0 < radius -> - (PI / 2) <= phi <= PI / 2 ->
  rlat_z radius (radius * sin phi) = phi * (180 / PI).
Proof.
  intros HR Hp. unfold rlat_z. replace (radius * sin phi / radius) with (sin phi) by (field; lra).
  rewrite acos_asin by (pose proof (SIN_bound phi); lra). rewrite asin_sin by lra.
  rewrite Rmult_minus_distr_r, half_pi_deg. ring.
Qed.

Lemma asin_cos phi : - (PI / 2) <= phi <= PI / 2 -> asin (cos phi) = PI / 2 - Rabs phi.
Proof.
  intros H. pose proof PI_RGT_0.
  assert (E : cos phi = cos (Rabs phi)).
  { unfold Rabs. destruct (Rcase_abs phi); [now rewrite cos_neg|reflexivity]. }
  assert (B : 0 <= Rabs phi <= PI / 2).
  { split; [apply Rabs_pos|]. unfold Rabs. destruct (Rcase_abs phi); lra. }
  rewrite E, <- sin_shift. apply asin_sin. lra.
Qed.

Lemma rlat_xy_on_sphere radius lam phi : 0 < radius -> - (PI / 2) < phi < PI / 2 ->
  rlat_xy radius (radius * cos phi * cos lam) (radius * cos phi * sin lam) (radius * sin phi) = phi * (180 / PI).
Proof.
  intros HR Hp. assert (Hc : 0 < cos phi) by (apply cos_gt_0; lra).
  unfold rlat_xy. rewrite rho_on_sphere by assumption.
  replace (radius * cos phi / radius) with (cos phi) by (field; lra).
  rewrite asin_cos by lra. rewrite Rmult_minus_distr_r, half_pi_deg.
  destruct (Rtotal_order phi 0) as [Hn|[H0|Hpos]].
  - assert (S : sin phi < 0).
    { replace phi with (- - phi) by ring. rewrite sin_neg. assert (0 < sin (- phi)) by (apply sin_gt_0; lra). lra. }
    rewrite Rabs_left by lra.
    unfold sgn. destruct (Rlt_dec 0 (radius * sin phi)); [nra|]. destruct (Rlt_dec (radius * sin phi) 0); [ring|nra].
  - subst phi. rewrite Rabs_R0, sin_0. ring.
  - assert (S : 0 < sin phi) by (apply sin_gt_0; lra). rewrite Rabs_right by lra.
    unfold sgn. destruct (Rlt_dec 0 (radius * sin phi)); [ring|nra].
Qed.

Theorem sphere_norm radius lon lat :
  let '(x, y, z) := @lonlat2xyz_at _ RT radius lon lat in x * x + y * y + z * z = radius * radius.
Proof.
  unfold lonlat2xyz_at. cbn [nmul ncos nsin RT]. set (p := @deg2rad _ RT lat). set (l := @deg2rad _ RT lon).
  pose proof (sin2_cos2 p) as S. pose proof (sin2_cos2 l) as T. unfold Rsqr in S, T.
  replace (_ + _) with (radius * radius * (cos p * cos p * (sin l * sin l + cos l * cos l) + sin p * sin p)) by ring.
  rewrite T. replace (cos p * cos p * 1 + sin p * sin p) with (sin p * sin p + cos p * cos p) by ring. rewrite S. ring.
Qed.

Theorem round_trip radius thr low lon lat :
  0 < radius -> -180 < lon < 180 -> -90 < lat < 90 ->
  @xyz2lonlat_at _ RN (Some radius) (Some thr) low
     (@lonlat2xyz_at _ RN (Some radius) (Some lon) (Some lat)) = (Some lon, Some lat).
Proof.
  intros HR Hlon Hlat. rewrite lonlat2xyz_RN.
  pose proof (sphere_norm radius lon lat) as Sn.
  unfold lonlat2xyz_at in *. cbn [nmul ncos nsin RT] in *.
  replace (@deg2rad _ RT lon) with (lon * (PI / 180)) in * by reflexivity.
  replace (@deg2rad _ RT lat) with (lat * (PI / 180)) in * by reflexivity.
  set (lam := lon * (PI / 180)) in *. set (phi := lat * (PI / 180)) in *.
  pose proof (cos_lat_pos lat Hlat) as Hc. fold phi in Hc.
  pose proof (lat_rad_bound lat Hlat) as Hp. fold phi in Hp.
  pose proof (lon_rad_bound lon Hlon) as Hl. fold lam in Hl.
  assert (Er : rho (radius * cos phi * cos lam) (radius * cos phi * sin lam) = radius * cos phi) by now apply rho_on_sphere.
  rewrite xyz2lonlat_RN; [|exact HR| |lra].
  - f_equal; f_equal.
    + rewrite rlon_on_sphere; [|nra|exact Hl|exact Er]. apply deg_rad.
    + destruct (low && _).
      * rewrite rlat_z_on_sphere by lra. apply deg_rad.
      * rewrite rlat_xy_on_sphere by lra. apply deg_rad.
  - rewrite <- rho_sq, Er. assert (0 < radius * cos phi) by (apply Rmult_lt_0_compat; lra). assert (0 < (radius * cos phi) * (radius * cos phi)) by (apply Rmult_lt_0_compat; lra). lra.
Qed.

Lemma cos_period_Z a k : cos (a + IZR k * (2 * PI)) = cos a.
Proof.
  destruct (Z.abs_eq_or_opp k) as [E|E].
  - assert (H : k = Z.of_nat (Z.to_nat k)) by lia. rewrite H, <- INR_IZR_INZ.
    replace (INR (Z.to_nat k) * (2 * PI)) with (2 * INR (Z.to_nat k) * PI) by ring. apply cos_period.
  - assert (H : k = (- Z.of_nat (Z.to_nat (- k)))%Z) by lia. rewrite H, opp_IZR, <- INR_IZR_INZ.
    set (n := Z.to_nat (- k)). rewrite <- (cos_period (a + - INR n * (2 * PI)) n). f_equal. ring.
Qed.
Lemma sin_period_Z a k : sin (a + IZR k * (2 * PI)) = sin a.
Proof.
  destruct (Z.abs_eq_or_opp k) as [E|E].
  - assert (H : k = Z.of_nat (Z.to_nat k)) by lia. rewrite H, <- INR_IZR_INZ.
    replace (INR (Z.to_nat k) * (2 * PI)) with (2 * INR (Z.to_nat k) * PI) by ring. apply sin_period.
  - assert (H : k = (- Z.of_nat (Z.to_nat (- k)))%Z) by lia. rewrite H, opp_IZR, <- INR_IZR_INZ.
    set (n := Z.to_nat (- k)). rewrite <- (sin_period (a + - INR n * (2 * PI)) n). f_equal. ring.
Qed.

Lemma lonlat2xyz_periodic radius lon lat k :
  @lonlat2xyz_at _ RT radius (lon + 360 * IZR k) lat = @lonlat2xyz_at _ RT radius lon lat.
Proof.
  unfold lonlat2xyz_at. cbn [nmul ncos nsin RT].
  replace (@deg2rad _ RT (lon + 360 * IZR k)) with (lon * (PI / 180) + IZR k * (2 * PI)).
  - rewrite cos_period_Z, sin_period_Z. reflexivity.
  - unfold deg2rad. cbn [nmul ndiv nz npi RT]. field.
Qed.

Theorem round_trip_normalise radius thr low lon lat k :
  0 < radius -> -180 < lon < 180 -> -90 < lat < 90 ->
  @xyz2lonlat_at _ RN (Some radius) (Some thr) low
     (@lonlat2xyz_at _ RN (Some radius) (Some (lon + 360 * IZR k)) (Some lat)) = (Some lon, Some lat).
Proof.
  intros HR Hlon Hlat. rewrite lonlat2xyz_RN, lonlat2xyz_periodic, <- lonlat2xyz_RN. now apply round_trip.
Qed.

(** every longitude is congruent to one in [-180, 180) *)
Lemma lon_representative lon : exists lon0 k, lon = lon0 + 360 * IZR k /\ -180 <= lon0 < 180.
Proof.
  exists (lon - 360 * IZR (Rfloor ((lon + 180) / 360))), (Rfloor ((lon + 180) / 360)).
  pose proof (Rfloor_spec ((lon + 180) / 360)) as [A B].
  set (k := IZR (Rfloor ((lon + 180) / 360))) in *. split; [ring|]. clearbody k. lra.
Qed.

(** ** latitude of points of the ball *)
Definition dist0 (x y z : R) : R := sqrt (x * x + y * y + z * z).
(** geocentric latitude in degrees *)
Definition geocentric (x y z : R) : R := asin (z / dist0 x y z) * (180 / PI).

Lemma dist0_facts x y z : x * x + y * y <> 0 ->
  0 < dist0 x y z /\ dist0 x y z * dist0 x y z = x * x + y * y + z * z /\ -1 <= z / dist0 x y z <= 1.
Proof.
  intros H. assert (Q : dist0 x y z * dist0 x y z = x * x + y * y + z * z) by (apply sqrt_sqrt; nra).
  assert (P : 0 < dist0 x y z) by (apply sqrt_lt_R0; assert (0 <= x * x + y * y) by nra; nra).
  split; [exact P|]. split; [exact Q|].
  split; apply Rmult_le_reg_r with (dist0 x y z); try exact P;
    replace (z / dist0 x y z * dist0 x y z) with z by (field; lra); nra.
Qed.

Lemma rlat_z_asin radius z : 0 < radius -> Rabs z <= radius -> rlat_z radius z = asin (z / radius) * (180 / PI).
Proof.
  intros HR Hz. assert (Hz' : - radius <= z <= radius) by (split; unfold Rabs in Hz; destruct (Rcase_abs z); lra).
  assert (B : -1 <= z / radius <= 1).
  { split; apply Rmult_le_reg_r with radius; try exact HR; replace (z / radius * radius) with z by (field; lra); lra. }
  unfold rlat_z. rewrite acos_asin by exact B. rewrite Rmult_minus_distr_r, half_pi_deg. ring.
Qed.

Lemma asin_deg_bound a : -90 <= asin a * (180 / PI) <= 90.
Proof.
  pose proof (asin_bound a) as [A B]. pose proof deg_factor_pos as D. pose proof half_pi_deg as E.
  assert (- (PI / 2) * (180 / PI) <= asin a * (180 / PI)) by (apply Rmult_le_compat_r; lra).
  assert (asin a * (180 / PI) <= PI / 2 * (180 / PI)) by (apply Rmult_le_compat_r; lra).
  replace (- (PI / 2) * (180 / PI)) with (- (PI / 2 * (180 / PI))) in H by ring. lra.
Qed.

(** asin z' and acos rho' for z'^2 + rho'^2 = 1 *)
Lemma asin_complement c s : 0 <= c -> c * c + s * s = 1 -> PI / 2 - asin c = Rabs (asin s).
Proof.
  intros Hc E.
  assert (Bs : -1 <= s <= 1) by nra. assert (Bc : c <= 1) by nra.
  pose proof (asin_bound s) as As.
  assert (cos (asin s) = c).
  { rewrite cos_asin by exact Bs. unfold Rsqr. replace (1 - s * s) with (c * c) by lra. now apply sqrt_square. }
  rewrite <- H at 1. rewrite asin_cos by lra. ring.
Qed.

Lemma Rabs_asin s : -1 <= s <= 1 -> Rabs (asin s) = asin (Rabs s).
Proof.
  intros H. unfold Rabs at 2. destruct (Rcase_abs s).
  - rewrite asin_opp. rewrite Rabs_left; [reflexivity|]. rewrite <- asin_0'. apply asin_lt; lra.
  - rewrite Rabs_right; [reflexivity|]. apply Rle_ge. apply asin_pos. lra.
Qed.

Theorem latitude_below radius x y z :
  0 < radius -> x * x + y * y <> 0 -> x * x + y * y + z * z <= radius * radius ->
  -90 <= rlat_z radius z <= 90 /\
  (0 < z <-> 0 < rlat_z radius z) /\ (z < 0 <-> rlat_z radius z < 0) /\
  Rabs (rlat_z radius z) <= Rabs (geocentric x y z) /\
  (x * x + y * y + z * z = radius * radius -> rlat_z radius z = geocentric x y z).
Proof.
  intros HR Hxy Hb. destruct (dist0_facts x y z Hxy) as (P & Q & B).
  assert (Hz : Rabs z <= radius).
  { unfold Rabs. destruct (Rcase_abs z); nra. }
  assert (Bz : -1 <= z / radius <= 1).
  { assert (- radius <= z <= radius) by (unfold Rabs in Hz; destruct (Rcase_abs z); lra).
    split; apply Rmult_le_reg_r with radius; try exact HR; replace (z / radius * radius) with z by (field; lra); lra. }
  rewrite rlat_z_asin by assumption. pose proof deg_factor_pos as D.
  split; [apply asin_deg_bound|].
  assert (I : 0 < / radius) by now apply Rinv_0_lt_compat.
  split; [|split; [|split]].
  - split; intros H.
    + apply Rmult_lt_0_compat; [|exact D]. rewrite <- asin_0'. apply asin_lt; [lra| |lra]. unfold Rdiv. nra.
    + destruct (Rlt_le_dec 0 z) as [|Hle]; [assumption|exfalso].
      assert (asin (z / radius) <= asin 0) by (apply asin_le; [lra| |lra]; unfold Rdiv; nra).
      rewrite asin_0' in *. nra.
  - split; intros H.
    + assert (asin (z / radius) < asin 0) by (apply asin_lt; [lra| |lra]; unfold Rdiv; nra).
      rewrite asin_0' in *. nra.
    + destruct (Rlt_le_dec z 0) as [|Hle]; [assumption|exfalso].
      assert (asin 0 <= asin (z / radius)) by (apply asin_le; [lra| |lra]; unfold Rdiv; nra).
      rewrite asin_0' in *. nra.
  - unfold geocentric. rewrite !Rabs_mult. apply Rmult_le_compat_r; [apply Rabs_pos|].
    rewrite !Rabs_asin by assumption.
    assert (L : Rabs (z / radius) <= Rabs (z / dist0 x y z)).
    { unfold Rdiv. rewrite !Rabs_mult. apply Rmult_le_compat_l; [apply Rabs_pos|].
      rewrite !Rabs_right by (left; apply Rinv_0_lt_compat; assumption).
      apply Rinv_le_contravar; [exact P|]. nra. }
    apply asin_le; [|exact L|].
    + pose proof (Rabs_pos (z / radius)). lra.
    + unfold Rabs. destruct (Rcase_abs (z / dist0 x y z)); lra.
  - intros E. unfold geocentric. replace (dist0 x y z) with radius; [reflexivity|]. nra.
Qed.

Theorem latitude_above radius x y z :
  0 < radius -> x * x + y * y <> 0 -> x * x + y * y + z * z <= radius * radius ->
  -90 <= rlat_xy radius x y z <= 90 /\
  (0 < z <-> 0 < rlat_xy radius x y z) /\ (z < 0 <-> rlat_xy radius x y z < 0) /\
  Rabs (geocentric x y z) <= Rabs (rlat_xy radius x y z) /\
  (x * x + y * y + z * z = radius * radius -> rlat_xy radius x y z = geocentric x y z).
Proof.
  intros HR Hxy Hb. destruct (dist0_facts x y z Hxy) as (P & Q & B).
  pose proof (rho_pos x y Hxy) as Pr. pose proof (rho_sq x y) as Qr. pose proof deg_factor_pos as D.
  assert (Br : 0 <= rho x y / radius <= 1).
  { split; [apply Rmult_le_pos; [lra|left; now apply Rinv_0_lt_compat]|].
    apply Rmult_le_reg_r with radius; [exact HR|]. replace (rho x y / radius * radius) with (rho x y) by (field; lra). nra. }
  set (a := 90 - asin (rho x y / radius) * (180 / PI)).
  assert (Ha : 0 <= a <= 90).
  { unfold a. pose proof (asin_deg_bound (rho x y / radius)). pose proof (asin_pos _ Br). nra. }
  assert (Hapos : z <> 0 -> 0 < a).
  { intros Hz. unfold a. assert (asin (rho x y / radius) < asin 1).
    { apply asin_lt; [lra| |lra]. apply Rmult_lt_reg_r with radius; [exact HR|].
      replace (rho x y / radius * radius) with (rho x y) by (field; lra). nra. }
    rewrite asin_1 in H. rewrite <- half_pi_deg.
    apply Rlt_Rminus. apply Rmult_lt_compat_r; lra. }
  assert (Ea : rlat_xy radius x y z = sgn z * a) by reflexivity.
  assert (Comp : PI / 2 - asin (rho x y / dist0 x y z) = Rabs (asin (z / dist0 x y z))).
  { apply asin_complement.
    - apply Rmult_le_pos; [lra|left; now apply Rinv_0_lt_compat].
    - apply Rmult_eq_reg_r with (dist0 x y z * dist0 x y z); [|nra].
      replace ((rho x y / dist0 x y z * (rho x y / dist0 x y z) + z / dist0 x y z * (z / dist0 x y z)) * (dist0 x y z * dist0 x y z))
        with (rho x y * rho x y + z * z) by (field; lra). rewrite Qr, Q. ring. }
  rewrite Ea.
  assert (Hge : Rabs (geocentric x y z) <= a).
  { unfold geocentric, a. rewrite Rabs_mult, (Rabs_right (180 / PI)) by lra. rewrite <- Comp, <- half_pi_deg.
    rewrite Rmult_minus_distr_r. apply Rplus_le_compat_l, Ropp_le_contravar, Rmult_le_compat_r; [lra|].
    apply asin_le; [lra| |].
    - unfold Rdiv. apply Rmult_le_compat_l; [lra|]. apply Rinv_le_contravar; [exact P|nra].
    - apply Rmult_le_reg_r with (dist0 x y z); [exact P|].
      replace (rho x y / dist0 x y z * dist0 x y z) with (rho x y) by (field; lra). nra. }
  unfold sgn. destruct (Rlt_dec 0 z) as [Hp|Hp]; [|destruct (Rlt_dec z 0) as [Hn|Hn]].
  - assert (Hz : z <> 0) by lra. specialize (Hapos Hz).
    repeat split; try lra.
    + rewrite Rabs_right with (r := 1 * a) by lra; lra.
    + intros E. rewrite Rmult_1_l. unfold a, geocentric. replace radius with (dist0 x y z) by nra.
      assert (S : 0 <= asin (z / dist0 x y z)).
      { apply asin_pos. split; [|lra]. apply Rmult_le_pos; [lra|left; now apply Rinv_0_lt_compat]. }
      rewrite Rabs_right in Comp by lra. rewrite <- Comp, <- half_pi_deg. ring.
  - assert (Hz : z <> 0) by lra. specialize (Hapos Hz).
    repeat split; try lra.
    + rewrite Rabs_left with (r := -1 * a) by lra; lra.
    + intros E. unfold a, geocentric. replace radius with (dist0 x y z) by nra.
      assert (S : asin (z / dist0 x y z) < 0).
      { rewrite <- asin_0'. apply asin_lt; [lra| |lra]. unfold Rdiv.
        assert (0 < / dist0 x y z) by now apply Rinv_0_lt_compat. nra. }
      rewrite Rabs_left in Comp by lra.
      replace (asin (z / dist0 x y z)) with (- (PI / 2 - asin (rho x y / dist0 x y z))) by (rewrite Comp; ring).
      rewrite <- half_pi_deg. ring.
  - assert (z = 0) by lra. subst z.
    assert (G0 : geocentric x y 0 = 0).
    { unfold geocentric. replace (0 / dist0 x y 0) with 0 by (field; lra). rewrite asin_0'. ring. }
    repeat split; try lra.
    rewrite G0, Rabs_R0. apply Rabs_pos.
Qed.
