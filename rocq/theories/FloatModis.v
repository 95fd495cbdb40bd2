(** Rounding errors of the satellite-angle MODIS interpolation (_modis_interpolator.pyx) on float arrays. *)
From Coq Require Import ZArith Lia Bool Reals Lra.
From Flocq.Core Require Import Core.
From Verif Require Import Base Num Geo GeoProofs Modis ModisAngles PiBound Float FloatGeo FloatAcc FloatTrip PropsFloatTrip FloatNear.
Open Scope R_scope.

(** ** The exact angles *)
Definition z70 : R := 70 * (PI / 180).
Lemma z70_b : 1.2217 < z70 < 1.2218.
Proof. unfold z70. pose proof PI_bounds. lra. Qed.
Lemma z70_89 : z70 <= z89.
Proof. unfold z70, z89. pose proof PI_RGT_0. lra. Qed.
Lemma cos_z70 : 34 / 100 <= cos z70.
Proof.
  pose proof PI_bounds as P. assert (E : cos z70 = sin (PI / 9)).
  { rewrite <- sin_shift. f_equal. unfold z70. field. }
  rewrite E. set (s := sin (PI / 9)).
  assert (S0 : 0 <= s) by (apply sin_ge_0; lra).
  assert (S1 : s <= 1 / 2).
  { unfold s. rewrite <- sin_PI6. apply sin_incr_1; lra. }
  assert (T : sqrt 3 / 2 = 3 * s - 4 * (s * s * s)).
  { rewrite <- sin_PI3. replace (PI / 3) with (PI / 9 + (PI / 9 + PI / 9)) by field.
    rewrite !sin_plus, cos_plus. fold s. pose proof (sin2_cos2 (PI / 9)) as Q. unfold Rsqr in Q. fold s in Q.
    set (k := cos (PI / 9)) in *. replace (k * k) with (1 - s * s) by lra.
    replace (k * (s * k + k * s)) with (2 * s * (k * k)) by ring. replace (k * k) with (1 - s * s) by lra. ring. }
  assert (Q3 : 1732 / 1000 <= sqrt 3).
  { rewrite <- (sqrt_square (1732 / 1000)) by lra. apply sqrt_le_1_alt. lra. }
  destruct (Rle_dec (34 / 100) s) as [L|L]; [exact L|exfalso]. assert (s < 34 / 100) by lra.
  assert (0 <= (34 / 100 - s) * (3 - 4 * ((34 / 100) * (34 / 100) + 34 / 100 * s + s * s))) by (apply Rmult_le_pos; nra).
  nra.
Qed.
Lemma cos_70 z : 0 <= z <= z70 -> 34 / 100 <= cos z.
Proof.
  intros H. pose proof cos_z70. pose proof z70_b. pose proof PI_bounds.
  assert (cos z70 <= cos z) by (apply cos_decr_1; lra). lra.
Qed.
Lemma sin_70 z : 0 <= z <= z70 -> 0 <= sin z <= 9405 / 10000.
Proof.
  intros H. pose proof (cos_70 z H). pose proof z70_b. pose proof PI_bounds. assert (0 <= sin z) by (apply sin_ge_0; lra).
  pose proof (sin2_cos2 z) as Q. unfold Rsqr in Q. split; [assumption|].
  destruct (Rle_dec (sin z) (9405 / 10000)) as [L|L]; [exact L|exfalso]. nra.
Qed.
Lemma kap_b : 8998 / 10000 < kap < 89987 / 100000.
Proof. unfold kap, Re, Alt. lra. Qed.

(** the nadir angle depends on the zenith angle with a factor below [kap] *)
Lemma sin_concave q : 0 <= q <= PI / 2 -> kap * sin q <= sin (kap * q).
Proof.
  intros H. pose proof kap_pos as K. destruct (Req_dec q 0) as [->|N]; [rewrite Rmult_0_r, sin_0; lra|].
  pose (g := fun t => sin (kap * t) - kap * sin t).
  pose (g' := fun t => kap * cos (kap * t) - kap * cos t).
  assert (D : forall c, 0 <= c <= q -> derivable_pt_lim g c (g' c)).
  { intros c _. unfold g, g'. apply derivable_pt_lim_minus.
    - replace (kap * cos (kap * c)) with (cos (kap * c) * kap) by ring.
      apply (derivable_pt_lim_comp (fun t => kap * t) sin).
      + pose proof (derivable_pt_lim_scal id kap c 1 (derivable_pt_lim_id c)) as Q. rewrite Rmult_1_r in Q. exact Q.
      + apply derivable_pt_lim_sin.
    - apply (derivable_pt_lim_scal sin), derivable_pt_lim_sin. }
  destruct (MVT_cor2 g g' 0 q ltac:(lra) D) as (c & E & Hc).
  unfold g in E. rewrite Rmult_0_r, sin_0, Rmult_0_r in E.
  assert (0 <= g' c); [|nra]. unfold g'. assert (cos c <= cos (kap * c)); [|nra].
  apply cos_decr_1; nra.
Qed.
Lemma phi_le z : 0 <= z <= z89 -> phiR z <= z.
Proof.
  intros Hx. pose proof (phiR_range z Hx). pose proof (sin_phiR z Hx). pose proof kap_pos. pose proof z89_lt.
  destruct (Rle_dec (phiR z) z) as [|NN]; [assumption|exfalso].
  assert (0 <= sin z) by (apply sin_ge_0; lra). assert (sin z < sin (phiR z)) by (apply sin_increasing_1; lra). nra.
Qed.
Lemma phi_mono a b : 0 <= a -> a <= b -> b <= z89 -> phiR a <= phiR b.
Proof.
  intros Ha Hab Hb. pose proof z89_lt. pose proof kap_pos. unfold phiR. rewrite !phi_arg. 
  destruct (phi_bounds a ltac:(lra)) as (A1 & A2 & _). destruct (phi_bounds b ltac:(lra)) as (B1 & B2 & _).
  apply asin_le; try lra. assert (sin a <= sin b) by (apply sin_incr_1; lra). nra.
Qed.
Lemma phi_lip1 a b : 0 <= a -> a <= b -> b <= z89 -> phiR b - phiR a <= kap * (b - a).
Proof.
  intros Ha Hab Hb. pose proof z89_lt as Z. pose proof kap_pos as K.
  pose proof (phiR_range a ltac:(lra)) as Pa. pose proof (phiR_range b ltac:(lra)) as Pb.
  pose proof (sin_phiR a ltac:(lra)) as Sa. pose proof (sin_phiR b ltac:(lra)) as Sb.
  pose proof (phi_le a ltac:(lra)) as La. pose proof (phi_le b ltac:(lra)) as Lb.
  pose proof (phi_mono a b Ha Hab Hb) as Mo.
  pose proof (form4 (phiR b) (phiR a)) as F1. pose proof (form4 b a) as F2. rewrite Sa, Sb in F1.
  set (p := (phiR b - phiR a) / 2) in *. set (q := (b - a) / 2) in *.
  set (r := (phiR b + phiR a) / 2) in *. set (n := (b + a) / 2) in *.
  assert (C1 : 0 < cos n) by (apply cos_gt_0; unfold n; lra).
  assert (C2 : cos n <= cos r) by (apply cos_decr_1; unfold r, n; lra).
  assert (S1 : 0 <= sin p) by (apply sin_ge_0; unfold p; lra).
  assert (S2 : 0 <= sin q) by (apply sin_ge_0; unfold q; lra).
  assert (S3 : sin p <= kap * sin q).
  { apply (Rmult_le_reg_r (cos n)); [exact C1|]. assert (sin p * cos n <= sin p * cos r) by (apply Rmult_le_compat_l; lra). nra. }
  pose proof (sin_concave q ltac:(unfold q; lra)) as SC.
  destruct (Rle_dec p (kap * q)) as [L|L]; [unfold p, q in L; lra|exfalso].
  assert (sin (kap * q) < sin p); [|lra]. apply sin_increasing_1; unfold p, q in *; try lra; nra.
Qed.
Lemma phi_lip a b : 0 <= a <= z89 -> 0 <= b <= z89 -> Rabs (phiR a - phiR b) <= kap * Rabs (a - b).
Proof.
  intros Ha Hb. destruct (Rle_dec a b) as [L|L].
  - pose proof (phi_lip1 a b ltac:(lra) L ltac:(lra)). pose proof (phi_mono a b ltac:(lra) L ltac:(lra)).
    rewrite (Rabs_left1 (phiR a - phiR b)), (Rabs_left1 (a - b)) by lra. lra.
  - pose proof (phi_lip1 b a ltac:(lra) ltac:(lra) ltac:(lra)). pose proof (phi_mono b a ltac:(lra) ltac:(lra) ltac:(lra)).
    rewrite (Rabs_pos_eq (phiR a - phiR b)), (Rabs_pos_eq (a - b)) by lra. lra.
Qed.

(** the angle at the centre of the earth *)
Definition thetaR (z : R) : R := z - phiR z.
Lemma theta_step a b : 0 <= a -> a <= b -> b <= z89 -> (1 - kap) * (b - a) <= thetaR b - thetaR a <= b - a.
Proof.
  intros Ha Hab Hb. pose proof (phi_lip1 a b Ha Hab Hb). pose proof (phi_mono a b Ha Hab Hb). unfold thetaR. lra.
Qed.
Lemma phi_70 z : 0 <= z <= z70 -> 0 <= phiR z <= 105 / 100 /\ 0 <= sin (phiR z) <= 847 / 1000.
Proof.
  intros H. pose proof z70_89. pose proof z70_b as B. pose proof PI_bounds as P. pose proof kap_b as K.
  pose proof (sin_phiR z ltac:(lra)) as S. pose proof (sin_70 z H) as S7. pose proof (phiR_range z ltac:(lra)) as R.
  assert (SS : 0 <= sin (phiR z) <= 847 / 1000) by nra.
  split; [|exact SS]. split; [lra|]. destruct (Rle_dec (phiR z) (105 / 100)) as [|N]; [assumption|exfalso].
  assert (M : sin (PI / 3) < sin (phiR z)) by (apply sin_increasing_1; lra). rewrite sin_PI3 in M.
  assert (Q3 : 1732 / 1000 <= sqrt 3).
  { rewrite <- (sqrt_square (1732 / 1000)) by lra. apply sqrt_le_1_alt. lra. }
  lra.
Qed.

(** the middle of the scan lies between the two points *)
Lemma mid1 a b : 0 <= a -> a <= b -> b <= z70 ->
  let phi := (phiR a + phiR b) / 2 in let zeta := zetaR phi in
  a <= zeta <= b /\ sin zeta = sin phi / kap /\ phi = phiR zeta.
Proof.
  intros Ha Hab Hb phi zeta. pose proof z70_89 as Z. pose proof z89_lt as Z9. pose proof kap_pos as K.
  pose proof (phi_mono a b Ha Hab ltac:(lra)) as M.
  pose proof (phiR_range a ltac:(lra)) as Pa. pose proof (phiR_range b ltac:(lra)) as Pb.
  pose proof (sin_phiR a ltac:(lra)) as Sa. pose proof (sin_phiR b ltac:(lra)) as Sb.
  assert (S1 : sin (phiR a) <= sin phi) by (apply sin_incr_1; unfold phi; lra).
  assert (S2 : sin phi <= sin (phiR b)) by (apply sin_incr_1; unfold phi; lra).
  assert (Q : sin a <= sin phi / kap <= sin b).
  { split; apply (Rmult_le_reg_r kap); try lra; unfold Rdiv; rewrite Rmult_assoc, Rinv_l by lra; lra. }
  pose proof (SIN_bound a). pose proof (SIN_bound b).
  assert (E : zeta = asin (sin phi / kap)) by (unfold zeta, zetaR; now rewrite zeta_arg).
  assert (B : a <= zeta <= b).
  { rewrite E, <- (asin_sin a), <- (asin_sin b) by lra. split; apply asin_le; lra. }
  assert (Sz : sin zeta = sin phi / kap) by (rewrite E; apply sin_asin; lra).
  split; [exact B|]. split; [exact Sz|]. unfold phiR at 1. rewrite phi_arg, Sz.
  replace (kap * (sin phi / kap)) with (sin phi) by (field; lra). rewrite asin_sin; [reflexivity|]. unfold phi. lra.
Qed.
Lemma mid a b : 0 <= a <= z70 -> 0 <= b <= z70 ->
  let phi := (phiR a + phiR b) / 2 in let zeta := zetaR phi in
  0 <= zeta <= z70 /\ sin zeta = sin phi / kap /\ phi = phiR zeta /\
  Rabs ((thetaR a + thetaR b) / 2 - thetaR zeta) <= Rabs (thetaR a - thetaR b) / 2.
Proof.
  intros Ha Hb phi zeta. pose proof z70_89 as Z.
  assert (K : forall a b, 0 <= a -> a <= b -> b <= z70 -> forall zeta, a <= zeta <= b ->
    Rabs ((thetaR a + thetaR b) / 2 - thetaR zeta) <= Rabs (thetaR a - thetaR b) / 2).
  { clear -Z. intros a b Ha Hab Hb zeta H. pose proof kap_pos.
    pose proof (theta_step a zeta Ha (proj1 H) ltac:(lra)) as T1. pose proof (theta_step zeta b ltac:(lra) (proj2 H) ltac:(lra)) as T2.
    assert (0 <= (1 - kap) * (zeta - a)) by nra. assert (0 <= (1 - kap) * (b - zeta)) by nra.
    rewrite (Rabs_left1 (thetaR a - thetaR b)) by lra. apply Rabs_le. lra. }
  destruct (Rle_dec a b) as [L|L].
  - destruct (mid1 a b ltac:(lra) L ltac:(lra)) as (M1 & M2 & M3). fold phi in M1, M2, M3. fold zeta in M1, M2, M3.
    split; [lra|]. split; [exact M2|]. split; [exact M3|]. now apply K; try lra.
  - destruct (mid1 b a ltac:(lra) ltac:(lra) ltac:(lra)) as (M1 & M2 & M3).
    replace ((phiR b + phiR a) / 2) with phi in * by (unfold phi; field). fold zeta in M1, M2, M3.
    split; [lra|]. split; [exact M2|]. split; [exact M3|].
    replace (thetaR a + thetaR b) with (thetaR b + thetaR a) by ring. rewrite (Rabs_minus_sym (thetaR a)). now apply K; try lra.
Qed.
Lemma theta_diff a b : 0 <= a <= z70 -> 0 <= b <= z70 -> / 10 * Rabs (a - b) <= Rabs (thetaR a - thetaR b) <= Rabs (a - b).
Proof.
  intros Ha Hb. pose proof z70_89 as Z. pose proof kap_b as K. pose proof z70_b as B.
  assert (Q : forall a b, 0 <= a -> a <= b -> b <= z70 -> / 10 * (b - a) <= thetaR b - thetaR a <= b - a).
  { clear -Z K B. intros a b Ha Hab Hb. pose proof (theta_step a b Ha Hab ltac:(lra)) as T.
    assert (/ 10 * (b - a) <= (1 - kap) * (b - a)) by (apply Rmult_le_compat_r; lra). lra. }
  destruct (Rle_dec a b) as [L|L].
  - pose proof (Q a b ltac:(lra) L ltac:(lra)). rewrite (Rabs_left1 (a - b)), (Rabs_left1 (thetaR a - thetaR b)) by lra. lra.
  - pose proof (Q b a ltac:(lra) ltac:(lra) ltac:(lra)). rewrite (Rabs_pos_eq (a - b)), (Rabs_pos_eq (thetaR a - thetaR b)) by lra. lra.
Qed.
Lemma theta_range a : 0 <= a <= z70 -> / 10 * a <= thetaR a <= a.
Proof.
  intros H. pose proof z70_b. pose proof (theta_diff a 0 H ltac:(lra)) as T. pose proof z70_89.
  pose proof (theta_step 0 a ltac:(lra) ltac:(lra) ltac:(lra)) as S. pose proof kap_pos.
  assert (E : thetaR 0 = 0).
  { unfold thetaR, phiR. rewrite sin_0, Rmult_0_r. unfold Rdiv. rewrite Rmult_0_l, asin_0. ring. }
  rewrite E, !Rminus_0_r in *. assert (0 <= (1 - kap) * a) by nra. rewrite !Rabs_pos_eq in T by lra. exact T.
Qed.

(** the distance to the satellite, in earth radii *)
Lemma dist_b z : 0 <= z <= z70 -> 0 <= cos (phiR z) / kap - cos z <= 26 / 100 /\ 0 <= cos (phiR z) <= 1.
Proof.
  intros H. pose proof z70_89. pose proof z89_lt. pose proof kap_b as K. pose proof (cos_70 z H) as C. pose proof (COS_bound z) as C1.
  pose proof (phi_70 z H) as [P _]. pose proof PI_bounds. pose proof (sin_phiR z ltac:(lra)) as S.
  assert (C0 : 0 <= cos (phiR z) <= 1) by (split; [apply cos_ge_0; lra|apply COS_bound]).
  split; [|exact C0]. set (p := cos (phiR z) / kap). set (k := cos z) in *.
  pose proof (sin2_cos2 z) as Q1. pose proof (sin2_cos2 (phiR z)) as Q2. unfold Rsqr in Q1, Q2. rewrite S in Q2. fold k in Q1.
  assert (P0 : 0 <= p) by (unfold p, Rdiv; apply Rmult_le_pos; [lra|]; apply Rlt_le, Rinv_0_lt_compat; lra).
  assert (E : kap * kap * (p * p) = 1 - kap * kap * (sin z * sin z)).
  { replace (kap * kap * (p * p)) with (cos (phiR z) * cos (phiR z)) by (unfold p; field; lra). lra. }
  assert (D : kap * kap * ((p - k) * (p + k)) = 1 - kap * kap) by (replace (kap * kap * ((p - k) * (p + k))) with (kap * kap * (p * p) - kap * kap * (k * k)) by ring; rewrite E; replace (k * k) with (1 - sin z * sin z) by lra; ring).
  assert (KK : 8096 / 10000 <= kap * kap <= 8098 / 10000) by nra.
  clear - D KK P0 C C1. set (X := (p - k) * (p + k)) in *.
  assert (F : 2347 / 10000 <= X <= 2353 / 10000) by (split; nra).
  assert (Y : p * p = X + k * k) by (unfold X; ring). assert (P1 : 59 / 100 <= p) by nra. unfold X in F. split; nra.
Qed.

(** ** The exact expansion and alignment coefficients of a pair of zenith angles (radians) *)
Definition midphi (za zb : R) : R := (phiR za + phiR zb) / 2.
Definition midzeta (za zb : R) : R := zetaR (midphi za zb).
Definition denR (za zb : R) : R := if Req_EM_T za zb then thetaR za * 2 else thetaR za - thetaR zb.
Definition expR (za zb : R) : R := 4 * (((thetaR za + thetaR zb) / 2 - thetaR (midzeta za zb)) / denR za zb).
Definition shift2 (w : Z) (za zb : R) : R := (cos (midphi za zb) / kap - cos (midzeta za zb)) * (IZR w / 1418).
Definition gapR (w : Z) (za zb : R) : R :=
  cos (midzeta za zb) - sqrt (cos (midzeta za zb) * cos (midzeta za zb) - shift2 w za zb * shift2 w za zb).
Definition aliR (w : Z) (za zb : R) : R := 4 * gapR w za zb * sin (midzeta za zb) / denR za zb.

Lemma denR_deg a b : 0 <= a <= 70 -> 0 <= b <= 70 ->
  neqb (NumOps := RN) (Some (thetaR (a * (PI / 180)))) (Some (thetaR (b * (PI / 180)))) = if Req_EM_T (a * (PI / 180)) (b * (PI / 180)) then true else false.
Proof.
  intros Ha Hb. pose proof PI_RGT_0 as P.
  assert (Ka : 0 <= a * (PI / 180) <= z70) by (unfold z70; split; [apply Rmult_le_pos; lra|apply Rmult_le_compat_r; lra]).
  assert (Kb : 0 <= b * (PI / 180) <= z70) by (unfold z70; split; [apply Rmult_le_pos; lra|apply Rmult_le_compat_r; lra]).
  cbn [neqb RN liftb]. unfold Reqb. pose proof (theta_diff _ _ Ka Kb) as [T _].
  destruct (Req_EM_T (a * (PI / 180)) (b * (PI / 180))) as [E|N].
  - rewrite E. destruct (Req_EM_T _ _); [reflexivity|congruence].
  - destruct (Req_EM_T _ _) as [E|]; [exfalso|reflexivity]. rewrite E in T. unfold Rminus in T at 2. rewrite Rplus_opp_r, Rabs_R0 in T.
    apply N. pose proof (Rabs_pos (a * (PI / 180) - b * (PI / 180))). assert (Z : Rabs (a * (PI / 180) - b * (PI / 180)) = 0) by lra.
    destruct (Req_dec (a * (PI / 180) - b * (PI / 180)) 0) as [|NZ]; [lra|]. apply Rabs_no_R0 in NZ. contradiction.
Qed.
Lemma exp_ali_exact w a b : (w = 1 \/ w = 5)%Z -> 0 <= a <= 70 -> 0 <= b <= 70 -> denR (a * (PI / 180)) (b * (PI / 180)) <> 0 ->
  @exp_ali _ RN w (Some a) (Some b) = (Some (expR (a * (PI / 180)) (b * (PI / 180))), Some (aliR w (a * (PI / 180)) (b * (PI / 180)))).
Proof.
  intros Hw Ha Hb HD. pose proof PI_RGT_0 as P. pose proof z70_89 as Z9.
  assert (Ka : 0 <= a * (PI / 180) <= z89) by (unfold z70, z89 in *; split; [apply Rmult_le_pos; lra|apply Rmult_le_compat_r; lra]).
  assert (Kb : 0 <= b * (PI / 180) <= z89) by (unfold z70, z89 in *; split; [apply Rmult_le_pos; lra|apply Rmult_le_compat_r; lra]).
  pose proof (denR_deg a b Ha Hb) as DE. cbn [neqb RN liftb] in DE. unfold thetaR in DE.
  unfold exp_ali. rewrite !deg2rad_RN. cbn [nst RN]. rewrite !compute_phi_RN by assumption.
  set (ra := a * (PI / 180)) in *. set (rb := b * (PI / 180)) in *.
  unfold compute_theta, fsub, fadd, fmul, fdiv. cbn [nst nsub nadd nmul RN lift2 nz].
  cbn [ndiv RN]. rewrite !(RNdiv_some _ 2) by lra.
  pose proof (sin_mean ra rb Ka Kb) as SM. change ((phiR ra + phiR rb) / 2) with (midphi ra rb) in *.
  destruct (compute_zeta_RN (midphi ra rb) SM) as [-> HZ]. change (zetaR (midphi ra rb)) with (midzeta ra rb) in *. cbn [lift2].
  cbn [neqb RN liftb]. rewrite DE.
  assert (DEN : (if (if Req_EM_T ra rb then true else false) then Some ((ra - phiR ra) * 2) else Some (ra - phiR ra - (rb - phiR rb))) = Some (denR ra rb)).
  { unfold denR, thetaR. destruct (Req_EM_T ra rb); reflexivity. }
  rewrite DEN.
  rewrite RK_RN, HK_RN. cbn [lift2 lift1 ncos nsin nmul nadd nsub RN].
  rewrite (RNdiv_some _ (2 * Alt)) by (unfold Alt; lra). rewrite (RNdiv_some _ Re) by (unfold Re; lra). cbn [lift2].
  cbn [nsqrt RN]. rewrite RNsqrt_some.
  - cbn [lift2]. rewrite !RNdiv_some by exact HD. 
    assert (Eth : midzeta ra rb - midphi ra rb = thetaR (midzeta ra rb)).
    { unfold thetaR. f_equal. apply (mid ra rb); unfold ra, rb; split; unfold z70; try (apply Rmult_le_pos; lra); apply Rmult_le_compat_r; lra. }
    rewrite Eth. f_equal. unfold aliR, gapR, shift2.
    replace ((Re + Alt) / Re * cos (midphi ra rb)) with (cos (midphi ra rb) / kap) by (unfold kap, Re, Alt; field).
    replace (2 * Alt) with 1418 by (unfold Alt; lra). reflexivity.
  - apply alignment_root; [lia| |exact HZ].
    pose proof (phiR_range ra Ka). pose proof (phiR_range rb Kb). unfold midphi. lra.
Qed.

(** the drop of the scan line, as a function of the cosine and the square of the shift *)
Lemma gap_form c D : 0 < c -> D <= c * c -> c - sqrt (c * c - D) = D / (c + sqrt (c * c - D)).
Proof.
  intros Hc HD. pose proof (sqrt_pos (c * c - D)) as S. pose proof (sqrt_sqrt (c * c - D) ltac:(lra)) as Q.
  apply Rmult_eq_reg_r with (c + sqrt (c * c - D)); [|lra]. unfold Rdiv. rewrite Rmult_assoc, Rinv_l by lra.
  set (s := sqrt (c * c - D)) in *. replace ((c - s) * (c + s)) with (c * c - s * s) by ring. rewrite Q. ring.
Qed.
Lemma root_ge c D : 0.339 <= c -> D <= 1e-6 -> 0.338 <= sqrt (c * c - D).
Proof.
  intros Hc HD. rewrite <- (sqrt_square 0.338) by lra. apply sqrt_le_1_alt.
  assert (0.339 * 0.339 <= c * c) by (apply Rmult_le_compat; lra). lra.
Qed.
Lemma gap_lip c c' D D' : 0.339 <= c <= 1.01 -> 0.339 <= c' <= 1.01 -> 0 <= D <= 1e-6 -> -1e-6 <= D' <= 1e-6 ->
  Rabs (c - c') <= 1.5e-6 -> Rabs (D - D') <= 1.3e-11 ->
  Rabs (c - sqrt (c * c - D) - (c' - sqrt (c' * c' - D'))) <= 1e-10 /\ 0 <= c - sqrt (c * c - D) <= 2e-6.
Proof.
  intros Hc Hc' HD HD' Dc DD. pose proof (root_ge c D ltac:(lra) (proj2 HD)) as S1. pose proof (root_ge c' D' ltac:(lra) (proj2 HD')) as S1'.
  assert (CC : 0.339 * 0.339 <= c * c) by (apply Rmult_le_compat; lra).
  assert (CC' : 0.339 * 0.339 <= c' * c') by (apply Rmult_le_compat; lra).
  pose proof (sqrt_sqrt (c * c - D) ltac:(lra)) as Q. pose proof (sqrt_sqrt (c' * c' - D') ltac:(lra)) as Q'.
  rewrite !gap_form by lra. set (s := sqrt (c * c - D)) in *. set (s' := sqrt (c' * c' - D')) in *. clearbody s s'.
  split.
  - assert (Ds : Rabs (s - s') <= 4.6e-6).
    { assert (E : s - s' = ((c - c') * (c + c') - (D - D')) / (s + s')).
      { apply Rmult_eq_reg_r with (s + s'); [|lra]. unfold Rdiv. rewrite Rmult_assoc, Rinv_l by lra.
        replace ((s - s') * (s + s')) with (s * s - s' * s') by ring. rewrite Q, Q'. ring. }
      rewrite E. unfold Rdiv. rewrite Rabs_mult, Rabs_inv, (Rabs_pos_eq (s + s')) by lra.
      apply Rmult_le_reg_r with (s + s'); [lra|]. rewrite Rmult_assoc, Rinv_l, Rmult_1_r by lra.
      apply Rle_trans with (1.5e-6 * 2.02 + 1.3e-11); [|lra]. unfold Rminus at 1. eapply Rle_trans; [apply Rabs_triang|].
      rewrite Rabs_Ropp. apply Rplus_le_compat; [|exact DD]. rewrite Rabs_mult, (Rabs_pos_eq (c + c')) by lra.
      apply Rmult_le_compat; auto using Rabs_pos; lra. }
    set (S := c + s). set (S' := c' + s').
    assert (E : D / S - D' / S' = (D - D') / S + D' * (S' - S) / (S * S')) by (unfold S, S'; field; lra).
    rewrite E. eapply Rle_trans; [apply Rabs_triang|].
    assert (B1 : Rabs ((D - D') / S) <= 2e-11).
    { unfold Rdiv. rewrite Rabs_mult, Rabs_inv, (Rabs_pos_eq S) by (unfold S; lra).
      apply Rmult_le_reg_r with S; [unfold S; lra|]. rewrite Rmult_assoc, Rinv_l, Rmult_1_r by (unfold S; lra). unfold S. lra. }
    assert (B2 : Rabs (D' * (S' - S) / (S * S')) <= 2e-11).
    { assert (SS : 0.677 * 0.677 <= S * S') by (unfold S, S'; apply Rmult_le_compat; lra).
      unfold Rdiv. rewrite Rabs_mult, Rabs_inv, (Rabs_pos_eq (S * S')) by lra.
      apply Rmult_le_reg_r with (S * S'); [lra|]. rewrite Rmult_assoc, Rinv_l, Rmult_1_r by lra.
      rewrite Rabs_mult. assert (Rabs D' <= 1e-6) by (apply Rabs_le; lra).
      assert (DS : Rabs (S' - S) <= 6.2e-6).
      { unfold S, S'. apply Rabs_le_inv in Ds, Dc. apply Rabs_le. lra. }
      apply Rle_trans with (1e-6 * 6.2e-6); [apply Rmult_le_compat; auto using Rabs_pos; lra|lra]. }
    lra.
  - split.
    + apply Rmult_le_reg_r with (c + s); [lra|]. unfold Rdiv. rewrite Rmult_assoc, Rinv_l by lra. lra.
    + apply Rmult_le_reg_r with (c + s); [lra|]. unfold Rdiv. rewrite Rmult_assoc, Rinv_l by lra. lra.
Qed.

Section Coef.
Variable m : libm.
Hypothesis Ha : accurate b64 m.
#[local] Instance FC : NumOps (option R) := F64_32 m.
Notation nf := (near b32).
Notation nd := (near b64).

Lemma near_RK : nd RK Re (/ 1000000000000).
Proof.
  unfold RK. pose proof eps_64 as E. eapply near_weaken; [|apply (near_div b64 b32 pi64 m fine_64 _ _ 6370997 1000 0 0 6371 1000 6371)].
  - lra.
  - apply (near_nz b64 b32 pi64 m fine_64 6370997). lia.
  - apply (near_nz b64 b32 pi64 m fine_64 1000). lia.
  - rewrite Rabs_pos_eq; lra.
  - rewrite Rabs_pos_eq; lra.
  - lra.
  - lra.
  - unfold big; lra.
Qed.
Ltac big_tac := unfold big; lra.
Ltac pos_tac := rewrite Rabs_pos_eq; lra.

Lemma near_RH : nd (nadd RK HK) (Re + Alt) 2e-12.
Proof.
  pose proof eps_64 as E. eapply near_weaken; [|apply (near_add b64 b32 pi64 m fine_64 _ _ Re Alt _ 0 7080 near_RK)].
  - lra.
  - apply (near_nz b64 b32 pi64 m fine_64 709). lia.
  - rewrite Rabs_pos_eq; unfold Re, Alt; lra.
  - big_tac.
Qed.
Lemma near_HR : nd (ndiv (nadd RK HK) RK) (/ kap) 1e-14.
Proof.
  pose proof eps_64 as E. replace (/ kap) with ((Re + Alt) / Re) by (unfold kap, Re, Alt; field).
  eapply near_weaken; [|apply (near_div b64 b32 pi64 m fine_64 _ _ (Re + Alt) Re _ _ 2 6000 3 near_RH near_RK)].
  - lra.
  - rewrite Rabs_pos_eq; unfold Re, Alt; lra.
  - rewrite Rabs_pos_eq; unfold Re; lra.
  - lra.
  - lra.
  - big_tac.
Qed.

(** the zenith angle in radians, stored as a float *)
Lemma near_rad a : 0 <= a <= 70 -> exists v, nst (deg2rad (Some a)) = Some v /\ fl b32 v /\ 0 <= v /\ Rabs (v - a * (PI / 180)) <= 74e-9.
Proof.
  intros H. assert (H18 : Rabs a <= 180) by (rewrite Rabs_pos_eq; lra).
  destruct (ang_eq b64 b32 pi64 pi32 d64 m fine_64 fine_32 factor_64_32 a H18) as [E1 E2].
  change (FW b64 b32 pi64 m) with FC in E1, E2.
  pose proof eps_64 as E. pose proof d64_near as D. rewrite u64 in D. pose proof PI_bounds as P. pose proof z70_b as Z.
  assert (V : Rabs (a * d64 - a * (PI / 180)) <= 1e-15).
  { rewrite <- Rmult_minus_distr_l, Rabs_mult, (Rabs_pos_eq a) by lra.
    eapply Rle_trans; [apply Rmult_le_compat; [lra|apply Rabs_pos|apply (proj2 H)|exact D]|]. lra. }
  assert (B : 0 <= a * (PI / 180) <= z70).
  { unfold z70. split; [apply Rmult_le_pos; lra|apply Rmult_le_compat_r; lra]. }
  assert (N1 : nd (deg2rad (Some a)) (a * (PI / 180)) 2e-15).
  { rewrite E1. assert (F : fit b64 (a * d64) = Some (rd b64 (a * d64))).
    { apply (fit_bound b64 _ 2); [apply good_b64|cbn; lia|lia|]. apply Rabs_le_inv in V. apply Rabs_le. lra. }
    rewrite <- F. eapply near_weaken; [|apply (near_round b64 fine_64 _ _ 1e-15 1.23)].
    - lra.
    - exists (a * d64). split; [reflexivity|exact V].
    - rewrite Rabs_pos_eq; lra.
    - big_tac. }
  pose proof (near_f32 m _ _ 2e-15 1.222 ltac:(eapply near_weaken; [|exact N1]; lra) ltac:(rewrite Rabs_pos_eq; lra) ltac:(unfold usual; lra)) as N2.
  change (FS m) with FC in N2. destruct N2 as (v & Ev & Fv & Bv). exists v. split; [exact Ev|]. split; [exact Fv|]. unfold h in Bv.
  assert (Ev' : v = ang b64 b32 d64 a) by (rewrite E2 in Ev; congruence).
  split; [|lra]. rewrite Ev'. rewrite <- (rd_0 b32), <- (rd_0 b64). unfold ang. apply (rd_le b32 good_b32). apply (rd_le b64 good_b64).
  apply Rmult_le_pos; [lra|unfold d64; lra].
Qed.

(** the nadir angle: the computed value of an exact zenith angle *)
Lemma near_phi0 v : fl b32 v -> 0 <= v <= z70 + 1e-6 -> nf (compute_phi (Some v)) (phiR v) 65e-9.
Proof.
  intros Fv Hv. pose proof eps_64 as E. pose proof z70_b as Z. pose proof PI_bounds as P. pose proof kap_b as K.
  assert (Z9 : z70 + 1e-6 <= z89) by (unfold z70, z89; lra).
  assert (SV : 0 <= sin v <= 9406 / 10000).
  { split; [apply sin_ge_0; lra|]. destruct (Rle_dec v z70) as [L|L].
    - pose proof (sin_70 v ltac:(lra)). lra.
    - pose proof (sin_70 z70 ltac:(lra)) as S. pose proof (sin_lip v z70) as Q. rewrite (Rabs_pos_eq (v - z70)) in Q by lra. apply Rabs_le_inv in Q. lra. }
  pose proof (near_sin b64 b32 pi64 m fine_64 Ha (Some v) v 0 (near_0 _ _ (b32_b64 _ Fv)) ltac:(rewrite Rabs_pos_eq; lra)) as N1.
  pose proof (near_mul b64 b32 pi64 m fine_64 _ _ _ _ _ _ 6371 1 6372 near_RK N1 ltac:(rewrite Rabs_pos_eq; unfold Re; lra) ltac:(rewrite Rabs_pos_eq; lra) ltac:(lra) ltac:(big_tac)) as N2.
  assert (Q0 : Re * sin v / (Re + Alt) = kap * sin v) by apply phi_arg.
  assert (Q1 : 0 <= kap * sin v <= 0.8465).
  { split; [apply Rmult_le_pos; lra|]. eapply Rle_trans; [apply Rmult_le_compat; [lra|lra|apply Rlt_le, (proj2 K)|apply (proj2 SV)]|lra]. }
  assert (N2' : nd (nmul RK (nsin (Some v))) (Re * sin v) 4e-12) by (eapply near_weaken; [|exact N2]; lra).
  pose proof (near_div b64 b32 pi64 m fine_64 _ _ _ _ _ _ 1 7000 2 N2' near_RH ltac:(rewrite Q0, Rabs_pos_eq; lra)
    ltac:(rewrite Rabs_pos_eq; unfold Re, Alt; lra) ltac:(lra) ltac:(lra) ltac:(big_tac)) as N3.
  assert (N3' : nd (ndiv (nmul RK (nsin (Some v))) (nadd RK HK)) (Re * sin v / (Re + Alt)) 2e-15) by (eapply near_weaken; [|exact N3]; lra).
  pose proof (near_asin b64 b32 pi64 m fine_64 Ha _ _ _ 0.5 N3' ltac:(lra)) as N4.
  rewrite Q0 in N4. rewrite Rabs_pos_eq in N4 by lra.
  assert (SQ : (kap * sin v + 2e-15) * (kap * sin v + 2e-15) <= 1 - 0.5 * 0.5).
  { apply Rle_trans with (0.847 * 0.847); [apply Rmult_le_compat; lra|lra]. }
  specialize (N4 SQ). clear SQ.
  assert (PV : phiR v = asin (kap * sin v)) by (unfold phiR; now rewrite Q0).
  assert (B : 0 <= phiR v <= 1.051).
  { pose proof (phiR_range v ltac:(lra)). split; [lra|]. destruct (Rle_dec v z70) as [L|L].
    - destruct (phi_70 v ltac:(lra)). lra.
    - destruct (phi_70 z70 ltac:(lra)). pose proof (phi_lip1 z70 v ltac:(lra) ltac:(lra) ltac:(lra)) as PL.
      assert (kap * (v - z70) <= 1 * 1e-6) by (apply Rmult_le_compat; lra). lra. }
  rewrite <- PV in N4. unfold compute_phi. eapply near_weaken; [|apply (near_f32 m _ _ 1e-14 1.06)].
  - unfold h. lra.
  - eapply near_weaken; [|exact N4]. replace (2 * 0.5) with 1 by lra. lra.
  - rewrite Rabs_pos_eq; lra.
  - unfold usual; lra.
Qed.
Lemma near_phi v z e : fl b32 v -> 0 <= v -> 0 <= z <= z70 -> Rabs (v - z) <= e -> e <= 1e-6 -> nf (compute_phi (Some v)) (phiR z) (0.9 * e + 65e-9).
Proof.
  intros Fv V0 Hz He H1. pose proof z70_b as Z. pose proof PI_bounds as P. pose proof kap_b as K.
  assert (Z9 : z70 + 1e-6 <= z89) by (unfold z70, z89; lra). pose proof (Rabs_le_inv _ _ He) as He'.
  eapply near_move; [|apply near_phi0; [exact Fv|lra]].
  pose proof (phi_lip v z ltac:(lra) ltac:(lra)) as L.
  assert (kap * Rabs (v - z) <= 0.9 * e) by (apply Rmult_le_compat; auto using Rabs_pos; lra). lra.
Qed.
(** the zenith angle of a nadir angle *)
Lemma near_zeta x z : 0 <= z <= z70 -> nf x (phiR z) 260e-9 -> nf (compute_zeta x) z 1.42e-6.
Proof.
  intros Hz Hx. pose proof eps_64 as E. pose proof z70_b as Z. pose proof PI_bounds as P. pose proof kap_b as K. pose proof z70_89 as Z9.
  destruct (phi_70 z Hz) as [Bp Bs]. pose proof (sin_phiR z ltac:(lra)) as SP. pose proof (sin_70 z Hz) as Sz.
  pose proof (near_sin b64 b32 pi64 m fine_64 Ha _ _ _ (near_32_64 _ _ _ Hx) ltac:(rewrite Rabs_pos_eq; lra)) as N1.
  assert (N1' : nd (nsin x) (sin (phiR z)) 260.1e-9) by (eapply near_weaken; [|exact N1]; lra).
  pose proof (near_mul b64 b32 pi64 m fine_64 _ _ _ _ _ _ 7080 1 7081 near_RH N1' ltac:(rewrite Rabs_pos_eq; unfold Re, Alt; lra) ltac:(rewrite Rabs_pos_eq; lra) ltac:(lra) ltac:(big_tac)) as N2.
  assert (N2' : nd (nmul (nadd RK HK) (nsin x)) ((Re + Alt) * sin (phiR z)) 1.842e-3) by (eapply near_weaken; [|exact N2]; lra).
  assert (Q0 : (Re + Alt) * sin (phiR z) / Re = sin z).
  { rewrite zeta_arg, SP. field. lra. }
  pose proof (near_div b64 b32 pi64 m fine_64 _ _ _ _ _ _ 1 6370.9 2 N2' near_RK ltac:(rewrite Q0, Rabs_pos_eq; lra)
    ltac:(rewrite Rabs_pos_eq; unfold Re; lra) ltac:(lra) ltac:(lra) ltac:(big_tac)) as N3.
  rewrite Q0 in N3. 
  assert (N3' : nd (ndiv (nmul (nadd RK HK) (nsin x)) RK) (sin z) 289.2e-9) by (eapply near_weaken; [|exact N3]; lra).
  pose proof (near_asin b64 b32 pi64 m fine_64 Ha _ _ _ 0.339 N3' ltac:(lra)) as N4. rewrite Rabs_pos_eq in N4 by lra.
  assert (SQ : (sin z + 289.2e-9) * (sin z + 289.2e-9) <= 1 - 0.339 * 0.339).
  { apply Rle_trans with (0.940501 * 0.940501); [apply Rmult_le_compat; lra|lra]. }
  specialize (N4 SQ). clear SQ. rewrite asin_sin in N4 by lra.
  unfold compute_zeta. eapply near_weaken; [|apply (near_f32 m _ _ 1.341e-6 1.222)].
  - unfold h. lra.
  - eapply near_weaken; [|exact N4]. assert (P5 : PI / (2 * 0.339) <= 4.634).
    { apply Rmult_le_reg_r with (2 * 0.339); [lra|]. unfold Rdiv. rewrite Rmult_assoc, Rinv_l by lra. lra. }
    lra.
  - rewrite Rabs_pos_eq; lra.
  - unfold usual; lra.
Qed.

Lemma near_gap C d c0 d0 : nd C c0 1.4201e-6 -> nf d d0 6.4e-9 -> 0.34 <= c0 <= 1 -> Rabs d0 <= 9.4e-4 ->
  nf (nst (nsub C (nsqrt (nsub (nmul C C) (fmul d d))))) (c0 - sqrt (c0 * c0 - d0 * d0)) 2e-10 /\
  0 <= c0 - sqrt (c0 * c0 - d0 * d0) <= 2e-6.
Proof.
  intros HC Hd Bc Bd. pose proof eps_64 as E.
  assert (N1 : nf (fmul d d) (d0 * d0) 1.25e-11).
  { eapply near_weaken; [|apply (nf_mul m _ _ _ _ _ _ 9.4e-4 9.4e-4 1e-6 Hd Hd Bd Bd)].
    - unfold h. lra.
    - lra.
    - unfold usual. lra. }
  assert (D0 : 0 <= d0 * d0 <= 8.84e-7).
  { replace (d0 * d0) with (Rabs d0 * Rabs d0) by (rewrite <- Rabs_mult; apply Rabs_pos_eq; nra). pose proof (Rabs_pos d0).
    split; [apply Rmult_le_pos; lra|]. apply Rle_trans with (9.4e-4 * 9.4e-4); [apply Rmult_le_compat; lra|lra]. }
  destruct N1 as (dd & Edd & Fdd & Bdd). destruct HC as (c & -> & Fc & Ec). rewrite Edd.
  pose proof (Rabs_le_inv _ _ Bdd) as Bdd'. pose proof (Rabs_le_inv _ _ Ec) as Ec'.
  destruct (gap_lip c0 c (d0 * d0) dd) as [GL GB]; try lra; try (rewrite Rabs_minus_sym; lra).
  split; [|exact GB].
  pose proof (near_0 b64 c Fc) as Nc. pose proof (near_0 b64 dd (b32_b64 _ Fdd)) as Nd.
  assert (Bcc : 0 <= c * c <= 1.001).
  { split; [nra|]. apply Rle_trans with (1.0001 * 1.0001); [apply Rmult_le_compat; lra|lra]. }
  assert (Bcl : 0.339 * 0.339 <= c * c) by (apply Rmult_le_compat; lra).
  assert (N2 : nd (nmul (Some c) (Some c)) (c * c) 1.3e-16).
  { eapply near_weaken; [|apply (near_mul b64 b32 pi64 m fine_64 _ _ _ _ _ _ 1.0001 1.0001 1.001 Nc Nc)].
    - lra.
    - rewrite Rabs_pos_eq; lra.
    - rewrite Rabs_pos_eq; lra.
    - lra.
    - big_tac. }
  assert (N3 : nd (nsub (nmul (Some c) (Some c)) (Some dd)) (c * c - dd) 2.6e-16).
  { eapply near_weaken; [|apply (near_sub b64 b32 pi64 m fine_64 _ _ _ _ _ _ 1.01 N2 Nd)].
    - lra.
    - rewrite Rabs_pos_eq; lra.
    - big_tac. }
  pose proof (root_ge c dd ltac:(lra) ltac:(lra)) as S1.
  assert (S2 : sqrt (c * c - dd) <= 1.01).
  { rewrite <- (sqrt_square 1.01) by lra. apply sqrt_le_1_alt. lra. }
  assert (N4 : nd (nsqrt (nsub (nmul (Some c) (Some c)) (Some dd))) (sqrt (c * c - dd)) 1e-15).
  { eapply near_weaken; [|apply (near_sqrt b64 b32 pi64 m fine_64 _ _ _ 0.338 1.02 N3)].
    - lra.
    - lra.
    - lra.
    - lra.
    - lra.
    - big_tac. }
  assert (N5 : nd (nsub (Some c) (nsqrt (nsub (nmul (Some c) (Some c)) (Some dd)))) (c - sqrt (c * c - dd)) 2e-15).
  { eapply near_weaken; [|apply (near_sub b64 b32 pi64 m fine_64 _ _ _ _ _ _ 1 Nc N4)].
    - lra.
    - apply Rabs_le_inv in GL. assert (Rabs (c - sqrt (c * c - dd)) <= 0.1) by (apply Rabs_le; lra). lra.
    - big_tac. }
  eapply near_weaken; [|apply (near_f32 m _ _ 1.001e-10 3e-6)].
  - unfold h. lra.
  - eapply near_move; [|exact N5]. rewrite Rabs_minus_sym. lra.
  - rewrite Rabs_pos_eq by lra. lra.
  - unfold usual. lra.
Qed.

Section Pair.
Variables (w : Z) (a b : R).
Hypothesis Hw : (w = 1 \/ w = 5)%Z.
Hypothesis Ba : 0 <= a <= 70.
Hypothesis Bb : 0 <= b <= 70.
Let za := a * (PI / 180).
Let zb := b * (PI / 180).
Hypothesis HD : 1e-5 <= Rabs (denR za zb).
Let ra := nst (deg2rad (Some a)).
Let rb := nst (deg2rad (Some b)).
Let pa := compute_phi ra.
Let pb := compute_phi rb.
Let ta := compute_theta ra pa.
Let tb := compute_theta rb pb.
Let ph := fdiv (fadd pa pb) (nz 2).
Let ze := compute_zeta ph.
Let th := compute_theta ze ph.
Let den := if neqb ta tb then fmul ta (nz 2) else fsub ta tb.

Lemma rad_70 x : 0 <= x <= 70 -> 0 <= x * (PI / 180) <= z70.
Proof. intros H. pose proof PI_bounds. unfold z70. split; [apply Rmult_le_pos; lra|apply Rmult_le_compat_r; lra]. Qed.
Lemma near_pt x : 0 <= x <= 70 -> let z := x * (PI / 180) in let r := nst (deg2rad (Some x)) in let p := compute_phi r in
  nf r z 74e-9 /\ nf p (phiR z) 132e-9 /\ nf (compute_theta r p) (thetaR z) 280e-9.
Proof.
  intros H z r p. pose proof (rad_70 x H) as Hz. fold z in Hz. pose proof z70_b as Z.
  destruct (near_rad x H) as (v & Ev & Fv & V0 & Bv). fold r in Ev. fold z in Bv.
  assert (N1 : nf r z 74e-9) by (exists v; auto).
  assert (N2 : nf p (phiR z) 132e-9).
  { unfold p. rewrite Ev. eapply near_weaken; [|apply (near_phi v z 74e-9); auto; lra]. lra. }
  split; [exact N1|]. split; [exact N2|]. unfold compute_theta, thetaR. pose proof (theta_range z Hz) as T.
  eapply near_weaken; [|apply (nf_sub m _ _ _ _ _ _ 1.23 N1 N2)].
  - unfold h. lra.
  - fold (thetaR z). rewrite Rabs_pos_eq; lra.
  - unfold usual; lra.
Qed.
Lemma near_ph : nf ph (midphi za zb) 260e-9.
Proof.
  destruct (near_pt a Ba) as (_ & Pa & _). destruct (near_pt b Bb) as (_ & Pb & _).
  change (nf pa (phiR za) 132e-9) in Pa. change (nf pb (phiR zb) 132e-9) in Pb.
  destruct (phi_70 za (rad_70 a Ba)) as [A _]. destruct (phi_70 zb (rad_70 b Bb)) as [B _].
  pose proof (nf_add m _ _ _ _ _ _ 2.101 Pa Pb ltac:(rewrite Rabs_pos_eq; lra) ltac:(unfold usual; lra)) as N1.
  unfold h in N1. unfold ph, midphi.
  eapply near_weaken; [|apply (nf_div m _ _ _ _ _ _ 1.05 2 1.06 N1 (nf_nz m 2 ltac:(lia)))].
  - unfold h. lra.
  - rewrite Rabs_pos_eq; lra.
  - rewrite Rabs_pos_eq; lra.
  - lra.
  - lra.
  - unfold usual; lra.
Qed.
Lemma mid_at : let z := midzeta za zb in 0 <= z <= z70 /\ midphi za zb = phiR z /\
  Rabs ((thetaR za + thetaR zb) / 2 - thetaR z) <= Rabs (thetaR za - thetaR zb) / 2.
Proof.
  destruct (mid za zb (rad_70 a Ba) (rad_70 b Bb)) as (M1 & M2 & M3 & M4). auto.
Qed.
Lemma near_ze : nf ze (midzeta za zb) 1.42e-6.
Proof.
  destruct mid_at as (M1 & M2 & _). apply near_zeta; [exact M1|]. rewrite <- M2. apply near_ph.
Qed.
Lemma near_th : nf th (thetaR (midzeta za zb)) 1.76e-6.
Proof.
  destruct mid_at as (M1 & M2 & _). pose proof (theta_range _ M1) as T. pose proof z70_b as Z.
  unfold th, compute_theta, thetaR. rewrite <- M2.
  eapply near_weaken; [|apply (nf_sub m _ _ _ _ _ _ 1.23 near_ze near_ph)].
  - unfold h. lra.
  - rewrite M2. fold (thetaR (midzeta za zb)). rewrite Rabs_pos_eq; lra.
  - unfold usual; lra.
Qed.
Lemma near_ta : nf ta (thetaR za) 280e-9.
Proof. apply (near_pt a Ba). Qed.
Lemma near_tb : nf tb (thetaR zb) 280e-9.
Proof. apply (near_pt b Bb). Qed.
Lemma near_den : nf den (denR za zb) 710e-9.
Proof.
  pose proof (theta_range za (rad_70 a Ba)) as Ta. pose proof (theta_range zb (rad_70 b Bb)) as Tb. pose proof z70_b as Z.
  pose proof (rad_70 a Ba : 0 <= za <= z70) as Ra. pose proof (rad_70 b Bb : 0 <= zb <= z70) as Rb.
  pose proof near_ta as Na. pose proof near_tb as Nb. revert HD. unfold den, denR. destruct (Req_EM_T za zb) as [Ez|Nz]; intros HD'.
  - assert (Eab : a = b). { pose proof PI_RGT_0. apply (Rmult_eq_reg_r (PI / 180)); [exact Ez|lra]. }
    assert (Et : neqb ta tb = true).
    { unfold ta, tb, pa, pb, ra, rb. rewrite <- Eab. fold ra. fold pa. fold ta. destruct Na as (v & -> & _ & _).
      cbn. unfold Reqb. destruct (Req_EM_T v v); [reflexivity|congruence]. }
    rewrite Et. eapply near_weaken; [|apply (nf_mul m _ _ _ _ _ _ 1.2218 2 2.45 Na (nf_nz m 2 ltac:(lia)))].
    + unfold h. lra.
    + rewrite Rabs_pos_eq; lra.
    + rewrite Rabs_pos_eq; lra.
    + lra.
    + unfold usual; lra.
  - assert (Et : neqb ta tb = false).
    { destruct Na as (v & -> & _ & Bv), Nb as (v' & -> & _ & Bv'). cbn. unfold Reqb. destruct (Req_EM_T v v') as [E|]; [exfalso|reflexivity].
      subst v'. apply Rabs_le_inv in Bv, Bv'. destruct (Rle_dec 0 (thetaR za - thetaR zb)).
      - rewrite Rabs_pos_eq in HD' by lra. lra.
      - rewrite Rabs_left1 in HD' by lra. lra. }
    rewrite Et. eapply near_weaken; [|apply (nf_sub m _ _ _ _ _ _ 1.23 Na Nb)].
    + unfold h. lra.
    + apply Rle_trans with (1.2218 + 280e-9 + 280e-9); [|lra]. do 2 apply Rplus_le_compat_r. apply Rabs_le. lra.
    + unfold usual; lra.
Qed.
Lemma den_up : Rabs (denR za zb) <= 2.45.
Proof.
  pose proof (theta_range za (rad_70 a Ba)) as Ta. pose proof (theta_range zb (rad_70 b Bb)) as Tb. pose proof z70_b as Z.
  pose proof (rad_70 a Ba : 0 <= za <= z70) as Ra. pose proof (rad_70 b Bb : 0 <= zb <= z70) as Rb.
  unfold denR. destruct (Req_EM_T za zb); apply Rabs_le; lra.
Qed.
Lemma num_le : Rabs ((thetaR za + thetaR zb) / 2 - thetaR (midzeta za zb)) <= Rabs (denR za zb) / 2.
Proof.
  destruct mid_at as (_ & _ & M). unfold denR. destruct (Req_EM_T za zb) as [E|N]; [|exact M].
  eapply Rle_trans; [exact M|]. rewrite E. unfold Rminus at 1. rewrite Rplus_opp_r, Rabs_R0. pose proof (Rabs_pos (thetaR zb * 2)). lra.
Qed.
Lemma near_exp : nf (fst (exp_ali w (Some a) (Some b))) (expR za zb) (1.3e-5 / Rabs (denR za zb)).
Proof.
  set (D := Rabs (denR za zb)) in *. pose proof den_up as DU. fold D in DU.
  change (fst (exp_ali w (Some a) (Some b))) with (fmul (nz 4) (fdiv (fsub (fdiv (fadd ta tb) (nz 2)) th) den)).
  pose proof (theta_range za (rad_70 a Ba)) as Ta. pose proof (theta_range zb (rad_70 b Bb)) as Tb. pose proof z70_b as Z.
  pose proof (rad_70 a Ba : 0 <= za <= z70) as Ra. pose proof (rad_70 b Bb : 0 <= zb <= z70) as Rb.
  assert (N1 : nf (fadd ta tb) (thetaR za + thetaR zb) 710e-9).
  { eapply near_weaken; [|apply (nf_add m _ _ _ _ _ _ 2.45 near_ta near_tb)].
    - unfold h. lra.
    - rewrite Rabs_pos_eq; lra.
    - unfold usual; lra. }
  assert (N2 : nf (fdiv (fadd ta tb) (nz 2)) ((thetaR za + thetaR zb) / 2) 430e-9).
  { eapply near_weaken; [|apply (nf_div m _ _ _ _ _ _ 1.2218 2 1.23 N1 (nf_nz m 2 ltac:(lia)))].
    - unfold h. lra.
    - rewrite Rabs_pos_eq; lra.
    - rewrite Rabs_pos_eq; lra.
    - lra.
    - lra.
    - unfold usual; lra. }
  pose proof num_le as NL. fold D in NL.
  assert (N3 : nf (fsub (fdiv (fadd ta tb) (nz 2)) th) ((thetaR za + thetaR zb) / 2 - thetaR (midzeta za zb)) 2.27e-6).
  { eapply near_weaken; [|apply (nf_sub m _ _ _ _ _ _ 1.23 N2 near_th)].
    - unfold h. lra.
    - lra.
    - unfold usual; lra. }
  assert (Q : Rabs (((thetaR za + thetaR zb) / 2 - thetaR (midzeta za zb)) / denR za zb) <= 0.5).
  { unfold Rdiv at 1. rewrite Rabs_mult, Rabs_inv. fold D. apply Rmult_le_reg_r with D; [lra|]. rewrite Rmult_assoc, Rinv_l by lra. lra. }
  assert (ID : 0 < / D <= 100000).
  { split; [apply Rinv_0_lt_compat; lra|]. replace 100000 with (/ (/ 100000)) by lra. apply Rinv_le_contravar; lra. }
  assert (DD : 1 <= 2.45 * / D).
  { apply Rmult_le_reg_r with D; [lra|]. rewrite Rmult_assoc, Rinv_l by lra. lra. }
  assert (B9 : (2.27e-6 + 0.5 * 710e-9) / (0.92 * D) <= 2.86e-6 * / D).
  { unfold Rdiv. rewrite Rinv_mult. rewrite <- Rmult_assoc. apply Rmult_le_compat_r; [lra|]. lra. }
  assert (N4 : nf (fdiv (fsub (fdiv (fadd ta tb) (nz 2)) th) den) (((thetaR za + thetaR zb) / 2 - thetaR (midzeta za zb)) / denR za zb) (3.1e-6 * / D)).
  { eapply near_weaken; [|apply (nf_div m _ _ _ _ _ _ 0.5 (0.92 * D) 1 N3 near_den Q)].
    - unfold h. lra.
    - fold D. lra.
    - lra.
    - lra.
    - unfold usual; lra. }
  unfold expR. eapply near_weaken; [|apply (nf_mul m _ _ _ _ _ _ 4 0.5 4 (nf_nz m 4 ltac:(lia)) N4)].
  - unfold h, Rdiv. lra.
  - rewrite Rabs_pos_eq; lra.
  - exact Q.
  - lra.
  - unfold usual; lra.
Qed.

Lemma near_ali : nf (snd (exp_ali w (Some a) (Some b))) (aliR w za zb) (8e-7 / Rabs (denR za zb)) /\
  Rabs (aliR w za zb) <= 8e-6 / Rabs (denR za zb).
Proof.
  set (D := Rabs (denR za zb)) in *. pose proof den_up as DU. fold D in DU. pose proof eps_64 as E.
  set (cz := ncos ze). set (sb := nst (ndiv (nz w) (nmul (nz 2) HK))).
  set (d := nst (nmul (nsub (nmul (ndiv (nadd RK HK) RK) (ncos ph)) cz) sb)).
  set (e := nst (nsub cz (nsqrt (nsub (nmul cz cz) (fmul d d))))).
  change (snd (exp_ali w (Some a) (Some b))) with (nst (ndiv (nmul (fmul (nz 4) e) (nsin ze)) den)).
  destruct mid_at as (M1 & M2 & _). destruct (dist_b _ M1) as [DB CB]. rewrite <- M2 in DB, CB. pose proof (cos_70 _ M1) as C7. pose proof (sin_70 _ M1) as S7.
  pose proof (COS_bound (midzeta za zb)) as CZ. pose proof z70_b as Z. destruct (phi_70 _ M1) as [P7 _]. rewrite <- M2 in P7.
  assert (W : 1 <= IZR w <= 5) by (destruct Hw as [-> | ->]; lra).
  assert (Nsb : nf sb (IZR w / 1418) 2.5e-10).
  { assert (N1 : nd (nmul (nz 2) HK) 1418 2e-13).
    { replace 1418 with (2 * 709) by lra. eapply near_weaken; [|apply (near_mul b64 b32 pi64 m fine_64 _ _ _ _ _ _ 2 709 1418 (near_nz b64 b32 pi64 m fine_64 2 ltac:(lia)) (near_nz b64 b32 pi64 m fine_64 709 ltac:(lia)))].
      - lra.
      - rewrite Rabs_pos_eq; lra.
      - rewrite Rabs_pos_eq; lra.
      - lra.
      - big_tac. }
    unfold sb. eapply near_weaken; [|apply (near_f32 m _ _ 1e-18 0.004)].
    - unfold h. lra.
    - eapply near_weaken; [|apply (near_div b64 b32 pi64 m fine_64 _ _ _ _ _ _ 0.0036 1400 0.004 (near_nz b64 b32 pi64 m fine_64 w ltac:(lia)) N1)].
      + lra.
      + rewrite Rabs_pos_eq; lra.
      + rewrite Rabs_pos_eq; lra.
      + lra.
      + lra.
      + big_tac.
    - rewrite Rabs_pos_eq; lra.
    - unfold usual. lra. }
  assert (Ncp : nd (ncos ph) (cos (midphi za zb)) 260.1e-9).
  { eapply near_weaken; [|apply (near_cos b64 b32 pi64 m fine_64 Ha _ _ _ (near_32_64 _ _ _ near_ph))]; [lra|]. rewrite Rabs_pos_eq; lra. }
  assert (Ncz : nd cz (cos (midzeta za zb)) 1.4201e-6).
  { eapply near_weaken; [|apply (near_cos b64 b32 pi64 m fine_64 Ha _ _ _ (near_32_64 _ _ _ near_ze))]; [lra|]. rewrite Rabs_pos_eq; lra. }
  assert (Nsz : nd (nsin ze) (sin (midzeta za zb)) 1.4201e-6).
  { eapply near_weaken; [|apply (near_sin b64 b32 pi64 m fine_64 Ha _ _ _ (near_32_64 _ _ _ near_ze))]; [lra|]. rewrite Rabs_pos_eq; lra. }
  pose proof kap_b as K. assert (IK : 1 <= / kap <= 1.112).
  { split; [apply Rmult_le_reg_r with kap; [lra|]; rewrite Rinv_l by lra; lra|]. apply Rmult_le_reg_r with kap; [lra|]. rewrite Rinv_l by lra. lra. }
  assert (N6 : nd (nmul (ndiv (nadd RK HK) RK) (ncos ph)) (cos (midphi za zb) / kap) 290e-9).
  { unfold Rdiv. rewrite Rmult_comm. eapply near_weaken; [|apply (near_mul b64 b32 pi64 m fine_64 _ _ _ _ _ _ 1.112 1 2 near_HR Ncp)].
    - lra.
    - rewrite Rabs_pos_eq; lra.
    - rewrite Rabs_pos_eq; lra.
    - lra.
    - big_tac. }
  assert (N7 : nd (nsub (nmul (ndiv (nadd RK HK) RK) (ncos ph)) cz) (cos (midphi za zb) / kap - cos (midzeta za zb)) 1.711e-6).
  { eapply near_weaken; [|apply (near_sub b64 b32 pi64 m fine_64 _ _ _ _ _ _ 1 N6 Ncz)].
    - lra.
    - rewrite Rabs_pos_eq; lra.
    - big_tac. }
  assert (Nd : nf d (shift2 w za zb) 6.4e-9).
  { unfold d, shift2. eapply near_weaken; [|apply (near_f32 m _ _ 6.3e-9 0.001)].
    - unfold h. lra.
    - eapply near_weaken; [|apply (near_mul b64 b32 pi64 m fine_64 _ _ _ _ _ _ 0.26 0.0036 0.001 N7 (near_32_64 _ _ _ Nsb))].
      + lra.
      + rewrite Rabs_pos_eq; lra.
      + rewrite Rabs_pos_eq; lra.
      + lra.
      + big_tac.
    - rewrite Rabs_mult, (Rabs_pos_eq (_ - _)), (Rabs_pos_eq (_ / _)) by lra.
      assert ((cos (midphi za zb) / kap - cos (midzeta za zb)) * (IZR w / 1418) <= 0.26 * 0.0036) by (apply Rmult_le_compat; lra). lra.
    - unfold usual. lra. }
  assert (Bd : Rabs (shift2 w za zb) <= 9.4e-4).
  { unfold shift2. rewrite Rabs_mult, (Rabs_pos_eq (_ - _)), (Rabs_pos_eq (_ / _)) by lra.
    apply Rle_trans with (0.26 * 0.0036); [apply Rmult_le_compat; lra|lra]. }
  destruct (near_gap cz d _ _ Ncz Nd ltac:(lra) Bd) as [Ne Be]. fold e in Ne. change (_ - sqrt _) with (gapR w za zb) in Ne, Be.
  assert (N8 : nf (fmul (nz 4) e) (4 * gapR w za zb) 8.1e-10).
  { eapply near_weaken; [|apply (nf_mul m _ _ _ _ _ _ 4 2e-6 1e-5 (nf_nz m 4 ltac:(lia)) Ne)].
    - unfold h. lra.
    - rewrite Rabs_pos_eq; lra.
    - rewrite Rabs_pos_eq; lra.
    - lra.
    - unfold usual. lra. }
  assert (N9 : nd (nmul (fmul (nz 4) e) (nsin ze)) (4 * gapR w za zb * sin (midzeta za zb)) 8.3e-10).
  { eapply near_weaken; [|apply (near_mul b64 b32 pi64 m fine_64 _ _ _ _ _ _ 8e-6 1 1e-5 (near_32_64 _ _ _ N8) Nsz)].
    - lra.
    - rewrite Rabs_pos_eq; lra.
    - rewrite Rabs_pos_eq; lra.
    - lra.
    - big_tac. }
  assert (ID : 0 < / D <= 100000).
  { split; [apply Rinv_0_lt_compat; lra|]. replace 100000 with (/ (/ 100000)) by lra. apply Rinv_le_contravar; lra. }
  assert (DD : 1 <= 2.45 * / D).
  { apply Rmult_le_reg_r with D; [lra|]. rewrite Rmult_assoc, Rinv_l by lra. lra. }
  assert (Q : Rabs (4 * gapR w za zb * sin (midzeta za zb) / denR za zb) <= 8e-6 * / D).
  { unfold Rdiv at 1. rewrite Rabs_mult, Rabs_inv. fold D. apply Rmult_le_compat_r; [lra|].
    rewrite Rabs_mult, (Rabs_pos_eq (4 * _)), (Rabs_pos_eq (sin _)) by lra.
    apply Rle_trans with (8e-6 * 1); [apply Rmult_le_compat; lra|lra]. }
  split; [|exact Q]. unfold aliR.
  assert (B9 : (8.3e-10 + 0.8 * 710e-9) / (0.92 * D) <= 6.3e-7 * / D).
  { unfold Rdiv. rewrite Rinv_mult. rewrite <- Rmult_assoc. apply Rmult_le_compat_r; [lra|]. lra. }
  eapply near_weaken; [|apply (near_f32 m _ _ (6.3e-7 * / D) 1)].
  - unfold h, Rdiv. lra.
  - eapply near_weaken; [|apply (near_div b64 b32 pi64 m fine_64 _ _ _ _ _ _ 0.8 (0.92 * D) 1 N9 (near_32_64 _ _ _ near_den))].
    + lra.
    + lra.
    + fold D. lra.
    + lra.
    + lra.
    + big_tac.
  - lra.
  - unfold usual. lra.
Qed.
End Pair.
End Coef.
