(** Expansion and alignment coefficients of the MODIS interpolation: they are finite for admissible angles. *)
From Coq Require Import ZArith Reals Lra Lia.
From Verif Require Import Base Num Geo GeoProofs Modis.
Open Scope R_scope.

Definition Re : R := 6370997 / 1000.
Definition Alt : R := 709.
(** ratio of the earth radius to the distance of the satellite from the centre *)
Definition kap : R := Re / (Re + Alt).
Lemma kap_pos : 0 < kap < 1.
Proof. unfold kap, Re, Alt. lra. Qed.

Lemma sin_add_le a b : 0 <= sin a -> 0 <= sin b -> sin (a + b) <= sin a + sin b.
Proof. intros Ha Hb. rewrite sin_plus. pose proof (COS_bound a). pose proof (COS_bound b). nra. Qed.
Lemma sin_mult_le n x : 0 <= x -> INR n * x <= PI -> sin (INR n * x) <= INR n * sin x.
Proof.
  intros Hx. induction n as [|n IH]; intros Hn.
  - cbn [INR]. rewrite !Rmult_0_l, sin_0. lra.
  - rewrite S_INR in *. pose proof (pos_INR n) as P.
    assert (A : 0 <= INR n * x <= PI) by (split; nra).
    replace ((INR n + 1) * x) with (INR n * x + x) by ring.
    pose proof (sin_add_le (INR n * x) x (sin_ge_0 _ (proj1 A) (proj2 A)) (sin_ge_0 x Hx ltac:(lra))) as S.
    specialize (IH (proj2 A)). lra.
Qed.
Lemma sin_1deg : 1 / 60 <= sin (PI / 180).
Proof.
  pose proof PI_RGT_0 as P. pose proof (sin_mult_le 30 (PI / 180)) as H.
  replace (INR 30) with 30 in H by (cbn; lra). replace (30 * (PI / 180)) with (PI / 6) in H by field.
  rewrite sin_PI6 in H. specialize (H ltac:(lra) ltac:(lra)). lra.
Qed.
Lemma cos_89deg : 1 / 60 <= cos (89 * (PI / 180)).
Proof.
  replace (89 * (PI / 180)) with (PI / 2 - PI / 180) by field. rewrite <- sin_shift.
  replace (PI / 2 - (PI / 2 - PI / 180)) with (PI / 180) by ring. exact sin_1deg.
Qed.

Definition z89 : R := 89 * (PI / 180).
Lemma z89_lt : 0 < z89 < PI / 2.
Proof. pose proof PI_RGT_0. unfold z89. lra. Qed.

Definition phiR (z : R) : R := asin (Re * sin z / (Re + Alt)).
Lemma phi_arg z : Re * sin z / (Re + Alt) = kap * sin z.
Proof. unfold kap, Re, Alt. field. Qed.
Lemma phi_bounds z : 0 <= z <= z89 -> 0 <= kap * sin z <= sin z89 /\ kap * sin z <= 1 /\ sin z <= sin z89.
Proof.
  intros Hz. pose proof z89_lt. pose proof kap_pos. pose proof (SIN_bound z89).
  assert (0 <= sin z) by (apply sin_ge_0; lra).
  assert (sin z <= sin z89) by (apply sin_incr_1; lra).
  repeat split; nra.
Qed.
Lemma phiR_range z : 0 <= z <= z89 -> 0 <= phiR z <= PI / 2.
Proof.
  intros Hz. destruct (phi_bounds z Hz) as (A & B & _). unfold phiR. rewrite phi_arg. split; [apply asin_pos; lra|].
  apply asin_bound.
Qed.
Lemma sin_phiR z : 0 <= z <= z89 -> sin (phiR z) = kap * sin z.
Proof. intros Hz. destruct (phi_bounds z Hz) as (A & B & _). unfold phiR. rewrite phi_arg. apply sin_asin. lra. Qed.
Lemma theta_zero z : 0 <= z <= z89 -> z - phiR z = 0 -> z = 0.
Proof.
  intros Hz H. pose proof (sin_phiR z Hz) as S. replace (phiR z) with z in S by lra. pose proof z89_lt. pose proof kap_pos.
  assert (E : sin z = 0) by nra. destruct (Req_EM_T z 0) as [|Hne]; [assumption|exfalso].
  pose proof (sin_gt_0 z ltac:(lra) ltac:(lra)). lra.
Qed.
(** sine of the mean angle *)
Lemma sin_mean a b : 0 <= a <= z89 -> 0 <= b <= z89 -> 0 <= sin ((phiR a + phiR b) / 2) <= kap * sin z89 .
Proof.
  intros Ha Hb. pose proof (phiR_range a Ha) as A. pose proof (phiR_range b Hb) as B. pose proof PI_RGT_0.
  split; [apply sin_ge_0; lra|].
  assert (M : forall c, 0 <= c <= z89 -> (phiR a + phiR b) / 2 <= phiR c -> sin ((phiR a + phiR b) / 2) <= kap * sin z89).
  { intros c Hc Hm. pose proof (phiR_range c Hc). destruct (phi_bounds c Hc) as (_ & _ & D). pose proof kap_pos.
    assert (E : sin ((phiR a + phiR b) / 2) <= sin (phiR c)) by (apply sin_incr_1; lra). rewrite (sin_phiR c Hc) in E. nra. }
  destruct (Rle_dec (phiR a) (phiR b)); [apply (M b)|apply (M a)]; auto; lra.
Qed.

Lemma RK_RN : @RK _ RN = Some Re.
Proof. unfold RK, Re. cbn [ndiv nz RN]. apply RNdiv_some. lra. Qed.
Lemma HK_RN : @HK _ RN = Some Alt.
Proof. reflexivity. Qed.
Lemma sum_pos : Re + Alt <> 0. Proof. unfold Re, Alt. lra. Qed.
Lemma compute_phi_RN z : 0 <= z <= z89 -> @compute_phi _ RN (Some z) = Some (phiR z).
Proof.
  intros Hz. destruct (phi_bounds z Hz) as (A & B & _). unfold compute_phi. rewrite RK_RN, HK_RN. cbn [nst nasin ndiv nmul nadd nsin RN lift1 lift2].
  rewrite RNdiv_some by exact sum_pos. rewrite RNdom_some; [reflexivity|]. rewrite phi_arg. lra.
Qed.

Definition zetaR (phi : R) : R := asin ((Re + Alt) * sin phi / Re).
Lemma zeta_arg phi : (Re + Alt) * sin phi / Re = sin phi / kap.
Proof. unfold kap, Re, Alt. field. Qed.
Lemma zeta_le phi : 0 <= sin phi <= kap * sin z89 -> 0 <= sin phi / kap <= sin z89.
Proof.
  intros H. pose proof kap_pos. split.
  - apply Rmult_le_reg_r with kap; [lra|]. unfold Rdiv. rewrite Rmult_assoc, Rinv_l by lra. lra.
  - apply Rmult_le_reg_r with kap; [lra|]. unfold Rdiv. rewrite Rmult_assoc, Rinv_l by lra. lra.
Qed.
Lemma compute_zeta_RN phi : 0 <= sin phi <= kap * sin z89 -> @compute_zeta _ RN (Some phi) = Some (zetaR phi) /\ 0 <= zetaR phi <= z89.
Proof.
  intros H. pose proof (zeta_le phi H) as B. pose proof (SIN_bound z89). pose proof z89_lt. split.
  - unfold compute_zeta. rewrite RK_RN, HK_RN. cbn [nst nasin ndiv nmul nadd nsin RN lift1 lift2].
    rewrite RNdiv_some by (unfold Re; lra). rewrite RNdom_some; [reflexivity|]. rewrite zeta_arg. lra.
  - unfold zetaR. rewrite zeta_arg. split; [apply asin_pos; lra|]. rewrite <- (asin_sin z89) by lra. apply asin_le; lra.
Qed.

(** the square root of the alignment coefficient *)
Lemma alignment_root (w : Z) phi zeta : (1 <= w <= 5)%Z -> 0 <= phi <= PI / 2 -> 0 <= zeta <= z89 ->
  let d := ((Re + Alt) / Re * cos phi - cos zeta) * (IZR w / (2 * Alt)) in
  0 <= cos zeta * cos zeta - d * d.
Proof.
  intros Hw Hphi Hz. cbv zeta. pose proof z89_lt. pose proof PI_RGT_0.
  assert (C : 1 / 60 <= cos zeta).
  { pose proof cos_89deg. fold z89 in H1. assert (cos z89 <= cos zeta) by (apply cos_decr_1; lra). lra. }
  assert (CP : 0 <= cos phi <= 1) by (split; [apply cos_ge_0; lra|apply COS_bound]).
  assert (W : 1 <= IZR w <= 5) by (split; apply IZR_le; lia).
  set (b := IZR w / (2 * Alt)). assert (B : 0 <= b <= 5 / 1418) by (unfold b, Alt; lra).
  set (m := (Re + Alt) / Re). assert (M : 1 <= m <= 12 / 10) by (unfold m, Re, Alt; lra).
  pose proof (COS_bound zeta) as CZ.
  assert (MC : 0 <= m * cos phi <= 12 / 10) by (split; nra).
  set (X := m * cos phi - cos zeta). assert (XB : - cos zeta <= X <= 12 / 10) by (unfold X; lra). clearbody X b.
  assert (U : X * b <= cos zeta) by (assert (0 <= (12 / 10 - X) * b) by nra; lra).
  assert (L : - cos zeta <= X * b) by (assert (0 <= (X + cos zeta) * b) by nra; nra).
  nra.
Qed.

Theorem exp_ali_finite (w : Z) a b : (w = 1 \/ w = 5)%Z -> 0 <= a <= 89 -> 0 <= b <= 89 -> ~ (a = 0 /\ b = 0) ->
  exists e l, @exp_ali _ RN w (Some a) (Some b) = (Some e, Some l).
Proof.
  intros Hw Ha Hb Hab. pose proof PI_RGT_0 as HPI.
  assert (Ka : 0 <= a * (PI / 180) <= z89) by (unfold z89; split; nra).
  assert (Kb : 0 <= b * (PI / 180) <= z89) by (unfold z89; split; nra).
  unfold exp_ali. rewrite !deg2rad_RN. cbn [nst RN]. rewrite !compute_phi_RN by assumption.
  set (ra := a * (PI / 180)) in *. set (rb := b * (PI / 180)) in *.
  unfold compute_theta, fsub, fadd, fmul, fdiv. cbn [nst nsub nadd nmul RN lift2 nz].
  cbn [ndiv RN]. rewrite !(RNdiv_some _ 2) by lra.
  pose proof (sin_mean ra rb Ka Kb) as SM. set (phi := (phiR ra + phiR rb) / 2) in *.
  destruct (compute_zeta_RN phi SM) as [-> HZ]. set (zeta := zetaR phi) in *. cbn [lift2].
  set (ta := ra - phiR ra). set (tb := rb - phiR rb).
  assert (DEN : exists den, den <> 0 /\
    (if @neqb _ RN (Some ta) (Some tb) then Some (ta * 2) else Some (ta - tb)) = Some den).
  { cbn [neqb RN liftb]. destruct (Reqb ta tb) eqn:E.
    - apply Reqb_true in E. exists (ta * 2). split; [|reflexivity]. intros Z.
      assert (A0 : ra - phiR ra = 0) by (fold ta; lra). assert (B0 : rb - phiR rb = 0) by (fold tb; lra).
      apply theta_zero in A0; [|exact Ka]. apply theta_zero in B0; [|exact Kb]. unfold ra, rb in *. apply Hab. split; nra.
    - apply Reqb_false in E. exists (ta - tb). split; [lra|reflexivity]. }
  destruct DEN as (den & Hden & ->).
  rewrite RK_RN, HK_RN. cbn [lift2 lift1 ncos nsin nmul nadd nsub RN].
  rewrite (RNdiv_some _ (2 * Alt)) by (unfold Alt; lra). rewrite (RNdiv_some _ Re) by (unfold Re; lra). cbn [lift2].
  cbn [nsqrt RN]. rewrite RNsqrt_some.
  - cbn [lift2]. rewrite !RNdiv_some by exact Hden. eexists _, _. reflexivity.
  - apply alignment_root; [lia| |exact HZ].
    pose proof (phiR_range ra Ka). pose proof (phiR_range rb Kb). unfold phi. lra.
Qed.
