(** Linear grid interpolation on float32 values: the sum of a cell in doubles, and its rounding to float32. *)
From Coq Require Import ZArith List Bool Arith Lia Reals Lra.
From Flocq.Core Require Import Core.
From Flocq.Core Require Import Ulp.
From Verif Require Import Spec Base Num Geo Float FloatGeo FloatAcc FloatTrip FloatNear GridLinear GridSingle PropsGridLinear FloatGrid.
Import ListNotations.
Open Scope R_scope.

(** ** rounding to float32 absorbs small errors *)
Notation gf32 := (generic_format radix2 (FLT_exp (femin b32) (fprec b32))).
Notation ulp32 := (ulp radix2 (FLT_exp (femin b32) (fprec b32))).
Notation succ32 := (succ radix2 (FLT_exp (femin b32) (fprec b32))).
Notation pred32 := (pred radix2 (FLT_exp (femin b32) (fprec b32))).
#[local] Instance prec24 : Prec_gt_0 (fprec b32). Proof. reflexivity. Qed.

Lemma ulp32_ge x : bpow radix2 (-149) <= ulp32 x.
Proof.
  change (-149)%Z with (femin b32). rewrite <- (ulp_FLT_0 radix2 (femin b32) (fprec b32)). apply ulp_ge_ulp_0; [apply FLT_exp_valid, prec24|]. intros e. unfold FLT_exp. cbn. lia.
Qed.
Lemma ulp32_rel x : Rabs x * bpow radix2 (-24) <= ulp32 x.
Proof. left. apply (ulp_FLT_gt radix2 (femin b32) (fprec b32) x). Qed.

(** the next number is far away *)
Lemma gap32 h : gf32 h -> bpow radix2 (-25) * Rabs h <= succ32 h - h /\ bpow radix2 (-149) <= succ32 h - h.
Proof.
  intros F. assert (E : bpow radix2 (-24) = 2 * bpow radix2 (-25)) by exact (bpow_plus_1 radix2 (-25)).
  assert (E25 : bpow radix2 (-25) = / 33554432) by reflexivity.
  destruct (Rle_dec 0 h) as [P|P].
  - rewrite succ_eq_pos by exact P. replace (h + ulp32 h - h) with (ulp32 h) by ring. split; [|apply ulp32_ge].
    pose proof (ulp32_rel h) as A. pose proof (Rabs_pos h). rewrite E in A. nra.
  - assert (W : 0 < - h) by lra. assert (Fw : gf32 (- h)) by now apply generic_format_opp.
    assert (S : succ32 h = - pred32 (- h)) by (unfold pred; rewrite !Ropp_involutive; reflexivity).
    pose proof (pred_plus_ulp radix2 (FLT_exp (femin b32) (fprec b32)) (- h) W Fw) as Q. rewrite S.
    replace (- pred32 (- h) - h) with (ulp32 (pred32 (- h))) by lra. split; [|apply ulp32_ge].
    pose proof (ulp32_rel (pred32 (- h))) as A. set (g := ulp32 (pred32 (- h))) in *. set (w := pred32 (- h)) in *.
    assert (w <= Rabs w) by apply Rle_abs. rewrite Rabs_left by lra. rewrite E in A. rewrite E25 in *. nra.
Qed.

Lemma absorb_hi h x : gf32 h -> x <= h + bpow radix2 (-28) * Rabs h + bpow radix2 (-151) -> rd b32 x <= h.
Proof.
  intros F H. destruct (gap32 h F) as (A & B). pose proof (Rabs_pos h).
  assert (E25 : bpow radix2 (-25) = 8 * bpow radix2 (-28)) by exact (bpow_plus radix2 3 (-28)).
  assert (E149 : bpow radix2 (-149) = 4 * bpow radix2 (-151)) by exact (bpow_plus radix2 2 (-151)).
  unfold rd. apply round_N_le_midp; [apply FLT_exp_valid; reflexivity|exact F|].
  pose proof (bpow_gt_0 radix2 (-151)). pose proof (bpow_gt_0 radix2 (-28)). rewrite E25 in A. rewrite E149 in B.
  assert (0 <= bpow radix2 (-28) * Rabs h) by (apply Rmult_le_pos; lra). lra.
Qed.
Lemma absorb_lo h x : gf32 h -> h - (bpow radix2 (-28) * Rabs h + bpow radix2 (-151)) <= x -> h <= rd b32 x.
Proof.
  intros F H. assert (K : rd b32 (- x) <= - h).
  { apply absorb_hi; [now apply generic_format_opp|]. rewrite Rabs_Ropp. lra. }
  rewrite (rd_opp b32) in K. lra.
Qed.

(** ** the sum, in doubles *)
Notation r64 := (rd b64).
Notation gf64 := (generic_format radix2 (FLT_exp (femin b64) (fprec b64))).
Definition sum4 (v1 v2 v3 v4 p q : R) : R :=
  let p' := r64 (1 - p) in let q' := r64 (1 - q) in
  r64 (r64 (r64 (r64 (v1 * r64 (p' * q')) + r64 (v2 * r64 (p' * q))) + r64 (v3 * r64 (p * q'))) + r64 (v4 * r64 (p * q))).

Lemma gf64_0 : gf64 0. Proof. apply generic_format_0. Qed.
Lemma gf64_1 : gf64 1. Proof. exact (gf_IZR b64 good_b64 1 ltac:(cbn; lia)). Qed.
Lemma r64_unit x : 0 <= x <= 1 -> 0 <= r64 x <= 1.
Proof. intros H. split; [apply (rd_ge_gf b64 good_b64); [apply gf64_0|lra]|apply (rd_le_gf b64 good_b64); [apply gf64_1|lra]]. Qed.
Lemma unit_mul a b : 0 <= a <= 1 -> 0 <= b <= 1 -> 0 <= a * b <= 1.
Proof. intros. nra. Qed.

(** larger values, larger sum *)
Lemma sum4_le v1 v2 v3 v4 w1 w2 w3 w4 p q : 0 <= p <= 1 -> 0 <= q <= 1 -> v1 <= w1 -> v2 <= w2 -> v3 <= w3 -> v4 <= w4 ->
  sum4 v1 v2 v3 v4 p q <= sum4 w1 w2 w3 w4 p q.
Proof.
  intros Hp Hq H1 H2 H3 H4. unfold sum4.
  assert (Hp' : 0 <= r64 (1 - p) <= 1) by (apply r64_unit; lra). assert (Hq' : 0 <= r64 (1 - q) <= 1) by (apply r64_unit; lra).
  set (p' := r64 (1 - p)) in *. set (q' := r64 (1 - q)) in *.
  assert (M : forall a b s t, 0 <= s <= 1 -> 0 <= t <= 1 -> a <= b -> r64 (a * r64 (s * t)) <= r64 (b * r64 (s * t))).
  { intros a b s t Hs Ht L. apply (rd_le b64 good_b64). pose proof (r64_unit _ (unit_mul s t Hs Ht)). apply Rmult_le_compat_r; lra. }
  apply (rd_le b64 good_b64), Rplus_le_compat; [|now apply M]. apply (rd_le b64 good_b64), Rplus_le_compat; [|now apply M].
  apply (rd_le b64 good_b64), Rplus_le_compat; now apply M.
Qed.

Local Notation u := (bpow radix2 (-53)).
Local Notation eta := (bpow radix2 (-1075)).
Lemma err64 t : Rabs (r64 t - t) <= u * Rabs t + eta.
Proof.
  eapply Rle_trans; [apply (rd_err b64 good_b64 ltac:(cbn; lia))|]. change (- fprec b64)%Z with (-53)%Z. pose proof (bpow_plus_1 radix2 (-1075) : bpow radix2 (femin b64) = 2 * bpow radix2 (-1075)) as E.
  rewrite E. lra.
Qed.
Lemma u_val : u = / 9007199254740992. Proof. reflexivity. Qed.
Lemma eta_small : 0 < eta <= u * / 1000000000000.
Proof.
  split; [apply bpow_gt_0|]. apply Rle_trans with (bpow radix2 (-53 + -40)); [apply bpow_le; lia|]. rewrite bpow_plus. apply Rmult_le_compat_l; [apply bpow_ge_0|].
  change (bpow radix2 (-40)) with (/ 1099511627776). lra.
Qed.
Lemma err_unit t : 0 <= t <= 1 -> Rabs (r64 t - t) <= 1001 / 1000 * u.
Proof. intros H. eapply Rle_trans; [apply err64|]. rewrite Rabs_pos_eq by lra. pose proof eta_small. pose proof (bpow_gt_0 radix2 (-53)). nra. Qed.

(** one term: value, weight and their roundings *)
Lemma term_err v B s t a b : Rabs v <= B -> 0 <= s <= 1 -> 0 <= t <= 1 -> 0 <= a <= 1 -> 0 <= b <= 1 ->
  Rabs (s - a) <= 1001 / 1000 * u -> Rabs (t - b) <= 1001 / 1000 * u ->
  Rabs (r64 (v * r64 (s * t)) - v * (a * b)) <= 401 / 100 * u * B + eta /\ Rabs (r64 (v * r64 (s * t))) <= 101 / 100 * B + eta.
Proof.
  intros Bv Hs Ht Ha Hb D1 D2. assert (PB : 0 <= B) by (pose proof (Rabs_pos v); lra).
  pose proof (unit_mul s t Hs Ht) as U. pose proof (err_unit _ U) as E1. pose proof (r64_unit _ U) as U1. set (w := r64 (s * t)) in *.
  pose proof (err64 (v * w)) as E2. assert (Vw : Rabs (v * w) <= B).
  { rewrite Rabs_mult, (Rabs_pos_eq w) by lra. apply Rle_trans with (B * 1); [|lra]. apply Rmult_le_compat; try lra. apply Rabs_pos. }
  assert (Up : u = / 9007199254740992) by reflexivity.
  assert (E3 : Rabs (w - a * b) <= 3004 / 1000 * u).
  { replace (w - a * b) with ((w - s * t) + (s * (t - b) + b * (s - a))) by ring.
    eapply Rle_trans; [apply Rabs_triang|]. eapply Rle_trans; [apply Rplus_le_compat_l, Rabs_triang|]. rewrite !Rabs_mult, (Rabs_pos_eq s), (Rabs_pos_eq b) by lra.
    assert (s * Rabs (t - b) <= 1 * (1001 / 1000 * u)) by (apply Rmult_le_compat; try lra; apply Rabs_pos).
    assert (b * Rabs (s - a) <= 1 * (1001 / 1000 * u)) by (apply Rmult_le_compat; try lra; apply Rabs_pos). rewrite Up in *. lra. }
  assert (E4 : Rabs (v * w - v * (a * b)) <= B * (3004 / 1000 * u)).
  { rewrite <- Rmult_minus_distr_l, Rabs_mult. apply Rmult_le_compat; try assumption; apply Rabs_pos. }
  assert (uB : u * Rabs (v * w) <= u * B) by (apply Rmult_le_compat_l; [apply bpow_ge_0|exact Vw]).
  set (o := r64 (v * w)) in *. split.
  - replace (o - v * (a * b)) with ((o - v * w) + (v * w - v * (a * b))) by ring. eapply Rle_trans; [apply Rabs_triang|].
    assert (0 <= B * u) by (apply Rmult_le_pos; [exact PB|apply bpow_ge_0]). lra.
  - replace o with ((o - v * w) + v * w) by ring. eapply Rle_trans; [apply Rabs_triang|].
    assert (u * B <= / 1000 * B) by (apply Rmult_le_compat_r; [exact PB|rewrite Up; lra]). lra.
Qed.

(** the sum of a cell, for values of any size *)
Lemma sum4_near v1 v2 v3 v4 B p q : Rabs v1 <= B -> Rabs v2 <= B -> Rabs v3 <= B -> Rabs v4 <= B -> 0 <= p <= 1 -> 0 <= q <= 1 ->
  Rabs (sum4 v1 v2 v3 v4 p q - (v1 * ((1 - p) * (1 - q)) + v2 * ((1 - p) * q) + v3 * (p * (1 - q)) + v4 * (p * q))) <= 30 * u * B + 10 * eta.
Proof.
  intros B1 B2 B3 B4 Hp Hq. unfold sum4. assert (PB : 0 <= B) by (pose proof (Rabs_pos v1); lra).
  assert (Lp : 0 <= 1 - p <= 1) by lra. assert (Lq : 0 <= 1 - q <= 1) by lra.
  pose proof (r64_unit _ Lp) as Hp'. pose proof (r64_unit _ Lq) as Hq'. pose proof (err_unit _ Lp) as Ep. pose proof (err_unit _ Lq) as Eq.
  set (p' := r64 (1 - p)) in *. set (q' := r64 (1 - q)) in *.
  assert (Z : forall z, Rabs (z - z) <= 1001 / 1000 * u) by (intros z; rewrite Rminus_diag_eq, Rabs_R0 by reflexivity; pose proof (bpow_gt_0 radix2 (-53)); lra).
  destruct (term_err v1 B p' q' (1 - p) (1 - q) B1 Hp' Hq' Lp Lq Ep Eq) as (T1 & A1).
  destruct (term_err v2 B p' q (1 - p) q B2 Hp' Hq Lp Hq Ep (Z q)) as (T2 & A2).
  destruct (term_err v3 B p q' p (1 - q) B3 Hp Hq' Hp Lq (Z p) Eq) as (T3 & A3).
  destruct (term_err v4 B p q p q B4 Hp Hq Hp Hq (Z p) (Z q)) as (T4 & A4).
  set (t1 := r64 (v1 * _)) in *. set (t2 := r64 (v2 * _)) in *. set (t3 := r64 (v3 * _)) in *. set (t4 := r64 (v4 * _)) in *.
  set (b1 := v1 * ((1 - p) * (1 - q))) in *. set (b2 := v2 * ((1 - p) * q)) in *. set (b3 := v3 * (p * (1 - q))) in *. set (b4 := v4 * (p * q)) in *. clearbody t1 t2 t3 t4 b1 b2 b3 b4.
  pose proof eta_small as Ee. assert (Up : u = / 9007199254740992) by reflexivity.
  assert (uB : 0 <= u * B <= / 1000 * B) by (rewrite Up; lra). assert (uE : 0 <= u * eta <= / 1000 * eta) by (rewrite Up; lra).
  assert (Add : forall x y X, Rabs x + Rabs y <= X -> Rabs (r64 (x + y) - (x + y)) <= u * X + eta /\ Rabs (r64 (x + y)) <= X + u * X + eta).
  { intros x y X HX. pose proof (Rabs_triang x y) as Tr. pose proof (err64 (x + y)) as E.
    assert (u * Rabs (x + y) <= u * X) by (apply Rmult_le_compat_l; [apply bpow_ge_0|lra]). split; [lra|].
    replace (r64 (x + y)) with ((r64 (x + y) - (x + y)) + (x + y)) by ring. eapply Rle_trans; [apply Rabs_triang|]. lra. }
  destruct (Add t1 t2 (202 / 100 * B + 2 * eta) ltac:(lra)) as (S2 & C2). set (s2 := r64 (t1 + t2)) in *. clearbody s2.
  destruct (Add s2 t3 (304 / 100 * B + 5 * eta) ltac:(lra)) as (S3 & C3). set (s3 := r64 (s2 + t3)) in *. clearbody s3.
  destruct (Add s3 t4 (406 / 100 * B + 8 * eta) ltac:(lra)) as (S4 & C4). set (s4 := r64 (s3 + t4)) in *. clearbody s4. clear Add C2 C3 C4.
  replace (s4 - (b1 + b2 + b3 + b4)) with ((s4 - (s3 + t4)) + (s3 - (s2 + t3)) + (s2 - (t1 + t2)) + (t1 - b1) + (t2 - b2) + (t3 - b3) + (t4 - b4)) by ring.
  assert (Tr : forall x y X Y, Rabs x <= X -> Rabs y <= Y -> Rabs (x + y) <= X + Y) by (intros; eapply Rle_trans; [apply Rabs_triang|lra]).
  eapply Rle_trans; [exact (Tr _ _ _ _ (Tr _ _ _ _ (Tr _ _ _ _ (Tr _ _ _ _ (Tr _ _ _ _ (Tr _ _ _ _ S4 S3) S2) T1) T2) T3) T4)|]. lra.
Qed.

(** equal values: the rounding to float32 gives the value back *)
Lemma sum4_same h p q : 0 <= p <= 1 -> 0 <= q <= 1 -> Rabs (sum4 h h h h p q - h) <= bpow radix2 (-28) * Rabs h + bpow radix2 (-151).
Proof.
  intros Hp Hq. pose proof (sum4_near h h h h (Rabs h) p q (Rle_refl _) (Rle_refl _) (Rle_refl _) (Rle_refl _) Hp Hq) as N.
  replace (h * ((1 - p) * (1 - q)) + h * ((1 - p) * q) + h * (p * (1 - q)) + h * (p * q)) with h in N by ring.
  eapply Rle_trans; [exact N|]. pose proof (Rabs_pos h). apply Rplus_le_compat.
  - apply Rmult_le_compat_r; [lra|]. rewrite u_val. change (bpow radix2 (-28)) with (/ 268435456). lra.
  - apply Rle_trans with (bpow radix2 4 * eta); [apply Rmult_le_compat_r; [apply bpow_ge_0|cbn; lra]|]. rewrite <- bpow_plus. apply bpow_le. lia.
Qed.

(** between the values of the corners *)
Lemma sum4_between v1 v2 v3 v4 lo hi p q : gf32 lo -> gf32 hi -> lo <= v1 <= hi -> lo <= v2 <= hi -> lo <= v3 <= hi -> lo <= v4 <= hi ->
  0 <= p <= 1 -> 0 <= q <= 1 -> lo <= rd b32 (sum4 v1 v2 v3 v4 p q) <= hi.
Proof.
  intros Fl Fh H1 H2 H3 H4 Hp Hq. split.
  - apply absorb_lo; [exact Fl|]. apply Rle_trans with (sum4 lo lo lo lo p q); [|apply sum4_le; lra].
    pose proof (sum4_same lo p q Hp Hq) as S. apply Rabs_le_inv in S. lra.
  - apply absorb_hi; [exact Fh|]. apply Rle_trans with (sum4 hi hi hi hi p q); [apply sum4_le; lra|].
    pose proof (sum4_same hi p q Hp Hq) as S. apply Rabs_le_inv in S. lra.
Qed.

(** at the corners *)
Lemma r64_1 : r64 1 = 1. Proof. apply (rd_id b64), gf64_1. Qed.
Lemma r64_0 : r64 0 = 0. Proof. apply (rd_0 b64). Qed.
Lemma sum4_corner v1 v2 v3 v4 : gf64 v1 -> gf64 v2 -> gf64 v3 -> gf64 v4 ->
  sum4 v1 v2 v3 v4 0 0 = v1 /\ sum4 v1 v2 v3 v4 0 1 = v2 /\ sum4 v1 v2 v3 v4 1 0 = v3 /\ sum4 v1 v2 v3 v4 1 1 = v4.
Proof.
  intros F1 F2 F3 F4. unfold sum4. rewrite Rminus_0_r. replace (1 - 1) with 0 by ring. rewrite r64_1, r64_0.
  repeat split; repeat (rewrite ?Rmult_1_r, ?Rmult_0_r, ?Rmult_0_l, ?Rplus_0_r, ?Rplus_0_l, ?r64_1, ?r64_0;
    rewrite ?(rd_id b64 v1 F1), ?(rd_id b64 v2 F2), ?(rd_id b64 v3 F3), ?(rd_id b64 v4 F4)); reflexivity.
Qed.

(** ** the model *)
(** a float is a double *)
Lemma gf_32_64 x : gf32 x -> gf64 x.
Proof. apply generic_inclusion_mag. intros _. unfold FLT_exp. cbn. lia. Qed.

Section M.
Variable m : libm.
#[local] Instance SM : NumOps (option R) := F64_32 m.

Lemma fit_le x e : (-1074 <= e < 1024)%Z -> Rabs x <= bpow radix2 e -> fit b64 x = Some (r64 x).
Proof. intros H B. apply (fit_some b64 good_b64 _ e); [exact H|exact B]. Qed.

Lemma fit_unit x : 0 <= x <= 1 -> fit b64 x = Some (r64 x).
Proof. intros H. apply (fit_le x 0); [lia|]. rewrite Rabs_pos_eq; cbn; lra. Qed.

Lemma linear_np_value (v : nat -> nat -> R) (V : nat -> nat -> option R) i j p q : gf64 p -> gf64 q -> 0 <= p <= 1 -> 0 <= q <= 1 ->
  (forall a b, (a = i \/ a = S i)%nat -> (b = j \/ b = S j)%nat -> V a b = Some (v a b) /\ Rabs (v a b) <= bpow radix2 128) ->
  linear_np V i j (Some p) (Some q) = Some (sum4 (v i j) (v i (S j)) (v (S i) j) (v (S i) (S j)) p q).
Proof.
  intros Fp Fq Hp Hq HV.
  destruct (HV i j) as (V1 & B1); auto. destruct (HV i (S j)) as (V2 & B2); auto.
  destruct (HV (S i) j) as (V3 & B3); auto. destruct (HV (S i) (S j)) as (V4 & B4); auto.
  unfold linear_np. rewrite V1, V2, V3, V4. unfold sum4.
  set (v1 := v i j) in *. set (v2 := v i (S j)) in *. set (v3 := v (S i) j) in *. set (v4 := v (S i) (S j)) in *. clearbody v1 v2 v3 v4.
  assert (N1 : nz 1 = Some 1) by (apply (fit_IZR b64 1); [apply good_b64|cbn; lia|cbn; lia]).
  assert (N0 : nz 0 = Some 0) by (apply (fit_IZR b64 0); [apply good_b64|cbn; lia|cbn; lia]).
  rewrite N1, N0.
  assert (Sub : forall z, 0 <= z <= 1 -> nsub (Some 1) (Some z) = Some (r64 (1 - z))) by (intros z Hz; apply fit_unit; lra).
  rewrite !Sub by assumption.
  assert (Hp' : 0 <= r64 (1 - p) <= 1) by (apply r64_unit; lra). assert (Hq' : 0 <= r64 (1 - q) <= 1) by (apply r64_unit; lra).
  assert (Fp' : gf64 (r64 (1 - p))) by apply (rd_gf b64 good_b64). set (p' := r64 (1 - p)) in *. set (q' := r64 (1 - q)) in *. clearbody p' q'.
  assert (One : forall z, gf64 z -> 0 <= z <= 1 -> nmul (Some 1) (Some z) = Some z).
  { intros z Fz Hz. cbn [nmul SM F64_32 FN bind2]. rewrite Rmult_1_l, fit_unit by exact Hz. now rewrite (rd_id b64 z Fz). }
  assert (Wt : forall a b, 0 <= a <= 1 -> 0 <= b <= 1 -> nmul (Some a) (Some b) = Some (r64 (a * b))) by (intros a b Ha Hb; apply fit_unit, unit_mul; assumption).
  rewrite !One by assumption. rewrite (Wt p' q'), (Wt p' q), (Wt p q'), (Wt p q) by assumption.
  assert (Tm : forall w a b, Rabs w <= bpow radix2 128 -> 0 <= a <= 1 -> 0 <= b <= 1 ->
    nmul (Some w) (Some (r64 (a * b))) = Some (r64 (w * r64 (a * b))) /\ Rabs (r64 (w * r64 (a * b))) <= bpow radix2 128).
  { intros w a b Bw Ha Hb. pose proof (r64_unit _ (unit_mul a b Ha Hb)) as U. set (z := r64 (a * b)) in *. clearbody z.
    assert (Rabs (w * z) <= bpow radix2 128).
    { rewrite Rabs_mult, (Rabs_pos_eq z) by lra. rewrite <- (Rmult_1_r (bpow radix2 128)). apply Rmult_le_compat; try lra. apply Rabs_pos. }
    split; [apply (fit_le (w * z) 128); [lia|assumption]|]. apply (rd_bpow_le b64 good_b64); [cbn; lia|assumption]. }
  destruct (Tm v1 p' q' B1 Hp' Hq') as (-> & C1). destruct (Tm v2 p' q B2 Hp' Hq) as (-> & C2).
  destruct (Tm v3 p q' B3 Hp Hq') as (-> & C3). destruct (Tm v4 p q B4 Hp Hq) as (-> & C4).
  assert (G1 : gf64 (r64 (v1 * r64 (p' * q')))) by apply (rd_gf b64 good_b64).
  set (t1 := r64 (v1 * r64 (p' * q'))) in *. set (t2 := r64 (v2 * r64 (p' * q))) in *. set (t3 := r64 (v3 * r64 (p * q'))) in *. set (t4 := r64 (v4 * r64 (p * q))) in *.
  clearbody t1 t2 t3 t4.
  assert (Z : nadd (Some 0) (Some t1) = Some t1).
  { cbn [nadd SM F64_32 FN bind2]. rewrite Rplus_0_l, (fit_le t1 128) by first [lia|exact C1]. now rewrite (rd_id b64 t1 G1). }
  rewrite Z.
  assert (Ad : forall x y e, (128 <= e < 1000)%Z -> Rabs x <= bpow radix2 e -> Rabs y <= bpow radix2 128 ->
    nadd (Some x) (Some y) = Some (r64 (x + y)) /\ Rabs (r64 (x + y)) <= bpow radix2 (e + 1)).
  { intros x y e He Bx By. assert (Rabs (x + y) <= bpow radix2 (e + 1)).
    { eapply Rle_trans; [apply Rabs_triang|]. rewrite bpow_plus_1. change (IZR radix2) with 2. pose proof (bpow_le radix2 128 e ltac:(lia)). lra. }
    split; [apply (fit_le (x + y) (e + 1)); [lia|assumption]|]. apply (rd_bpow_le b64 good_b64); [cbn; lia|assumption]. }
  destruct (Ad t1 t2 128%Z ltac:(lia) C1 C2) as (-> & D2). destruct (Ad _ t3 129%Z ltac:(lia) D2 C3) as (-> & D3). destruct (Ad _ t4 130%Z ltac:(lia) D3 C4) as (-> & _).
  reflexivity.
Qed.

(** the normalized distance is a weight *)
Lemma dist_unit a b y : fl b64 a -> fl b64 b -> fl b64 y -> a < b -> a <= y <= b -> Rabs a <= bpow radix2 1000 -> Rabs b <= bpow radix2 1000 ->
  exists p, ndiv (nsub (Some y) (Some a)) (nsub (Some b) (Some a)) = Some p /\ gf64 p /\ 0 <= p <= 1.
Proof.
  intros Fa Fb Fy L Hy Ba Bb. destruct (step_fl m a b Fa Fb L Ba Bb) as (w & Ew & W & [Fw _]).
  assert (By : Rabs (y - a) <= bpow radix2 1001).
  { change 1001%Z with (1000 + 1)%Z. rewrite bpow_plus_1. change (IZR radix2) with 2. apply Rle_trans with (Rabs b + Rabs a); [|lra].
    rewrite Rabs_pos_eq by lra. pose proof (Rle_abs b). pose proof (Rle_abs (- a)) as X. rewrite Rabs_Ropp in X. lra. }
  assert (Ey : nsub (Some y) (Some a) = Some (r64 (y - a))) by (apply (fit_le (y - a) 1001); [lia|exact By]).
  assert (Ew' : w = r64 (b - a)).
  { assert (E : fit b64 (b - a) = Some (r64 (b - a))).
    { apply (fit_le (b - a) 1001); [lia|]. change 1001%Z with (1000 + 1)%Z. rewrite bpow_plus_1. change (IZR radix2) with 2.
      apply Rle_trans with (Rabs b + Rabs a); [|lra].
      rewrite Rabs_pos_eq by lra. pose proof (Rle_abs b). pose proof (Rle_abs (- a)) as X. rewrite Rabs_Ropp in X. lra. }
    change (fit b64 (b - a) = Some w) in Ew. rewrite E in Ew. now injection Ew. }
  assert (Yw : 0 <= r64 (y - a) <= w).
  { split; [apply (rd_ge_gf b64 good_b64); [apply gf64_0|lra]|]. rewrite Ew'. apply (rd_le b64 good_b64). lra. }
  set (z := r64 (y - a)) in *. assert (U : 0 <= z / w <= 1).
  { assert (0 < / w) by (apply Rinv_0_lt_compat; lra). split; [apply Rmult_le_pos; lra|]. rewrite <- (Rinv_r w) by lra. apply Rmult_le_compat_r; lra. }
  exists (r64 (z / w)). split; [|split; [apply (rd_gf b64 good_b64)|now apply r64_unit]].
  rewrite Ey. change (nsub (Some b) (Some a)) with (@nsub _ (DM m) (Some b) (Some a)). rewrite Ew. cbn [ndiv SM F64_32 FN bind2].
  destruct (Req_EM_T w 0); [lra|]. now apply fit_unit.
Qed.
End M.
