(** IEEE 754 arithmetic as an instance of [NumOps]: every operation is the exact one, rounded to
    nearest even in the format of the operation (Flocq's [round] and [FLT_exp]). [None] stands for
    a result that is not a finite number (overflow, 0/0, acos of 1.2, missing data).
    The sign of zero is not represented. *)
From Coq Require Import ZArith Lia Bool Reals Lra.
From Flocq.Core Require Import Core.
From Flocq.Prop Require Import Relative.
From Verif Require Import Base Num.
Open Scope R_scope.

(** a binary format: precision, exponent of the smallest number, exponent of the overflow threshold *)
Record format := { fprec : Z; femin : Z; femax : Z }.
Definition b64 : format := {| fprec := 53; femin := -1074; femax := 1024 |}.
Definition b32 : format := {| fprec := 24; femin := -149; femax := 128 |}.

(** rounding to nearest, ties to even *)
Definition rd (f : format) (x : R) : R := round radix2 (FLT_exp (femin f) (fprec f)) ZnearestE x.
(** ... and overflow *)
Definition fit (f : format) (x : R) : option R :=
  if Rlt_dec (Rabs (rd f x)) (bpow radix2 (femax f)) then Some (rd f x) else None.
(** the finite numbers of the format *)
Definition fl (f : format) (x : R) : Prop :=
  generic_format radix2 (FLT_exp (femin f) (fprec f)) x /\ Rabs x < bpow radix2 (femax f).

(** what the mathematical library computes, before the final rounding to the format *)
Record libm := { m_cos : R -> R; m_sin : R -> R; m_acos : R -> R; m_asin : R -> R }.

Definition bind1 (g : R -> option R) (x : option R) : option R :=
  match x with Some a => g a | None => None end.
Definition bind2 (g : R -> R -> option R) (x y : option R) : option R :=
  match x, y with Some a, Some b => g a b | _, _ => None end.

(** M_PI of math.h, NPY_PI of numpy (as double, as float) *)
Definition pi64 : R := 884279719003555 / 281474976710656.
Definition pi32 : R := 13176795 / 4194304.

(** Operations in format [f], values stored in format [s], constant pi [c]. *)
Definition FN (f s : format) (c : R) (m : libm) : NumOps (option R) := {|
  nz := fun z => fit f (IZR z);
  nadd := bind2 (fun a b => fit f (a + b));
  nsub := bind2 (fun a b => fit f (a - b));
  nmul := bind2 (fun a b => fit f (a * b));
  ndiv := bind2 (fun a b => if Req_EM_T b 0 then None else fit f (a / b));
  nsqrt := bind1 (fun a => if Rlt_dec a 0 then None else fit f (sqrt a));
  ncos := bind1 (fun a => fit f (m_cos m a));
  nsin := bind1 (fun a => fit f (m_sin m a));
  nacos := bind1 (fun a => if Rle_dec (Rabs a) 1 then fit f (m_acos m a) else None);
  nasin := bind1 (fun a => if Rle_dec (Rabs a) 1 then fit f (m_asin m a) else None);
  npi := Some c;
  nltb := liftb Rltb; nleb := liftb Rleb; neqb := liftb Reqb;
  ntrunc := fun x => match x with Some a => to_int (Rtrunc a) | None => int_min end;
  nfloor := fun x => match x with Some a => Rfloor a | None => 0%Z end;
  nst := bind1 (fit s) |}.

(** double arrays; float arrays in compiled code (computing in double, storing in float);
    float arrays in numpy (computing in float) *)
Definition F64 (m : libm) := FN b64 b64 pi64 m.
Definition F64_32 (m : libm) := FN b64 b32 pi64 m.
Definition F32 (m : libm) := FN b32 b32 pi32 m.

(** ** Rounding *)
#[local] Instance prec_pos (f : format) (H : (0 < fprec f)%Z) : Prec_gt_0 (fprec f) := H.

Definition good (f : format) : Prop := (1 < fprec f)%Z /\ (femin f <= - 2 * fprec f)%Z /\ (2 * fprec f <= femax f)%Z.
Lemma good_b64 : good b64. Proof. repeat split; cbn; lia. Qed.
Lemma good_b32 : good b32. Proof. repeat split; cbn; lia. Qed.

Section Rounding.
Variable f : format.
Hypothesis G : good f.
Let Hp : Prec_gt_0 (fprec f). Proof. destruct G as [A _]. red. lia. Qed.
Local Existing Instance Hp.
Notation fexp := (FLT_exp (femin f) (fprec f)).
Notation gf := (generic_format radix2 fexp).

Lemma rd_le x y : x <= y -> rd f x <= rd f y.
Proof. intros. unfold rd. apply round_le; auto with typeclass_instances. Qed.
Lemma rd_gf x : gf (rd f x).
Proof. unfold rd. apply generic_format_round; auto with typeclass_instances. Qed.
Lemma rd_id x : gf x -> rd f x = x.
Proof. intros. unfold rd. apply round_generic; auto with typeclass_instances. Qed.
Lemma rd_le_gf x y : gf y -> x <= y -> rd f x <= y.
Proof. intros H L. rewrite <- (rd_id y H). now apply rd_le. Qed.
Lemma rd_ge_gf x y : gf x -> x <= y -> x <= rd f y.
Proof. intros H L. rewrite <- (rd_id x H). now apply rd_le. Qed.
Lemma rd_opp x : rd f (- x) = - rd f x.
Proof. unfold rd. apply round_NE_opp. Qed.
Lemma rd_abs x : Rabs (rd f x) = rd f (Rabs x).
Proof.
  unfold Rabs at 2. destruct (Rcase_abs x) as [H|H].
  - rewrite rd_opp. apply Rabs_left1. apply rd_le_gf; [apply generic_format_0|lra].
  - apply Rabs_right, Rle_ge. apply rd_ge_gf; [apply generic_format_0|lra].
Qed.
Lemma rd_0 : rd f 0 = 0.
Proof. apply rd_id, generic_format_0. Qed.
Lemma gf_opp x : gf x -> gf (- x).
Proof. apply generic_format_opp. Qed.
Lemma gf_abs x : gf x -> gf (Rabs x).
Proof. apply generic_format_abs. Qed.
(** integers and dyadic numbers with few bits *)
Lemma gf_dyadic m e : (Z.abs m < 2 ^ fprec f)%Z -> (femin f <= e)%Z -> gf (IZR m * bpow radix2 e).
Proof.
  intros H1 H2. apply generic_format_FLT. exists (Float radix2 m e); auto.
Qed.
Lemma gf_IZR m : (Z.abs m < 2 ^ fprec f)%Z -> gf (IZR m).
Proof.
  intros H. replace (IZR m) with (IZR m * bpow radix2 0) by (cbn; ring). apply gf_dyadic; auto.
  destruct G as (A & B & _). lia.
Qed.
Lemma gf_bpow e : (femin f <= e)%Z -> gf (bpow radix2 e).
Proof.
  intros H. replace (bpow radix2 e) with (IZR 1 * bpow radix2 e) by ring. apply gf_dyadic; auto.
  destruct G as (A & _). apply Z.pow_gt_1; lia.
Qed.
Lemma rd_bpow_le x e : (femin f <= e)%Z -> Rabs x <= bpow radix2 e -> Rabs (rd f x) <= bpow radix2 e.
Proof. intros H L. rewrite rd_abs. apply rd_le_gf; auto. now apply gf_bpow. Qed.

Lemma fit_some x e : (femin f <= e < femax f)%Z -> Rabs x <= bpow radix2 e -> fit f x = Some (rd f x).
Proof.
  intros H L. unfold fit. destruct (Rlt_dec _ _) as [D|D]; [reflexivity|]. exfalso. apply D.
  eapply Rle_lt_trans; [apply rd_bpow_le; [|exact L]; lia|]. apply bpow_lt. lia.
Qed.
Lemma fit_fl x : fl f x -> fit f x = Some x.
Proof. intros [A B]. unfold fit. rewrite rd_id by assumption. destruct (Rlt_dec _ _); [reflexivity|contradiction]. Qed.
Lemma fit_inv x y : fit f x = Some y -> y = rd f x /\ fl f y.
Proof.
  unfold fit. destruct (Rlt_dec _ _); [|discriminate]. intros [= <-]. split; [reflexivity|]. split; [apply rd_gf|assumption].
Qed.

(** relative error *)
Definition ulp1 : R := bpow radix2 (- fprec f).
Lemma rd_rel x : bpow radix2 (femin f + fprec f - 1) <= Rabs x -> Rabs (rd f x - x) <= ulp1 * Rabs x.
Proof.
  intros H. unfold rd, ulp1.
  pose proof (relative_error_N_FLT radix2 (femin f) (fprec f) Hp (fun x => negb (Z.even x)) x H) as E.
  replace (/ 2 * bpow radix2 (- fprec f + 1)) with (bpow radix2 (- fprec f)) in E; [exact E|].
  rewrite bpow_plus. cbn. field.
Qed.
(** The square root of a square does not round below the number: this is what keeps the
    arguments of acos within [-1, 1]. [e0] is such that the square does not underflow. *)
Lemma sqrt_sqr_ge x e0 : gf x -> (femin f + fprec f - 1 <= 2 * e0)%Z -> bpow radix2 e0 <= x ->
  x <= rd f (sqrt (rd f (x * x))).
Proof.
  intros Fx He0 Hx. pose proof (bpow_gt_0 radix2 e0) as Hpos.
  destruct G as (Gp & Ge & _).
  pose proof (mag_gt_bpow radix2 x e0) as Hm. rewrite Rabs_pos_eq in Hm by lra. specialize (Hm Hx).
  set (e := mag radix2 x : Z) in *.
  assert (Hlo : bpow radix2 (e - 1) <= x).
  { pose proof (bpow_mag_le radix2 x) as H. rewrite Rabs_pos_eq in H by lra. apply H. lra. }
  assert (Hhi : x < bpow radix2 e).
  { pose proof (bpow_mag_gt radix2 x) as H. rewrite Rabs_pos_eq in H by lra. exact H. }
  destruct (Req_EM_T x (bpow radix2 (e - 1))) as [E|NE].
  { assert (Fs : gf (x * x)).
    { rewrite E, <- bpow_plus. apply gf_bpow. lia. }
    rewrite (rd_id _ Fs), sqrt_square, rd_id by (auto; lra). lra. }
  assert (Hulp : ulp radix2 fexp x = bpow radix2 (e - fprec f)).
  { rewrite ulp_neq_0 by lra. f_equal. unfold cexp, FLT_exp. fold e. lia. }
  apply round_N_ge_midp; auto with typeclass_instances.
  rewrite pred_eq_pos by lra. unfold pred_pos. fold e.
  destruct (Req_bool_spec x (bpow radix2 (e - 1))) as [E|_]; [contradiction|]. rewrite Hulp.
  pose proof (id_p_ulp_le_bpow radix2 fexp x e) as Hb. rewrite Hulp in Hb.
  assert (Hb' : x + bpow radix2 (e - fprec f) <= bpow radix2 e) by (apply Hb; auto; lra). clear Hb.
  pose proof (bpow_gt_0 radix2 e) as HB. set (B := bpow radix2 e) in *.
  pose proof (bpow_gt_0 radix2 (- fprec f)) as Hu. set (u := bpow radix2 (- fprec f)) in *.
  assert (Ehalf : bpow radix2 (e - 1) = B / 2).
  { unfold B, Z.sub. rewrite bpow_plus. cbn. field. }
  assert (Eulp : bpow radix2 (e - fprec f) = B * u).
  { unfold B, u, Z.sub. now rewrite bpow_plus. }
  rewrite Ehalf in Hlo. rewrite Eulp in *.
  assert (Ha : x * x - u * (x * x) <= rd f (x * x)).
  { pose proof (rd_rel (x * x)) as H. unfold ulp1 in H. fold u in H. rewrite Rabs_pos_eq in H by nra.
    assert (H' : Rabs (rd f (x * x) - x * x) <= u * (x * x)).
    { apply H. eapply Rle_trans; [apply bpow_le, He0|]. replace (2 * e0)%Z with (e0 + e0)%Z by lia.
      rewrite bpow_plus. apply Rmult_le_compat; lra. }
    apply Rabs_le_inv in H'. lra. }
  assert (Hu1 : u <= 1 / 2).
  { unfold u. replace (1 / 2) with (bpow radix2 (-1)) by (cbn; field). apply bpow_le. lia. }
  replace ((x + (x - B * u)) / 2) with (x - B * u / 2) by field.
  assert (Hq : (x - B * u / 2) * (x - B * u / 2) < rd f (x * x)).
  { eapply Rlt_le_trans; [|exact Ha].
    assert (B * u * (B / 2) <= (B - x) * x) by (apply Rmult_le_compat; nra).
    assert (0 < B * u) by nra. nra. }
  assert (0 <= x - B * u / 2) by nra.
  rewrite <- (sqrt_square (x - B * u / 2)) by assumption. apply sqrt_lt_1_alt. split; [nra|exact Hq].
Qed.

(** the rounded value of [x], given as mantissa [m] and exponent *)
Lemma rd_eq x e m : bpow radix2 (e - 1) <= x < bpow radix2 e -> (femin f <= e - fprec f)%Z ->
  Rabs (x * bpow radix2 (fprec f - e) - IZR m) < / 2 -> rd f x = IZR m * bpow radix2 (e - fprec f).
Proof.
  intros H He Hm. unfold rd, round, F2R, scaled_mantissa, cexp. cbn [Fnum Fexp].
  rewrite (mag_unique_pos radix2 x e H).
  replace (fexp e) with (e - fprec f)%Z by (unfold FLT_exp; lia).
  replace (- (e - fprec f))%Z with (fprec f - e)%Z by lia. now rewrite (Znearest_imp _ _ m).
Qed.

(** the computed norm of a vector is not below its components *)
Definition norm2 (x y : R) : R := rd f (sqrt (rd f (rd f (x * x) + rd f (y * y)))).
Lemma norm2_ge_l x y e0 : gf x -> (femin f + fprec f - 1 <= 2 * e0)%Z -> bpow radix2 e0 <= Rabs x ->
  Rabs x <= norm2 x y.
Proof.
  intros Fx H0 Hx. eapply Rle_trans; [apply (sqrt_sqr_ge (Rabs x) e0); auto; now apply gf_abs|].
  unfold norm2. apply rd_le, sqrt_le_1_alt. rewrite <- Rabs_mult, Rabs_pos_eq by nra.
  assert (0 <= rd f (y * y)) by (apply rd_ge_gf; [apply generic_format_0|nra]).
  apply rd_ge_gf; [apply rd_gf|lra].
Qed.
Lemma norm2_sym x y : norm2 x y = norm2 y x.
Proof. unfold norm2. now rewrite Rplus_comm. Qed.
Lemma norm2_ge x y e0 : gf x -> gf y -> (femin f + fprec f - 1 <= 2 * e0)%Z ->
  bpow radix2 e0 <= Rabs x \/ bpow radix2 e0 <= Rabs y -> Rabs x <= norm2 x y /\ Rabs y <= norm2 x y /\ 0 < norm2 x y.
Proof.
  intros Fx Fy H0 H. pose proof (bpow_gt_0 radix2 e0) as Hpos.
  destruct (Rle_lt_dec (bpow radix2 e0) (Rabs x)) as [Hx|Hx]; destruct (Rle_lt_dec (bpow radix2 e0) (Rabs y)) as [Hy|Hy].
  - pose proof (norm2_ge_l x y e0 Fx H0 Hx). pose proof (norm2_ge_l y x e0 Fy H0 Hy). rewrite norm2_sym in H2. lra.
  - pose proof (norm2_ge_l x y e0 Fx H0 Hx). lra.
  - pose proof (norm2_ge_l y x e0 Fy H0 Hy) as K. rewrite norm2_sym in K. lra.
  - lra.
Qed.
Lemma quotient_le_1 x s : 0 < s -> Rabs x <= s -> Rabs (rd f (x / s)) <= 1.
Proof.
  intros Hs H. rewrite rd_abs. apply rd_le_gf.
  - apply (gf_IZR 1). destruct G as (A & _). apply Z.pow_gt_1; lia.
  - unfold Rdiv. rewrite Rabs_mult, Rabs_inv, (Rabs_pos_eq s) by lra. apply (Rmult_le_reg_r s); [lra|].
    rewrite Rmult_assoc, Rinv_l by lra. lra.
Qed.
End Rounding.
