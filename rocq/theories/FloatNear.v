(** Forward error analysis in IEEE arithmetic: [near f x t e] says that [x] is a number of the format
    [f] within [e] of [t]. One lemma per operation. *)
From Coq Require Import ZArith Lia Bool Reals Lra.
From Flocq.Core Require Import Core.
From Verif Require Import Base Num Geo Float FloatGeo FloatAcc FloatTrip Modis.
Open Scope R_scope.

Definition near (f : format) (x : option R) (t e : R) : Prop :=
  exists v, x = Some v /\ fl f v /\ Rabs (v - t) <= e.

Lemma near_weaken f x t e e' : e <= e' -> near f x t e -> near f x t e'.
Proof. intros H (v & -> & F & E). exists v. repeat split; try apply F. lra. Qed.
Lemma near_move f x t t' e e' : Rabs (t - t') + e <= e' -> near f x t e -> near f x t' e'.
Proof.
  intros H (v & -> & F & E). exists v. repeat split; try apply F.
  eapply Rle_trans; [apply (abs_step _ t _ e (Rabs (t - t'))); auto; lra|]. lra.
Qed.
Lemma near_0 f v : fl f v -> near f (Some v) v 0.
Proof. intros F. exists v. split; [reflexivity|]. split; [exact F|]. rewrite Rminus_diag_eq, Rabs_R0 by reflexivity. lra. Qed.
Lemma near_pos f x t e : near f x t e -> 0 <= e.
Proof. intros (v & _ & _ & E). pose proof (Rabs_pos (v - t)). lra. Qed.

Lemma b32_b64 v : fl b32 v -> fl b64 v.
Proof.
  intros [F B]. split.
  - eapply generic_inclusion_mag; [|exact F]. intros _. unfold FLT_exp. cbn. lia.
  - eapply Rlt_trans; [exact B|]. apply bpow_lt. cbn. lia.
Qed.
Lemma near_32_64 x t e : near b32 x t e -> near b64 x t e.
Proof. intros (v & -> & F & E). exists v. split; [reflexivity|]. split; [now apply b32_b64|exact E]. Qed.

Definition big : R := 1000000000.
Definition eps (f : format) : R := bpow radix2 (- fprec f) * (1 + / 1000).
Lemma eps_64 : 0 < eps b64 <= 12 / 100000000000000000.
Proof.
  unfold eps. cbn [fprec b64]. rewrite bpow_Zn by lia. change (2 ^ (- - (53)))%Z with 9007199254740992%Z. lra.
Qed.
Lemma eps_32 : 0 < eps b32 <= 5967 / 100000000000.
Proof. unfold eps. cbn [fprec b32]. rewrite bpow_Zn by lia. change (2 ^ (- - (24)))%Z with 16777216%Z. lra. Qed.

Section Ops.
Variable f : format.
Hypothesis Ff : fine f.

Lemma eps_pos : 0 < eps f.
Proof. unfold eps. pose proof (bpow_gt_0 radix2 (- fprec f)). lra. Qed.

(** one rounding; [M] bounds the exact value and is not tiny *)
Lemma near_fit t M : Rabs t <= M -> / big <= M <= big -> near f (fit f t) t (eps f * M).
Proof.
  intros H HM. unfold big in *. pose proof (bpow_gt_0 radix2 (- fprec f)) as U0.
  assert (S : fit f t = Some (rd f t)).
  { apply (fit_some f (proj1 Ff) t 30).
    - destruct Ff as ((G1 & G2 & G3) & P & E & X). lia.
    - apply Rle_trans with 1000000000; [lra|]. bp. change (2 ^ 30)%Z with 1073741824%Z. lra. }
  exists (rd f t). split; [exact S|]. split; [apply (fit_inv f (proj1 Ff) _ _ S)|].
  eapply Rle_trans; [apply fine_err; auto|]. unfold eps.
  destruct (fine_u f Ff) as [U1 _].
  assert (T : bpow radix2 (-150) <= bpow radix2 (-53) * (/ 1000000000 * / 1000)).
  { change (-150)%Z with (-53 + -97)%Z. rewrite bpow_plus. apply Rmult_le_compat_l; [apply bpow_ge_0|].
    apply Rle_trans with (bpow radix2 (-40)); [apply bpow_le; lia|]. bp. change (2 ^ (- -40))%Z with 1099511627776%Z. lra. }
  set (u := bpow radix2 (- fprec f)) in *.
  assert (bpow radix2 (-53) * (/ 1000000000 * / 1000) <= u * (M * / 1000)).
  { apply Rmult_le_compat; try apply bpow_ge_0; lra. }
  assert (u * Rabs t <= u * M) by (apply Rmult_le_compat_l; lra). lra.
Qed.
Lemma near_round x t e M : (exists v, x = fit f v /\ Rabs (v - t) <= e) -> Rabs t + e <= M -> / big <= M <= big ->
  near f x t (e + eps f * M).
Proof.
  intros (v & -> & E) H HM.
  assert (B : Rabs v <= M).
  { replace v with ((v - t) + t) by ring. eapply Rle_trans; [apply Rabs_triang|]. lra. }
  destruct (near_fit v M B HM) as (w & -> & F & Ew). exists w. split; [reflexivity|]. split; [exact F|].
  eapply Rle_trans; [apply (abs_step _ v _ _ _ Ew E)|]. lra.
Qed.
End Ops.

Section Arith.
Variables (f s : format) (c : R) (m : libm).
Hypothesis Ff : fine f.
Hypothesis Fs : fine s.
Hypothesis Sub : forall v, fl s v -> fl f v.
Hypothesis Ha : accurate f m.
#[local] Instance FR : NumOps (option R) := FN f s c m.

Lemma near_add x y a b ea eb M : near f x a ea -> near f y b eb -> Rabs (a + b) + ea + eb <= M -> / big <= M <= big ->
  near f (nadd x y) (a + b) (ea + eb + eps f * M).
Proof.
  intros (v & -> & _ & Ev) (w & -> & _ & Ew) H HM. cbn [nadd FR FN bind2]. apply near_round; [exact Ff| |lra|exact HM].
  exists (v + w). split; [reflexivity|]. replace (v + w - (a + b)) with ((v - a) + (w - b)) by ring.
  eapply Rle_trans; [apply Rabs_triang|]. lra.
Qed.
Lemma near_sub x y a b ea eb M : near f x a ea -> near f y b eb -> Rabs (a - b) + ea + eb <= M -> / big <= M <= big ->
  near f (nsub x y) (a - b) (ea + eb + eps f * M).
Proof.
  intros (v & -> & _ & Ev) (w & -> & _ & Ew) H HM. cbn [nsub FR FN bind2]. apply near_round; [exact Ff| |lra|exact HM].
  exists (v - w). split; [reflexivity|]. replace (v - w - (a - b)) with ((v - a) - (w - b)) by ring.
  unfold Rminus at 1. eapply Rle_trans; [apply Rabs_triang|]. rewrite Rabs_Ropp. lra.
Qed.
Lemma mul_err v w a b ea eb A B : Rabs (v - a) <= ea -> Rabs (w - b) <= eb -> Rabs a <= A -> Rabs b <= B ->
  Rabs (v * w - a * b) <= A * eb + B * ea + ea * eb.
Proof.
  intros Ev Ew HA HB. replace (v * w - a * b) with (a * (w - b) + b * (v - a) + (v - a) * (w - b)) by ring.
  eapply Rle_trans; [apply Rabs_triang|]. eapply Rle_trans; [apply Rplus_le_compat_r, Rabs_triang|]. rewrite !Rabs_mult.
  pose proof (Rabs_pos a). pose proof (Rabs_pos b). pose proof (Rabs_pos (v - a)). pose proof (Rabs_pos (w - b)).
  assert (Rabs a * Rabs (w - b) <= A * eb) by (apply Rmult_le_compat; lra).
  assert (Rabs b * Rabs (v - a) <= B * ea) by (apply Rmult_le_compat; lra).
  assert (Rabs (v - a) * Rabs (w - b) <= ea * eb) by (apply Rmult_le_compat; lra). lra.
Qed.
Lemma near_mul x y a b ea eb A B M : near f x a ea -> near f y b eb -> Rabs a <= A -> Rabs b <= B ->
  A * B + (A * eb + B * ea + ea * eb) <= M -> / big <= M <= big ->
  near f (nmul x y) (a * b) (A * eb + B * ea + ea * eb + eps f * M).
Proof.
  intros (v & -> & _ & Ev) (w & -> & _ & Ew) HA HB H HM. cbn [nmul FR FN bind2]. apply near_round; [exact Ff| | |exact HM].
  - exists (v * w). split; [reflexivity|]. now apply mul_err.
  - rewrite Rabs_mult. pose proof (Rabs_pos a). pose proof (Rabs_pos b).
    assert (Rabs a * Rabs b <= A * B) by (apply Rmult_le_compat; lra). lra.
Qed.
Lemma near_div x y a b ea eb Q B M : near f x a ea -> near f y b eb -> Rabs (a / b) <= Q -> B <= Rabs b - eb -> 0 < B ->
  Q + (ea + Q * eb) / B <= M -> / big <= M <= big ->
  near f (ndiv x y) (a / b) ((ea + Q * eb) / B + eps f * M).
Proof.
  intros Hx Hy HQ HB B0 H HM. pose proof (near_pos _ _ _ _ Hx) as Pa. pose proof (near_pos _ _ _ _ Hy) as Pb.
  destruct Hx as (v & -> & _ & Ev), Hy as (w & -> & _ & Ew). cbn [ndiv FR FN bind2].
  assert (Bw : B <= Rabs w).
  { pose proof (Rabs_triang (b - w) w) as T. replace (b - w + w) with b in T by ring. rewrite (Rabs_minus_sym b w) in T. lra. }
  destruct (Req_EM_T w 0) as [Z|Nw]; [rewrite Z, Rabs_R0 in Bw; lra|].
  assert (Nb : b <> 0) by (intros Z; rewrite Z, Rabs_R0 in HB; lra).
  apply near_round; [exact Ff| |lra|exact HM]. exists (v / w). split; [reflexivity|].
  replace (v / w - a / b) with (((v - a) - a / b * (w - b)) / w) by (field; auto).
  unfold Rdiv at 1. rewrite Rabs_mult, Rabs_inv.
  assert (N : Rabs (v - a - a / b * (w - b)) <= ea + Q * eb).
  { unfold Rminus at 1. eapply Rle_trans; [apply Rabs_triang|]. rewrite Rabs_Ropp, Rabs_mult.
    assert (Rabs (a / b) * Rabs (w - b) <= Q * eb) by (apply Rmult_le_compat; auto using Rabs_pos). lra. }
  unfold Rdiv. apply Rmult_le_compat; [apply Rabs_pos|apply Rlt_le, Rinv_0_lt_compat; lra|exact N|].
  apply Rinv_le_contravar; lra.
Qed.
(** square root of a number of at least B * B *)
Lemma near_sqrt x a e B M : near f x a e -> 0 < B -> B * B <= a -> e <= a -> sqrt a + e / B <= M -> / big <= M <= big ->
  near f (nsqrt x) (sqrt a) (e / B + eps f * M).
Proof.
  intros (v & -> & _ & Ev) B0 HB He H HM. cbn [nsqrt FR FN bind1].
  assert (V0 : 0 <= v) by (apply Rabs_le_inv in Ev; lra).
  destruct (Rlt_dec v 0) as [L|_]; [lra|].
  apply near_round; [exact Ff| |rewrite (Rabs_pos_eq (sqrt a)) by apply sqrt_pos; lra|exact HM].
  exists (sqrt v). split; [reflexivity|].
  assert (SB : B <= sqrt a) by (rewrite <- (sqrt_square B) by lra; apply sqrt_le_1_alt; exact HB).
  pose proof (sqrt_pos v) as Pv. pose proof (sqrt_sqrt v V0) as Qv. pose proof (sqrt_sqrt a ltac:(nra)) as Qa.
  assert (E : (sqrt v - sqrt a) * (sqrt v + sqrt a) = v - a) by (transitivity (sqrt v * sqrt v - sqrt a * sqrt a); [ring|lra]).
  assert (Es : Rabs (sqrt v - sqrt a) * (sqrt v + sqrt a) = Rabs (v - a)).
  { rewrite <- E, Rabs_mult, (Rabs_pos_eq (sqrt v + sqrt a)) by lra. reflexivity. }
  apply (Rmult_le_reg_r B); [exact B0|]. unfold Rdiv. rewrite Rmult_assoc, Rinv_l, Rmult_1_r by lra.
  apply Rle_trans with (Rabs (sqrt v - sqrt a) * (sqrt v + sqrt a)); [apply Rmult_le_compat_l; [apply Rabs_pos|lra]|]. lra.
Qed.

Lemma lib_abs v w : Rabs (w - v) <= 2 * bpow radix2 (- fprec f) * Rabs v + bpow radix2 (-140) -> Rabs v <= 1 -> Rabs (w - v) <= 2 * eps f.
Proof.
  intros H H1. unfold eps. pose proof (Rabs_pos v). destruct (fine_u f Ff) as [U1 _].
  assert (T : bpow radix2 (-140) <= bpow radix2 (-53) * (/ 1000)).
  { change (-140)%Z with (-53 + -87)%Z. rewrite bpow_plus. apply Rmult_le_compat_l; [apply bpow_ge_0|].
    apply Rle_trans with (bpow radix2 (-10)); [apply bpow_le; lia|]. bp. change (2 ^ (- -10))%Z with 1024%Z. lra. }
  pose proof (bpow_gt_0 radix2 (- fprec f)). assert (2 * bpow radix2 (- fprec f) * Rabs v <= 2 * bpow radix2 (- fprec f) * 1) by (apply Rmult_le_compat_l; lra).
  lra.
Qed.
Lemma sin_lip x y : Rabs (sin x - sin y) <= Rabs (x - y).
Proof.
  rewrite form4. rewrite !Rabs_mult, (Rabs_pos_eq 2) by lra.
  assert (C : Rabs (cos ((x + y) / 2)) <= 1) by (apply Rabs_le; apply COS_bound).
  assert (S : Rabs (sin ((x - y) / 2)) <= Rabs ((x - y) / 2)).
  { generalize ((x - y) / 2). intros t. unfold Rabs at 2. destruct (Rcase_abs t) as [L|L].
    - rewrite <- (Ropp_involutive t) at 1. rewrite sin_neg, Rabs_Ropp.
      destruct (Rle_dec (- t) 1) as [L1|L1]; [|apply Rle_trans with 1; [apply Rabs_le; pose proof (SIN_bound (- t)); lra|lra]].
      pose proof PI2_1. rewrite Rabs_pos_eq by (apply sin_ge_0; lra). apply Rlt_le, sin_lt_x. lra.
    - destruct (Req_dec t 0) as [->|N]; [rewrite sin_0, Rabs_R0; lra|].
      destruct (Rle_dec t 1) as [L1|L1]; [|apply Rle_trans with 1; [apply Rabs_le; pose proof (SIN_bound t); lra|lra]].
      pose proof PI2_1. rewrite Rabs_pos_eq by (apply sin_ge_0; lra). apply Rlt_le, sin_lt_x. lra. }
  unfold Rdiv in S at 2. rewrite Rabs_mult, (Rabs_pos_eq (/ 2)) in S by lra.
  pose proof (Rabs_pos (cos ((x + y) / 2))). pose proof (Rabs_pos (sin ((x - y) / 2))). pose proof (Rabs_pos (x - y)).
  assert (2 * Rabs (cos ((x + y) / 2)) * Rabs (sin ((x - y) / 2)) <= 2 * 1 * (Rabs (x - y) * / 2)) by (apply Rmult_le_compat; lra).
  lra.
Qed.
Lemma cos_lip x y : Rabs (cos x - cos y) <= Rabs (x - y).
Proof.
  rewrite <- !sin_shift. eapply Rle_trans; [apply sin_lip|]. replace (PI / 2 - x - (PI / 2 - y)) with (- (x - y)) by ring.
  rewrite Rabs_Ropp. lra.
Qed.

Lemma near_lib (g : R -> option R) w v e : g w = fit f v -> Rabs (rd f v - e) <= 1 -> Rabs e <= 2 -> g w = Some (rd f v) /\ fl f (rd f v).
Proof.
  intros E H H2. assert (B : Rabs (rd f v) <= 4).
  { replace (rd f v) with ((rd f v - e) + e) by ring. eapply Rle_trans; [apply Rabs_triang|]. lra. }
  pose proof (fit_rd f v (proj1 Ff) B) as S. rewrite E, S. split; [reflexivity|]. apply (fit_inv f (proj1 Ff) _ _ S).
Qed.
Lemma eps_small : eps f <= / 1000000.
Proof. unfold eps. destruct (fine_u f Ff) as [_ U]. lra. Qed.
Lemma near_sin x a e : near f x a e -> Rabs a + e <= 4 -> near f (nsin x) (sin a) (e + 2 * eps f).
Proof.
  intros (v & -> & F & Ev) H. cbn [nsin FR FN bind1].
  assert (B : Rabs v <= 4).
  { replace v with ((v - a) + a) by ring. eapply Rle_trans; [apply Rabs_triang|]. lra. }
  destruct Ha as (_ & As & _). pose proof (lib_abs (sin v) (rd f (m_sin m v)) (As v F B) ltac:(apply Rabs_le, SIN_bound)) as L.
  pose proof eps_small. destruct (near_lib (fun w => fit f (m_sin m w)) v _ (sin v) eq_refl) as [E1 F1]; [lra|apply Rabs_le; pose proof (SIN_bound v); lra|].
  exists (rd f (m_sin m v)). split; [exact E1|]. split; [exact F1|].
  eapply Rle_trans; [apply (abs_step _ (sin v) _ _ _ L (sin_lip v a))|]. lra.
Qed.
Lemma near_cos x a e : near f x a e -> Rabs a + e <= 4 -> near f (ncos x) (cos a) (e + 2 * eps f).
Proof.
  intros (v & -> & F & Ev) H. cbn [ncos FR FN bind1].
  assert (B : Rabs v <= 4).
  { replace v with ((v - a) + a) by ring. eapply Rle_trans; [apply Rabs_triang|]. lra. }
  destruct Ha as (Ac & _). pose proof (lib_abs (cos v) (rd f (m_cos m v)) (Ac v F B) ltac:(apply Rabs_le, COS_bound)) as L.
  pose proof eps_small. destruct (near_lib (fun w => fit f (m_cos m w)) v _ (cos v) eq_refl) as [E1 F1]; [lra|apply Rabs_le; pose proof (COS_bound v); lra|].
  exists (rd f (m_cos m v)). split; [exact E1|]. split; [exact F1|].
  eapply Rle_trans; [apply (abs_step _ (cos v) _ _ _ L (cos_lip v a))|]. lra.
Qed.
(** arc sine, [w] bounding the cosine from below *)
Lemma near_asin x q e w : near f x q e -> 0 < w -> (Rabs q + e) * (Rabs q + e) <= 1 - w * w ->
  near f (nasin x) (asin q) (PI / (2 * w) * e + 8 * eps f).
Proof.
  intros (v & -> & F & Ev) Hw H. pose proof (Rabs_pos q) as Q0. pose proof (Rabs_pos (v - q)) as V0.
  assert (Bv : Rabs v <= Rabs q + e).
  { replace v with ((v - q) + q) at 1 by ring. eapply Rle_trans; [apply Rabs_triang|]. lra. }
  assert (Vv : v * v <= 1 - w * w).
  { replace (v * v) with (Rabs v * Rabs v) by (rewrite <- Rabs_mult; apply Rabs_pos_eq; nra). pose proof (Rabs_pos v).
    apply Rle_trans with ((Rabs q + e) * (Rabs q + e)); [apply Rmult_le_compat; lra|exact H]. }
  assert (Qq : q * q <= 1 - w * w).
  { replace (q * q) with (Rabs q * Rabs q) by (rewrite <- Rabs_mult; apply Rabs_pos_eq; nra).
    apply Rle_trans with ((Rabs q + e) * (Rabs q + e)); [apply Rmult_le_compat; lra|exact H]. }
  assert (B1 : -1 <= v <= 1) by nra. assert (B2 : -1 <= q <= 1) by nra.
  cbn [nasin FR FN bind1]. destruct (Rle_dec (Rabs v) 1) as [_|N]; [|exfalso; apply N, Rabs_le; lra].
  destruct Ha as (_ & _ & _ & As). pose proof (As v F B1) as L. pose proof eps_small as ES. pose proof (asin_bound v) as AB. pose proof PI_b as P.
  assert (L8 : Rabs (rd f (m_asin m v) - asin v) <= 8 * eps f).
  { eapply Rle_trans; [exact L|]. unfold eps. pose proof (bpow_gt_0 radix2 (- fprec f)). lra. }
  destruct (near_lib (fun w => fit f (m_asin m w)) v _ (asin v) eq_refl) as [E1 F1]; [lra|apply Rabs_le; lra|].
  exists (rd f (m_asin m v)). split; [exact E1|]. split; [exact F1|].
  eapply Rle_trans; [apply (abs_step _ (asin v) _ _ (PI / (2 * w) * e) L8)|lra].
  rewrite !asin_acos by assumption. replace (PI / 2 - acos v - (PI / 2 - acos q)) with (- (acos v - acos q)) by ring. rewrite Rabs_Ropp.
  eapply Rle_trans; [apply (acos_lip w); auto|]. apply Rmult_le_compat_l; [|exact Ev].
  unfold Rdiv. apply Rmult_le_pos; [lra|]. apply Rlt_le, Rinv_0_lt_compat. lra.
Qed.
Lemma near_nz z : (Z.abs z < 2 ^ 24)%Z -> near f (nz z) (IZR z) 0.
Proof.
  intros H. cbn [nz FR FN]. destruct Ff as (G & P & _). rewrite fit_IZR by (auto; lia). apply near_0.
  pose proof (fit_IZR f z G ltac:(lia) H) as E. apply (fit_inv f G _ _ E).
Qed.
(** storing *)
Lemma near_st x t e M : near f x t e -> Rabs t + e <= M -> / big <= M <= big -> near s (nst x) t (e + eps s * M).
Proof.
  intros (v & -> & _ & Ev) H HM. cbn [nst FR FN bind1]. apply near_round; [exact Fs| |lra|exact HM]. exists v. auto.
Qed.
Lemma near_sf x t e : near s x t e -> near f x t e.
Proof. intros (v & -> & F & E). exists v. auto. Qed.
End Arith.

(** ** Compiled code on float arrays: float operations *)
Definition h : R := 6 / 100000000.
Definition usual (M : R) : Prop := / 1000000 <= M <= 900000000.
Section Single.
Variable m : libm.
Hypothesis Ha : accurate b64 m.
#[local] Instance FS : NumOps (option R) := F64_32 m.
Notation nf := (near b32).
Notation nd := (near b64).

Lemma usual_big M : usual M -> / big <= M <= big.
Proof. unfold usual, big. lra. Qed.
(** rounding a double result to float *)
Lemma near_f32 x t e M : nd x t (e + eps b64 * M) -> Rabs t + e <= M -> usual M -> nf (nst x) t (e + h * M).
Proof.
  intros H B U. pose proof eps_64 as E6. pose proof eps_32 as E3. unfold usual in U.
  assert (T : eps b64 * M <= 12 / 100000000000000000 * M) by (apply Rmult_le_compat_r; lra).
  eapply near_weaken; [|apply (near_st b64 b32 pi64 m fine_32 x t _ (M * (1 + / 1000000)) H)]; [|nra|unfold big; lra].
  assert (eps b32 * (M * (1 + / 1000000)) <= 5967 / 100000000000 * (M * (1 + / 1000000))) by (apply Rmult_le_compat_r; lra).
  unfold h. lra.
Qed.
Lemma nf_add x y a b ea eb M : nf x a ea -> nf y b eb -> Rabs (a + b) + ea + eb <= M -> usual M -> nf (fadd x y) (a + b) (ea + eb + h * M).
Proof.
  intros Hx Hy H U. unfold fadd. apply near_f32; [|lra|exact U].
  apply (near_add b64 b32 pi64 m fine_64); auto using near_32_64, usual_big.
Qed.
Lemma nf_sub x y a b ea eb M : nf x a ea -> nf y b eb -> Rabs (a - b) + ea + eb <= M -> usual M -> nf (fsub x y) (a - b) (ea + eb + h * M).
Proof.
  intros Hx Hy H U. unfold fsub. apply near_f32; [|lra|exact U].
  apply (near_sub b64 b32 pi64 m fine_64); auto using near_32_64, usual_big.
Qed.
Lemma nf_mul x y a b ea eb A B M : nf x a ea -> nf y b eb -> Rabs a <= A -> Rabs b <= B ->
  A * B + (A * eb + B * ea + ea * eb) <= M -> usual M ->
  nf (fmul x y) (a * b) (A * eb + B * ea + ea * eb + h * M).
Proof.
  intros Hx Hy HA HB H U. unfold fmul. apply near_f32; [| |exact U].
  - apply (near_mul b64 b32 pi64 m fine_64) with (1 := near_32_64 _ _ _ Hx) (2 := near_32_64 _ _ _ Hy); auto using usual_big.
  - rewrite Rabs_mult. assert (Rabs a * Rabs b <= A * B) by (apply Rmult_le_compat; auto using Rabs_pos). lra.
Qed.
Lemma nf_div x y a b ea eb Q B M : nf x a ea -> nf y b eb -> Rabs (a / b) <= Q -> B <= Rabs b - eb -> 0 < B ->
  Q + (ea + Q * eb) / B <= M -> usual M ->
  nf (fdiv x y) (a / b) ((ea + Q * eb) / B + h * M).
Proof.
  intros Hx Hy HQ HB B0 H U. unfold fdiv. apply near_f32; [| |exact U].
  - apply (near_div b64 b32 pi64 m fine_64) with (1 := near_32_64 _ _ _ Hx) (2 := near_32_64 _ _ _ Hy); auto using usual_big.
  - lra.
Qed.
(** float constants *)
Lemma nf_nz z : (Z.abs z < 2 ^ 24)%Z -> nf (nz z) (IZR z) 0.
Proof.
  intros H. cbn [nz FS F64_32 FN]. rewrite fit_IZR by (auto using good_b64; cbn; lia). apply near_0.
  pose proof (fit_IZR b32 z good_b32 ltac:(cbn; lia) H) as E. apply (fit_inv b32 good_b32 _ _ E).
Qed.
End Single.
