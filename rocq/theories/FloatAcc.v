(** Rounding errors of the conversions between longitude/latitude and cartesian coordinates. *)
From Coq Require Import ZArith Lia Bool Reals Lra.
From Flocq.Core Require Import Core.
From Flocq.Prop Require Import Relative.
From Verif Require Import Base Num Geo GeoProofs Float PiBound FloatGeo.
Open Scope R_scope.

(** ** How much acos can amplify an error *)
Lemma sin_chord t : 0 <= t <= PI / 2 -> 2 / PI * t <= sin t.
Proof.
  intros H. pose proof PI_RGT_0 as P. destruct (Req_dec t 0) as [->|N]; [rewrite sin_0; lra|].
  destruct (Req_dec t (PI / 2)) as [->|N2]; [rewrite sin_PI2; right; field; lra|].
  destruct (Rle_dec (2 / PI * t) (sin t)) as [|L]; [assumption|exfalso].
  set (g := fun x => sin x - 2 / PI * x).
  assert (D : derivable g) by (unfold g; apply derivable_minus; [apply derivable_sin|apply derivable_mult; [apply derivable_const|apply derivable_id]]).
  (* mean value theorem on [0, t] and [t, PI/2] *)
  destruct (MVT_cor1 g 0 t D) as (c1 & E1 & H1); [lra|].
  destruct (MVT_cor1 g t (PI / 2) D) as (c2 & E2 & H2); [lra|].
  assert (Dg : forall x, derive_pt g x (D x) = cos x - 2 / PI).
  { intros x. apply derive_pt_eq_0. unfold g. replace (cos x - 2 / PI) with (cos x - (0 * x + 2 / PI * 1)) by ring.
    apply derivable_pt_lim_minus; [apply derivable_pt_lim_sin|]. apply (derivable_pt_lim_mult (fct_cte (2 / PI)) id); [apply derivable_pt_lim_const|apply derivable_pt_lim_id]. }
  rewrite Dg in E1, E2. unfold g in E1, E2. rewrite sin_0 in E1. rewrite sin_PI2 in E2.
  assert (Z : 2 / PI * (PI / 2) = 1) by (field; lra). rewrite Z in E2.
  assert (C : cos c2 < cos c1) by (apply cos_decreasing_1; lra).
  assert (cos c1 - 2 / PI < 0) by nra. assert (0 < cos c2 - 2 / PI) by nra. lra.
Qed.

Lemma acos_holder a b : -1 <= a <= 1 -> -1 <= b <= 1 -> Rabs (acos a - acos b) <= PI * sqrt (Rabs (a - b) / 2).
Proof.
  assert (K : forall a b, -1 <= a <= 1 -> -1 <= b <= 1 -> acos b <= acos a -> acos a - acos b <= PI * sqrt (Rabs (a - b) / 2)).
  { clear. intros a b Ha Hb L. pose proof PI_RGT_0 as P.
    pose proof (acos_bound a) as Ba. pose proof (acos_bound b) as Bb.
    set (s := (acos a + acos b) / 2). set (d := (acos a - acos b) / 2).
    assert (E : b - a = 2 * (sin s * sin d)).
    { rewrite <- (cos_acos a Ha), <- (cos_acos b Hb). replace (acos b) with (s - d) by (unfold s, d; field).
      replace (acos a) with (s + d) by (unfold s, d; field). rewrite cos_minus, cos_plus. ring. }
    assert (Hd : 0 <= d <= PI / 2) by (unfold d; lra).
    assert (S0 : 0 <= sin d) by (apply sin_ge_0; lra).
    assert (S1 : sin d <= sin s).
    { destruct (Rle_dec s (PI / 2)) as [L1|L1].
      - apply sin_incr_1; unfold s, d in *; lra.
      - rewrite <- (sin_PI_x s). apply sin_incr_1; unfold s, d in *; lra. }
    pose proof (sin_chord d Hd) as C.
    assert (Q : 0 <= 2 / PI * d) by (apply Rmult_le_pos; [apply Rlt_le, Rdiv_lt_0_compat; lra|lra]).
    assert (F : (2 / PI * d) * (2 / PI * d) <= Rabs (a - b) / 2).
    { rewrite Rabs_minus_sym, Rabs_pos_eq by nra. rewrite E. nra. }
    assert (G : 2 / PI * d <= sqrt (Rabs (a - b) / 2)).
    { rewrite <- (sqrt_square (2 / PI * d)) by assumption. now apply sqrt_le_1_alt. }
    replace (acos a - acos b) with (PI * (2 / PI * d)) by (unfold d; field; lra).
    apply Rmult_le_compat_l; lra. }
  intros Ha Hb. destruct (Rle_dec (acos b) (acos a)) as [L|L].
  - rewrite Rabs_pos_eq by lra. now apply K.
  - rewrite Rabs_minus_sym, Rabs_pos_eq by lra. rewrite (Rabs_minus_sym a b). apply K; auto. lra.
Qed.
Lemma asin_holder a b : -1 <= a <= 1 -> -1 <= b <= 1 -> Rabs (asin a - asin b) <= PI * sqrt (Rabs (a - b) / 2).
Proof.
  intros Ha Hb. rewrite !asin_acos by assumption. replace (PI / 2 - acos a - (PI / 2 - acos b)) with (- (acos a - acos b)) by ring.
  rewrite Rabs_Ropp. now apply acos_holder.
Qed.

(** ** Rounding *)
Section Acc.
Variable f : format.
Hypothesis G : good f.
Hypothesis P24 : (24 <= fprec f)%Z.
Notation u := (bpow radix2 (- fprec f)).
Notation gf := (generic_format radix2 (FLT_exp (femin f) (fprec f))).

Lemma u_pos : 0 < u. Proof. apply bpow_gt_0. Qed.
Lemma u_small : u <= / 16777216.
Proof.
  apply Rle_trans with (bpow radix2 (-24)); [apply bpow_le; lia|]. rewrite bpow_Zn by lia. change (2 ^ (- -24))%Z with 16777216%Z. lra.
Qed.
Lemma rd_err t : Rabs (rd f t - t) <= u * Rabs t + bpow radix2 (femin f) / 2.
Proof.
  destruct G as (G1 & G2 & G3).
  destruct (error_N_FLT radix2 (femin f) (fprec f) ltac:(lia) (fun x => negb (Z.even x)) t) as (eps & eta & H1 & H2 & _ & E).
  unfold rd. rewrite E. replace (t * (1 + eps) + eta - t) with (eps * t + eta) by ring.
  eapply Rle_trans; [apply Rabs_triang|]. rewrite Rabs_mult. apply Rplus_le_compat; [|lra].
  apply Rmult_le_compat_r; [apply Rabs_pos|]. eapply Rle_trans; [exact H1|]. rewrite bpow_plus. change (bpow radix2 1) with 2. lra.
Qed.
(** an absolute bound for numbers that are not larger than [z] *)
Lemma tiny_u : bpow radix2 (femin f) <= u * u.
Proof. destruct G as (G1 & G2 & G3). rewrite <- bpow_plus. apply bpow_le. lia. Qed.

Lemma sqrt_near s r e : 0 < r -> 0 <= s -> Rabs (s - r * r) <= e * (r * r) -> Rabs (sqrt s - r) <= e * r.
Proof.
  intros Hr Hs H. pose proof (sqrt_pos s) as Q. pose proof (sqrt_sqrt s Hs) as E.
  assert (F : (sqrt s - r) * (sqrt s + r) = s - r * r) by (rewrite <- E at 3; ring).
  rewrite <- F, Rabs_mult, (Rabs_pos_eq (sqrt s + r)) in H by lra.
  pose proof (Rabs_pos (sqrt s - r)) as A.
  destruct (Rle_dec (Rabs (sqrt s - r)) (e * r)) as [|N]; [assumption|exfalso]. nra.
Qed.

Lemma norm2_acc x y e0 : (femin f + fprec f - 1 <= 2 * e0)%Z -> bpow radix2 e0 <= Rabs x \/ bpow radix2 e0 <= Rabs y ->
  x * x + y * y <> 0 /\ Rabs (norm2 f x y - rho x y) <= 7 * u * rho x y.
Proof.
  intros He Ho. pose proof u_pos as U0. pose proof u_small as U1. pose proof (bpow_gt_0 radix2 e0) as B0.
  assert (Sx : forall t, t * t = Rabs t * Rabs t) by (intros t; rewrite <- Rabs_mult, Rabs_pos_eq; nra).
  assert (B : bpow radix2 e0 * bpow radix2 e0 <= x * x + y * y).
  { rewrite (Sx x), (Sx y). pose proof (Rabs_pos x). pose proof (Rabs_pos y). destruct Ho; nra. }
  assert (E : bpow radix2 (femin f) <= 2 * u * (x * x + y * y)).
  { eapply Rle_trans; [|apply Rmult_le_compat_l; [lra|exact B]]. rewrite <- bpow_plus.
    replace (2 * u) with (bpow radix2 (1 + - fprec f)) by (rewrite bpow_plus; cbn; ring).
    rewrite <- bpow_plus. apply bpow_le. lia. }
  assert (N0 : 0 < x * x + y * y) by (assert (0 < bpow radix2 e0 * bpow radix2 e0) by (now apply Rmult_lt_0_compat); lra). split; [lra|].
  assert (Rp : 0 < rho x y) by (apply rho_pos; lra). pose proof (rho_sq x y) as Rq.
  set (r := rho x y) in *. set (S0 := x * x + y * y) in *.
  pose proof (rd_err (x * x)) as Ax. pose proof (rd_err (y * y)) as Ay.
  rewrite (Rabs_pos_eq (x * x)) in Ax by nra. rewrite (Rabs_pos_eq (y * y)) in Ay by nra.
  set (a := rd f (x * x)) in *. set (b := rd f (y * y)) in *.
  assert (A0 : 0 <= a) by (apply rd_ge_gf; auto; [apply generic_format_0|nra]).
  assert (A1 : 0 <= b) by (apply rd_ge_gf; auto; [apply generic_format_0|nra]).
  assert (D1 : Rabs (a + b - S0) <= 3 * u * S0).
  { replace (a + b - S0) with ((a - x * x) + (b - y * y)) by (unfold S0; ring).
    eapply Rle_trans; [apply Rabs_triang|]. unfold S0 in *. lra. }
  pose proof (rd_err (a + b)) as As. rewrite (Rabs_pos_eq (a + b)) in As by lra.
  set (s := rd f (a + b)) in *. assert (A2 : 0 <= s) by (apply rd_ge_gf; auto; [apply generic_format_0|lra]).
  assert (D2 : Rabs (s - r * r) <= (5 + / 10) * u * (r * r)).
  { rewrite Rq. replace (s - S0) with ((s - (a + b)) + (a + b - S0)) by ring.
    eapply Rle_trans; [apply Rabs_triang|]. assert (a + b <= S0 + 3 * u * S0) by (apply Rabs_le_inv in D1; lra).
    assert (u * (a + b) <= u * S0 + 3 * (u * (u * S0))) by nra.
    assert (u * (u * S0) <= / 16777216 * (u * S0)) by (apply Rmult_le_compat_r; nra).
    nra. }
  pose proof (sqrt_near s r _ Rp A2 D2) as D3.
  pose proof (rd_err (sqrt s)) as An. rewrite (Rabs_pos_eq (sqrt s)) in An by apply sqrt_pos. fold s in An.
  unfold norm2. fold a b s. set (n := rd f (sqrt s)) in *.
  (* the underflow term *)
  assert (Em : bpow radix2 (femin f) / 2 <= / 10 * (u * r)).
  { assert (bpow radix2 e0 <= r).
    { destruct (Rle_dec (bpow radix2 e0) r) as [|N]; [assumption|exfalso]. apply Rnot_le_lt in N.
      assert (r * r < bpow radix2 e0 * bpow radix2 e0) by (apply Rmult_le_0_lt_compat; lra). lra. }
    apply Rle_trans with (/ 10 * (u * bpow radix2 e0)); [|apply Rmult_le_compat_l; [lra|apply Rmult_le_compat_l; lra]].
    rewrite <- bpow_plus. assert (bpow radix2 (femin f) <= bpow radix2 (- fprec f + e0 + -4)).
    - apply bpow_le. destruct G as (G1 & G2 & G3). lia.
    - rewrite (bpow_plus _ _ (-4)) in H0. change (bpow radix2 (-4)) with (/ 16) in H0. pose proof (bpow_gt_0 radix2 (- fprec f + e0)). lra. }
  replace (n - r) with ((n - sqrt s) + (sqrt s - r)) by ring. eapply Rle_trans; [apply Rabs_triang|].
  assert (sqrt s <= r + (5 + / 10) * u * r) by (apply Rabs_le_inv in D3; lra).
  assert (u * sqrt s <= u * r + (5 + / 10) * (u * (u * r))) by nra.
  assert (u * (u * r) <= / 16777216 * (u * r)) by (apply Rmult_le_compat_r; nra). nra.
Qed.

Lemma rd_err1 t z : Rabs t <= z -> 1 <= z -> Rabs (rd f t - t) <= (1 + / 1000) * u * z.
Proof.
  intros H Hz. eapply Rle_trans; [apply rd_err|]. pose proof tiny_u. pose proof u_pos. pose proof u_small.
  pose proof (Rabs_pos t). assert (u * u <= / 1000 * u * 1) by nra. nra.
Qed.

Lemma quot_acc x y e0 : (femin f + fprec f - 1 <= 2 * e0)%Z -> bpow radix2 e0 <= Rabs x \/ bpow radix2 e0 <= Rabs y ->
  Rabs (rd f (x / norm2 f x y) - x / rho x y) <= 9 * u.
Proof.
  intros He Ho. destruct (norm2_acc x y e0 He Ho) as [N0 A]. pose proof u_pos as U0. pose proof u_small as U1.
  assert (Rp : 0 < rho x y) by (apply rho_pos; lra). set (r := rho x y) in *. set (n := norm2 f x y) in *.
  apply Rabs_le_inv in A. assert (Np : r * (1 - 7 * u) <= n) by lra.
  assert (Np2 : 99 / 100 * r <= n) by nra.
  assert (Xr : Rabs x <= r).
  { pose proof (rho_ratio x y N0) as B. fold r in B. apply Rabs_le.
    assert (E : x = x / r * r) by (field; lra). rewrite E. split; nra. }
  assert (D : Rabs (x / n - x / r) <= (7 + / 2) * u).
  { replace (x / n - x / r) with (x / r * ((r - n) / n)) by (field; lra). rewrite Rabs_mult.
    assert (Q1 : Rabs (x / r) <= 1).
    { unfold Rdiv. rewrite Rabs_mult, Rabs_inv, (Rabs_pos_eq r) by lra. apply (Rmult_le_reg_r r); [lra|].
      rewrite Rmult_assoc, Rinv_l by lra. lra. }
    assert (Q2 : Rabs ((r - n) / n) <= (7 + / 2) * u).
    { unfold Rdiv. rewrite Rabs_mult, Rabs_inv, (Rabs_pos_eq n) by lra. apply (Rmult_le_reg_r n); [lra|].
      rewrite Rmult_assoc, Rinv_l by lra. rewrite Rmult_1_r. apply Rabs_le. split; nra. }
    pose proof (Rabs_pos (x / r)). pose proof (Rabs_pos ((r - n) / n)). nra. }
  assert (B2 : Rabs (x / n) <= 2).
  { replace (x / n) with (x / n - x / r + x / r) by ring. eapply Rle_trans; [apply Rabs_triang|].
    assert (Q1 : Rabs (x / r) <= 1).
    { unfold Rdiv. rewrite Rabs_mult, Rabs_inv, (Rabs_pos_eq r) by lra. apply (Rmult_le_reg_r r); [lra|].
      rewrite Rmult_assoc, Rinv_l by lra. lra. }
    lra. }
  assert (B3 : Rabs (x / n) <= 1 + (7 + / 2) * u).
  { replace (x / n) with (x / n - x / r + x / r) by ring. eapply Rle_trans; [apply Rabs_triang|].
    assert (Q1 : Rabs (x / r) <= 1).
    { unfold Rdiv. rewrite Rabs_mult, Rabs_inv, (Rabs_pos_eq r) by lra. apply (Rmult_le_reg_r r); [lra|].
      rewrite Rmult_assoc, Rinv_l by lra. lra. }
    lra. }
  pose proof (rd_err1 (x / n) _ B3 ltac:(lra)) as E.
  replace (rd f (x / n) - x / r) with (rd f (x / n) - x / n + (x / n - x / r)) by ring.
  eapply Rle_trans; [apply Rabs_triang|]. nra.
Qed.
End Acc.

(** an accurate mathematical library: within 2 units in the last place *)
Definition accurate (f : format) (m : libm) : Prop :=
  let u := bpow radix2 (- fprec f) in
  (forall a, fl f a -> Rabs a <= 4 -> Rabs (rd f (m_cos m a) - cos a) <= 2 * u * Rabs (cos a) + bpow radix2 (-140)) /\
  (forall a, fl f a -> Rabs a <= 4 -> Rabs (rd f (m_sin m a) - sin a) <= 2 * u * Rabs (sin a) + bpow radix2 (-140)) /\
  (forall q, fl f q -> -1 <= q <= 1 -> Rabs (rd f (m_acos m q) - acos q) <= 8 * u) /\
  (forall q, fl f q -> -1 <= q <= 1 -> Rabs (rd f (m_asin m q) - asin q) <= 8 * u).

(** ** Degrees *)
Section Deg.
Variables (f s : format) (c : R) (m : libm).
Hypothesis G : good f.
Hypothesis P24 : (24 <= fprec f)%Z.
Hypothesis Hc : consts f c.
Hypothesis Cpi : Rabs (c - PI) <= bpow radix2 (- fprec f) * PI.
Hypothesis Hr : in_range f c m.
Hypothesis Ha : accurate f m.
Notation u := (bpow radix2 (- fprec f)).
#[local] Instance FD : NumOps (option R) := FN f s c m.

Lemma PI_rough : 3.1415 < PI < 3.1416.
Proof. pose proof PI_bounds. lra. Qed.

Lemma r2d_acc : exists b, 0 < b <= 64 /\ Rabs (b - 180 / PI) <= 180 * u /\ forall a, rad2deg (Some a) = fit f (a * b).
Proof.
  pose proof PI_rough as P. pose proof (u_pos f) as U0. pose proof (u_small f P24) as U1.
  destruct Hc as ((C1 & C2) & b & Hb & Eb & _ & _). exists b. split; [exact Hb|]. split.
  - pose proof Cpi as C. apply Rabs_le_inv in C. assert (Cb : 3 <= c <= 4) by nra.
    destruct (fit_inv f G _ _ Eb) as [E _]. rewrite E.
    assert (B60 : Rabs (180 / c) <= 60).
    { rewrite Rabs_pos_eq; [|apply Rlt_le, Rdiv_lt_0_compat; lra]. apply (Rmult_le_reg_r c); [lra|].
      unfold Rdiv. rewrite Rmult_assoc, Rinv_l by lra. lra. }
    pose proof (rd_err1 f G P24 (180 / c) 60 B60 ltac:(lra)) as Er.
    assert (D : Rabs (180 / c - 180 / PI) <= 61 * u).
    { replace (180 / c - 180 / PI) with (180 * (PI - c) / (c * PI)) by (field; lra).
      assert (Pp : 0 < c * PI) by nra. unfold Rdiv. rewrite Rabs_mult, Rabs_inv, (Rabs_pos_eq (c * PI)) by lra.
      apply (Rmult_le_reg_r (c * PI)); [lra|]. rewrite (Rmult_assoc (Rabs _)), Rinv_l by lra.
      rewrite Rmult_1_r, Rabs_mult, (Rabs_pos_eq 180), Rabs_minus_sym by lra.
      apply Rle_trans with (180 * (u * PI)); [apply Rmult_le_compat_l; [lra|exact Cpi]|].
      assert (180 <= 61 * c); [|nra]. nra. }
    replace (rd f (180 / c) - 180 / PI) with (rd f (180 / c) - 180 / c + (180 / c - 180 / PI)) by ring.
    eapply Rle_trans; [apply Rabs_triang|]. lra.
  - intros a. unfold rad2deg. cbn [nmul ndiv nz npi FD FN bind2].
    rewrite (fit_IZR f 180) by (auto; lia). cbn [bind2]. destruct (Req_EM_T c 0) as [E|_]; [lra|]. now rewrite Eb.
Qed.

(** an angle in [0, pi], given with error [ea], converted to degrees *)
Lemma deg_acc a a0 ea d : 0 <= a <= 4 -> Rabs (a - a0) <= ea -> rad2deg (Some a) = Some d ->
  Rabs (d - a0 * (180 / PI)) <= 58 * ea + 1000 * u.
Proof.
  intros Ba Ea E. pose proof PI_rough as P. pose proof (u_pos f) as U0. pose proof (u_small f P24) as U1.
  destruct r2d_acc as (b & Hb & Eb & Er). rewrite Er in E. destruct (fit_inv f G _ _ E) as [-> _].
  set (k := 180 / PI) in *. assert (Kb : 57 <= k <= 58).
  { unfold k. split; apply (Rmult_le_reg_r PI); try lra; unfold Rdiv; rewrite Rmult_assoc, Rinv_l by lra; lra. }
  assert (Bab : Rabs (a * b) <= 256) by (rewrite Rabs_pos_eq; nra).
  pose proof (rd_err1 f G P24 (a * b) 256 Bab ltac:(lra)) as E1.
  replace (rd f (a * b) - a0 * k) with ((rd f (a * b) - a * b) + a * (b - k) + (a - a0) * k) by ring.
  eapply Rle_trans; [apply Rabs_triang|]. eapply Rle_trans; [apply Rplus_le_compat_r, Rabs_triang|].
  rewrite !Rabs_mult, (Rabs_pos_eq a), (Rabs_pos_eq k) by lra.
  assert (a * Rabs (b - k) <= 4 * (180 * u)) by (pose proof (Rabs_pos (b - k)); apply Rmult_le_compat; lra).
  assert (Rabs (a - a0) * k <= ea * 58) by (pose proof (Rabs_pos (a - a0)); apply Rmult_le_compat; lra).
  lra.
Qed.

Definition tol : R := 387 * sqrt u.
Lemma sqrt_u : 0 < sqrt u <= / 4096 /\ sqrt u * sqrt u = u.
Proof.
  pose proof (u_pos f) as U0. pose proof (u_small f P24) as U1. split; [split; [now apply sqrt_lt_R0|]|apply sqrt_sqrt; lra].
  rewrite <- (sqrt_square (/ 4096)) by lra. apply sqrt_le_1_alt. lra.
Qed.
Lemma holder_tol q q0 : Rabs (q - q0) <= 9 * u -> PI * sqrt (Rabs (q - q0) / 2) <= (6 + 665 / 1000) * sqrt u.
Proof.
  intros H. pose proof PI_rough as P. pose proof (u_pos f) as U0. destruct sqrt_u as [[S0 S1] S2].
  assert (L : sqrt (Rabs (q - q0) / 2) <= (21214 / 10000) * sqrt u).
  { rewrite <- (sqrt_square ((21214 / 10000) * sqrt u)) by lra. apply sqrt_le_1_alt.
    replace (21214 / 10000 * sqrt u * (21214 / 10000 * sqrt u)) with (21214 / 10000 * (21214 / 10000) * (sqrt u * sqrt u)) by ring.
    rewrite S2. lra. }
  pose proof (sqrt_pos (Rabs (q - q0) / 2)). apply Rle_trans with (3.1416 * (21214 / 10000 * sqrt u)); [|lra].
  apply Rmult_le_compat; lra.
Qed.

Lemma acos_deg_acc q q0 d : fl f q -> Rabs q <= 1 -> -1 <= q0 <= 1 -> Rabs (q - q0) <= 9 * u ->
  rad2deg (nacos (Some q)) = Some d -> Rabs (d - acos q0 * (180 / PI)) <= tol.
Proof.
  intros Fq Bq Bq0 Eq E. pose proof (u_pos f) as U0. destruct sqrt_u as [[S0 S1] S2].
  pose proof Bq as Bq'. apply Rabs_le_inv in Bq'.
  destruct Ha as (_ & _ & A & _). specialize (A q Fq ltac:(lra)).
  destruct Hc as ((C1 & C2) & _). destruct Hr as (R1 & R2 & _).
  assert (B : 0 <= rd f (m_acos m q) <= c).
  { destruct (Rle_dec 0 q); [specialize (R1 q ltac:(lra)); lra|specialize (R2 q ltac:(lra)); lra]. }
  cbn [nacos FD FN bind1] in E. destruct (Rle_dec (Rabs q) 1) as [_|N]; [|contradiction].
  rewrite fit_rd in E by (auto; rewrite Rabs_pos_eq; lra).
  pose proof (acos_holder q q0 ltac:(lra) Bq0) as H. pose proof (holder_tol q q0 Eq) as T.
  assert (Ea : Rabs (rd f (m_acos m q) - acos q0) <= 8 * u + (6 + 665 / 1000) * sqrt u).
  { replace (rd f (m_acos m q) - acos q0) with (rd f (m_acos m q) - acos q + (acos q - acos q0)) by ring.
    eapply Rle_trans; [apply Rabs_triang|]. lra. }
  eapply Rle_trans; [eapply deg_acc; [|exact Ea|exact E]; lra|]. unfold tol.
  assert (u <= / 4096 * sqrt u) by (rewrite <- S2 at 1; apply Rmult_le_compat_r; lra). lra.
Qed.
Lemma asin_deg_acc q q0 d : fl f q -> 0 <= q <= 1 -> 0 <= q0 <= 1 -> Rabs (q - q0) <= 9 * u ->
  rad2deg (nasin (Some q)) = Some d -> Rabs (d - asin q0 * (180 / PI)) <= tol.
Proof.
  intros Fq Bq Bq0 Eq E. pose proof (u_pos f) as U0. destruct sqrt_u as [[S0 S1] S2].
  destruct Ha as (_ & _ & _ & A). specialize (A q Fq ltac:(lra)).
  destruct Hc as ((C1 & C2) & _). destruct Hr as (_ & _ & R2). specialize (R2 q Bq).
  cbn [nasin FD FN bind1] in E. destruct (Rle_dec (Rabs q) 1) as [_|N]; [|exfalso; apply N; rewrite Rabs_pos_eq; lra].
  rewrite fit_rd in E by (auto; rewrite Rabs_pos_eq; lra).
  pose proof (asin_holder q q0 ltac:(lra) ltac:(lra)) as H. pose proof (holder_tol q q0 Eq) as T.
  assert (Ea : Rabs (rd f (m_asin m q) - asin q0) <= 8 * u + (6 + 665 / 1000) * sqrt u).
  { replace (rd f (m_asin m q) - asin q0) with (rd f (m_asin m q) - asin q + (asin q - asin q0)) by ring.
    eapply Rle_trans; [apply Rabs_triang|]. lra. }
  eapply Rle_trans; [eapply deg_acc; [|exact Ea|exact E]; lra|]. unfold tol.
  assert (u <= / 4096 * sqrt u) by (rewrite <- S2 at 1; apply Rmult_le_compat_r; lra). lra.
Qed.

(** multiplication by a sign is exact *)
Lemma sgn_mul d y : fl f d -> nmul (Some d) (Some (sgn y)) = Some (d * sgn y) /\ nmul (Some (sgn y)) (Some d) = Some (sgn y * d).
Proof.
  intros F. cbn [nmul FD FN bind2]. rewrite (Rmult_comm (sgn y)).
  assert (E : fit f (d * sgn y) = Some (d * sgn y)); [|auto]. apply fit_fl. destruct F as [F1 F2]. unfold sgn.
  destruct (Rlt_dec 0 y); [|destruct (Rlt_dec y 0)].
  - now rewrite Rmult_1_r.
  - replace (d * -1) with (- d) by ring. split; [now apply generic_format_opp|now rewrite Rabs_Ropp].
  - rewrite Rmult_0_r. split; [apply generic_format_0|]. rewrite Rabs_R0. apply bpow_gt_0.
Qed.
Lemma sgn_np y : np_sign (Some y) = Some (sgn y).
Proof. exact (sign_np f s c m G P24 y). Qed.
Lemma sgn_c y : c_sign (Some y) = Some (sgn y).
Proof. exact (sign_c f s c m G P24 y). Qed.
Lemma sgn_bound y : Rabs (sgn y) <= 1.
Proof. unfold sgn. destruct (Rlt_dec 0 y); [|destruct (Rlt_dec y 0)]; apply Rabs_le; lra. Qed.

(** ** Longitude *)
Lemma lon_acc x y k e0 : sized f x y k e0 ->
  exists d, rad2deg (nacos (ndiv (Some x) (nsqrt (nadd (nmul (Some x) (Some x)) (nmul (Some y) (Some y)))))) = Some d /\
    fl f d /\ Rabs (d - acos (x / rho x y) * (180 / PI)) <= tol.
Proof.
  intros H. destruct (norm_eq f s c m G P24 x y k e0 H) as (E & Hx & _ & H0).
  change (FI f s c m) with FD in E. rewrite E. cbn [ndiv FD FN bind2].
  destruct (Req_EM_T (norm2 f x y) 0) as [Z|_]; [lra|]. pose proof (quotient_le_1 f G x _ H0 Hx) as Q.
  assert (F1 : fit f (x / norm2 f x y) = Some (rd f (x / norm2 f x y))) by (apply fit_rd; auto; lra).
  rewrite F1. destruct (fit_inv f G _ _ F1) as [_ Fq].
  destruct (acos_degrees f s c m G P24 Hc Hr _ Q) as (d & Ed & _). change (FI f s c m) with FD in Ed.
  exists d. split; [exact Ed|]. destruct H as (_ & _ & _ & _ & Ho & _ & _ & He).
  destruct (norm2_acc f G P24 x y e0 He Ho) as [N0 _]. split.
  - destruct r2d_acc as (b & _ & _ & Er). cbn [nacos FD FN bind1] in Ed.
    destruct (Rle_dec _ 1) as [_|N] in Ed; [|contradiction].
    destruct (fit f (m_acos m (rd f (x / norm2 f x y)))) as [w|]; [|discriminate].
    change (rad2deg (Some w) = Some d) in Ed. rewrite Er in Ed. now apply fit_inv in Ed.
  - eapply acos_deg_acc; [exact Fq|exact Q|apply rho_ratio; exact N0|apply (quot_acc f G P24 x y e0); auto|exact Ed].
Qed.

(** ** Latitude *)
Definition tol1 : R := 388 * sqrt u.
Lemma compl_acc d a : 0 <= d <= 180 -> Rabs (d - a * (180 / PI)) <= tol ->
  exists lat, nsub (nz 90) (Some d) = Some lat /\ fl f lat /\ Rabs (lat - (90 - a * (180 / PI))) <= tol1.
Proof.
  intros Bd E. pose proof (u_pos f) as U0. destruct sqrt_u as [[S0 S1] S2].
  assert (Z90 : nz 90 = Some 90) by (apply (fit_IZR f 90); auto; lia). rewrite Z90. cbn [nsub FD FN bind2].
  assert (B : Rabs (90 - d) <= 90) by (apply Rabs_le; lra).
  destruct (fit_bound f (90 - d) 90 G P24 ltac:(lia) B) as [F1 _]. rewrite F1. eexists. split; [reflexivity|].
  destruct (fit_inv f G _ _ F1) as [_ F2]. split; [exact F2|].
  pose proof (rd_err1 f G P24 (90 - d) 90 B ltac:(lra)) as R1.
  replace (rd f (90 - d) - (90 - a * (180 / PI))) with (rd f (90 - d) - (90 - d) - (d - a * (180 / PI))) by ring.
  unfold Rminus at 1. eapply Rle_trans; [apply Rabs_triang|]. rewrite Rabs_Ropp. unfold tol1. unfold tol in E.
  assert (u <= / 4096 * sqrt u) by (rewrite <- S2 at 1; apply Rmult_le_compat_r; lra). lra.
Qed.

Lemma div_acc z r : Rabs z <= r -> 0 < r ->
  exists q, ndiv (Some z) (Some r) = Some q /\ q = rd f (z / r) /\ fl f q /\ Rabs q <= 1 /\ -1 <= z / r <= 1 /\ Rabs (q - z / r) <= 2 * u.
Proof.
  intros Hz Hr0. pose proof (quotient_le_1 f G z r Hr0 Hz) as Q. cbn [ndiv FD FN bind2].
  destruct (Req_EM_T r 0) as [Z|_]; [lra|].
  assert (F1 : fit f (z / r) = Some (rd f (z / r))) by (apply fit_rd; auto; lra). rewrite F1.
  destruct (fit_inv f G _ _ F1) as [_ F2]. exists (rd f (z / r)). split; [reflexivity|]. split; [reflexivity|].
  split; [exact F2|]. split; [exact Q|].
  assert (B : Rabs (z / r) <= 1).
  { unfold Rdiv. rewrite Rabs_mult, Rabs_inv, (Rabs_pos_eq r) by lra. apply (Rmult_le_reg_r r); [lra|].
    rewrite Rmult_assoc, Rinv_l by lra. lra. }
  split; [now apply Rabs_le_inv|]. eapply Rle_trans; [apply (rd_err1 f G P24 _ 1); lra|]. pose proof (u_pos f). lra.
Qed.

Lemma lat_low_acc z r : Rabs z <= r -> 0 < r ->
  exists lat, nsub (nz 90) (rad2deg (nacos (ndiv (Some z) (Some r)))) = Some lat /\ fl f lat /\
    Rabs (lat - rlat_z r z) <= tol1.
Proof.
  intros Hz Hr0. destruct (div_acc z r Hz Hr0) as (q & Eq & _ & Fq & Bq & B0 & Dq). rewrite Eq.
  destruct (acos_degrees f s c m G P24 Hc Hr q Bq) as (d & Ed & Bd & _). change (FI f s c m) with FD in Ed. rewrite Ed.
  unfold rlat_z. apply compl_acc; auto. eapply acos_deg_acc; [exact Fq|exact Bq|exact B0| |exact Ed].
  pose proof (u_pos f). lra.
Qed.

Lemma lat_high_acc x y z r k e0 : sized f x y k e0 -> 0 < r -> rho x y <= r -> norm2 f x y <= r ->
  exists lat, nmul (Some (sgn z)) (nsub (nz 90) (rad2deg (nasin
      (ndiv (nsqrt (nadd (nmul (Some x) (Some x)) (nmul (Some y) (Some y)))) (Some r))))) = Some lat /\ fl f lat /\
    Rabs (lat - rlat_xy r x y z) <= tol1.
Proof.
  intros H Hr0 Hn Hn2. pose proof (u_pos f) as U0. pose proof (u_small f P24) as U1.
  destruct (norm_eq f s c m G P24 x y k e0 H) as (E & _ & _ & H0).
  change (FI f s c m) with FD in E. rewrite E.
  destruct (div_acc (norm2 f x y) r) as (q & Eq & Eq' & Fq & Bq & B0 & Dq); [rewrite Rabs_pos_eq; lra|assumption|]. rewrite Eq.
  assert (Q0 : 0 <= q <= 1).
  { split; [|apply Rabs_le_inv in Bq; lra]. rewrite Eq'. apply rd_ge_gf; auto; [apply generic_format_0|].
    apply Rmult_le_pos; [lra|]. apply Rlt_le, Rinv_0_lt_compat. lra. }
  destruct (asin_degrees f s c m G P24 Hc Hr q Q0) as (d & Ed & Bd). change (FI f s c m) with FD in Ed. rewrite Ed.
  destruct H as (_ & _ & _ & _ & Ho & _ & _ & He). destruct (norm2_acc f G P24 x y e0 He Ho) as [N0 A].
  pose proof (rho_pos x y N0) as Rp. assert (Ip : 0 < / r) by (apply Rinv_0_lt_compat; lra).
  assert (R01 : 0 <= rho x y / r <= 1).
  { split; [unfold Rdiv; nra|]. apply (Rmult_le_reg_r r); [lra|]. unfold Rdiv. rewrite Rmult_assoc, Rinv_l by lra. lra. }
  assert (Dq2 : Rabs (q - rho x y / r) <= 9 * u).
  { replace (q - rho x y / r) with ((q - norm2 f x y / r) + (norm2 f x y - rho x y) * / r) by (field; lra).
    eapply Rle_trans; [apply Rabs_triang|]. rewrite (Rabs_mult _ (/ r)), (Rabs_pos_eq (/ r)) by lra.
    assert (Rabs (norm2 f x y - rho x y) * / r <= 7 * u * rho x y * / r) by (apply Rmult_le_compat_r; lra).
    assert (7 * u * rho x y * / r = 7 * u * (rho x y / r)) by (unfold Rdiv; ring). nra. }
  destruct (compl_acc d (asin (rho x y / r))) as (l & El & Fl & Dl).
  { lra. }
  { eapply asin_deg_acc; [exact Fq|exact Q0|exact R01|exact Dq2|exact Ed]. }
  rewrite El. destruct (sgn_mul l z Fl) as [_ Em]. cbn [nmul FD FN bind2] in Em |- *. rewrite Em.
  eexists. split; [reflexivity|]. destruct (fit_inv f G _ _ Em) as [_ Fm]. split; [exact Fm|].
  unfold rlat_xy. rewrite <- Rmult_minus_distr_l, Rabs_mult. pose proof (sgn_bound z). pose proof (Rabs_pos (sgn z)).
  pose proof (Rabs_pos (l - (90 - asin (rho x y / r) * (180 / PI)))). nra.
Qed.
End Deg.
