(** C108 - : fourth-order accuracy of the splines of degree 3, and of what is computed with them. *)
From Coq Require Import ZArith QArith List Lia Bool Reals Lra Arith.
From Verif Require Import Spec Base Num Geo GeoProofs Interp PlProofs BorderProofs InterpProofs Legacy LegacyProofs LegacyInst LegacyTie Chunks ChunksProofs PropsChunks GridLinear PropsGridLinear PropsBilinear Cubic CubicProofs PropsCubic LegacyCubic PropsInterp PropsLegacy PropsSimple PropsLegacyRows SplineGrid PropsSplineGrid.
Import ListNotations.
#[local] Existing Instance RT.
Open Scope R_scope.

(** ** Specification *)
(** four derivatives on an interval, the fourth at most K *)
Definition bounded_fourth (f : R -> R) (lo hi K : R) : Prop :=
  exists f1 f2 f3 f4, forall x, lo <= x <= hi ->
    derivable_pt_lim f x (f1 x) /\ derivable_pt_lim f1 x (f2 x) /\ derivable_pt_lim f2 x (f3 x) /\ derivable_pt_lim f3 x (f4 x) /\ Rabs (f4 x) <= K.

(** ** Taylor expansion by comparison of derivatives *)
Lemma compare (u u' w w' : R -> R) a b : a <= b ->
  (forall t, a <= t <= b -> derivable_pt_lim u t (u' t)) -> (forall t, a <= t <= b -> derivable_pt_lim w t (w' t)) ->
  (forall t, a <= t <= b -> u' t <= w' t) -> u a <= w a -> u b <= w b.
Proof.
  intros Hab Du Dw Hle Ha. destruct (Req_dec a b) as [->|N]; [exact Ha|].
  destruct (MVT_cor2 (w - u)%F (fun t => w' t - u' t) a b) as (c & Ec & Hc); [lra| |].
  - intros t Ht. apply derivable_pt_lim_minus; [apply Dw|apply Du]; exact Ht.
  - unfold minus_fct in Ec. specialize (Hle c ltac:(lra)). assert (0 <= (w' c - u' c) * (b - a)) by (apply Rmult_le_pos; lra). lra.
Qed.

Lemma deriv_eq f t l l' : derivable_pt_lim f t l -> l = l' -> derivable_pt_lim f t l'.
Proof. now intros ? <-. Qed.
Lemma deriv_affine (g : R -> R) b w t l : derivable_pt_lim g (b + w * t) l -> derivable_pt_lim (fun s => g (b + w * s)) t (l * w).
Proof.
  intros D. apply (derivable_pt_lim_comp (fun s => b + w * s) g t w l); [|exact D].
  apply deriv_eq with (0 + w * 1); [|ring]. apply (derivable_pt_lim_plus (fct_cte b) (mult_real_fct w id)); [apply derivable_pt_lim_const|].
  apply derivable_pt_lim_scal, derivable_pt_lim_id.
Qed.
Lemma deriv_monomial c n t : derivable_pt_lim (fun s => c * s ^ S n) t (c * (INR (S n) * t ^ n)).
Proof. apply (derivable_pt_lim_scal (fun s => s ^ S n) c). apply (derivable_pt_lim_pow t (S n)). Qed.

Lemma deriv_ext (f g : R -> R) t l : (forall x, f x = g x) -> derivable_pt_lim f t l -> derivable_pt_lim g t l.
Proof. intros E D eps He. destruct (D eps He) as (d & Hd). exists d. intros h Hh Hd'. rewrite <- !E. now apply Hd. Qed.
Lemma deriv_cubic a c0 c1 c2 c3 t : derivable_pt_lim (fun x => c0 + c1 * (x - a) + c2 * (x - a) ^ 2 + c3 * (x - a) ^ 3) t (c1 + 2 * c2 * (t - a) + 3 * c3 * (t - a) ^ 2).
Proof.
  apply (deriv_ext (fun x => (fun y => c0 + c1 * y ^ 1 + c2 * y ^ 2 + c3 * y ^ 3) (- a + 1 * x))); [intros x; replace (- a + 1 * x) with (x - a) by ring; ring|].
  eapply deriv_eq; [apply (deriv_affine (fun y => c0 + c1 * y ^ 1 + c2 * y ^ 2 + c3 * y ^ 3) (- a) 1 t); apply (derivable_pt_lim_plus (fun y => c0 + c1 * y ^ 1 + c2 * y ^ 2)); [apply (derivable_pt_lim_plus (fun y => c0 + c1 * y ^ 1)); [apply (derivable_pt_lim_plus (fct_cte c0)); [apply derivable_pt_lim_const|apply deriv_monomial]|apply deriv_monomial]|apply deriv_monomial]|].
  cbn [INR]. replace (- a + 1 * t) with (t - a) by ring. ring.
Qed.

(** a function whose first derivatives vanish at 0 and whose fourth derivative is not negative *)
Lemma remainder_sign T (r r1 r2 r3 r4 : R -> R) : 0 <= T ->
  (forall t, 0 <= t <= T -> derivable_pt_lim r t (r1 t)) -> (forall t, 0 <= t <= T -> derivable_pt_lim r1 t (r2 t)) ->
  (forall t, 0 <= t <= T -> derivable_pt_lim r2 t (r3 t)) -> (forall t, 0 <= t <= T -> derivable_pt_lim r3 t (r4 t)) ->
  (forall t, 0 <= t <= T -> 0 <= r4 t) -> r 0 = 0 -> r1 0 = 0 -> r2 0 = 0 -> r3 0 = 0 ->
  0 <= r2 T /\ 6 * r T <= T ^ 2 * r2 T.
Proof.
  intros HT D0 D1 D2 D3 P4 Z0 Z1 Z2 Z3.
  assert (Cst : forall t, derivable_pt_lim (fun _ : R => 0) t 0) by (intros t; apply (derivable_pt_lim_const 0)).
  assert (M3 : forall a b, 0 <= a -> a <= b -> b <= T -> r3 a <= r3 b).
  { intros a b Ha Hab Hb. apply (compare (fun _ => r3 a) (fun _ => 0) r3 r4 a b Hab); [intros; apply (derivable_pt_lim_const (r3 a))|intros; apply D3; lra|intros; apply P4; lra|lra]. }
  assert (P3 : forall t, 0 <= t <= T -> 0 <= r3 t) by (intros t Ht; rewrite <- Z3; apply M3; lra).
  assert (P2 : forall t, 0 <= t <= T -> 0 <= r2 t).
  { intros t Ht. rewrite <- Z2. apply (compare (fun _ => r2 0) (fun _ => 0) r2 r3 0 t); [lra|intros; apply (derivable_pt_lim_const (r2 0))|intros; apply D2; lra|intros; apply P3; lra|lra]. }
  split; [apply P2; lra|]. destruct (Req_dec T 0) as [->|NT]; [rewrite Z0; lra|].
  assert (Cv : forall t, 0 <= t <= T -> r2 t <= r2 T / T * t).
  { intros t Ht. destruct (Req_dec t 0) as [->|N0]; [rewrite Z2; lra|]. destruct (Req_dec t T) as [->|NT']; [right; field; lra|].
    destruct (MVT_cor2 r2 r3 0 t ltac:(lra)) as (c & Ec & Hc); [intros; apply D2; lra|].
    destruct (MVT_cor2 r2 r3 t T ltac:(lra)) as (d & Ed & Hd); [intros; apply D2; lra|].
    pose proof (M3 c d ltac:(lra) ltac:(lra) ltac:(lra)) as Hcd. rewrite Z2 in Ec.
    assert (Q : r3 c * (t * (T - t)) <= r3 d * (t * (T - t))) by (apply Rmult_le_compat_r; [apply Rmult_le_pos; lra|exact Hcd]).
    apply (Rmult_le_reg_r T); [lra|]. replace (r2 T / T * t * T) with (r2 T * t) by (field; lra).
    replace (r2 t) with (r3 c * t) in * by lra. replace (r2 T) with (r3 d * (T - t) + r3 c * t) by lra. lra. }
  set (c := r2 T / T) in *.
  assert (B1 : forall t, 0 <= t <= T -> r1 t <= c / 2 * t ^ 2).
  { intros t Ht. apply (compare r1 r2 (fun s => c / 2 * s ^ 2) (fun s => c / 2 * (INR 2 * s ^ 1)) 0 t); [lra|intros; apply D1; lra|intros; apply deriv_monomial|
      intros s Hs; specialize (Cv s ltac:(lra)); cbn [INR pow]; lra|rewrite Z1; lra]. }
  assert (B0 : r T <= c / 6 * T ^ 3).
  { apply (compare r r1 (fun s => c / 6 * s ^ 3) (fun s => c / 6 * (INR 3 * s ^ 2)) 0 T); [lra|intros; apply D0; lra|intros; apply deriv_monomial|
      intros s Hs; specialize (B1 s ltac:(lra)); cbn [INR]; lra|rewrite Z0; lra]. }
  replace (T ^ 2 * r2 T) with (6 * (c / 6 * T ^ 3)) by (unfold c; field; lra). lra.
Qed.

Lemma taylor f f1 f2 f3 f4 lo hi K b w T : (forall x, lo <= x <= hi ->
    derivable_pt_lim f x (f1 x) /\ derivable_pt_lim f1 x (f2 x) /\ derivable_pt_lim f2 x (f3 x) /\ derivable_pt_lim f3 x (f4 x) /\ Rabs (f4 x) <= K) ->
  w = 1 \/ w = -1 -> 0 <= T -> lo <= b <= hi -> lo <= b + w * T <= hi ->
  let r := f (b + w * T) - f b - w * f1 b * T - f2 b / 2 * T ^ 2 - w * f3 b / 6 * T ^ 3 in
  let r2 := f2 (b + w * T) - f2 b - w * f3 b * T in
  Rabs r2 <= K * T ^ 2 / 2 /\ Rabs (6 * r - T ^ 2 * r2) <= K * T ^ 4 / 4.
Proof.
  intros H Hw HT Hb HbT r r2.
  assert (In : forall t, 0 <= t <= T -> lo <= b + w * t <= hi) by (intros t Ht; destruct Hw as [-> | ->]; lra).
  assert (G : forall s, s = 1 \/ s = -1 -> 0 <= K * T ^ 2 / 2 + s * r2 /\ 6 * (K * T ^ 4 / 24 + s * r) <= T ^ 2 * (K * T ^ 2 / 2 + s * r2)).
  { intros s Hs.
    pose proof (remainder_sign T
      (fun t => s * (f (b + w * t) - (f b + w * f1 b * t ^ 1 + f2 b / 2 * t ^ 2 + w * f3 b / 6 * t ^ 3)) + K / 24 * t ^ 4)
      (fun t => s * (f1 (b + w * t) * w - (w * f1 b + f2 b * t ^ 1 + w * f3 b / 2 * t ^ 2)) + K / 6 * t ^ 3)
      (fun t => s * (f2 (b + w * t) - (f2 b + w * f3 b * t ^ 1)) + K / 2 * t ^ 2)
      (fun t => s * (f3 (b + w * t) * w - w * f3 b) + K * t ^ 1)
      (fun t => s * f4 (b + w * t) + K) HT) as Q.
    assert (Add : forall u v t a c, derivable_pt_lim u t a -> derivable_pt_lim v t c -> derivable_pt_lim (fun x => s * u x + v x) t (s * a + c)).
    { intros u v t a c Du Dv. apply (derivable_pt_lim_plus (mult_real_fct s u) v); [now apply derivable_pt_lim_scal|exact Dv]. }
    assert (Sub : forall u v t a c, derivable_pt_lim u t a -> derivable_pt_lim v t c -> derivable_pt_lim (fun x => u x - v x) t (a - c)) by (intros; now apply derivable_pt_lim_minus).
    assert (Pl : forall u v t a c, derivable_pt_lim u t a -> derivable_pt_lim v t c -> derivable_pt_lim (fun x => u x + v x) t (a + c)) by (intros; now apply derivable_pt_lim_plus).
    assert (Cn : forall c t, derivable_pt_lim (fun _ : R => c) t 0) by (intros; apply derivable_pt_lim_const).
    assert (Sc : forall u t a c, derivable_pt_lim u t a -> derivable_pt_lim (fun x => u x * c) t (a * c)).
    { intros u t a c D. eapply deriv_eq; [apply (derivable_pt_lim_mult u (fct_cte c) t a 0 D), derivable_pt_lim_const|]. unfold fct_cte. ring. }
    assert (W2 : w * w = 1) by (destruct Hw as [-> | ->]; ring).
    cbv beta in Q. destruct Q as [Q1 Q2].
    - intros t Ht. destruct (H _ (In t Ht)) as (E0 & E1 & E2 & E3 & E4). eapply deriv_eq.
      + apply Add; [apply Sub; [apply (deriv_affine f b w t _ E0)|apply Pl; [apply Pl; [apply Pl; [apply Cn|apply deriv_monomial]|apply deriv_monomial]|apply deriv_monomial]]|apply deriv_monomial].
      + cbn [INR pow]. field.
    - intros t Ht. destruct (H _ (In t Ht)) as (E0 & E1 & E2 & E3 & E4). eapply deriv_eq.
      + apply Add; [apply Sub; [apply Sc, (deriv_affine f1 b w t _ E1)|apply Pl; [apply Pl; [apply Cn|apply deriv_monomial]|apply deriv_monomial]]|apply deriv_monomial].
      + cbn [INR pow]. replace (f2 (b + w * t) * w * w) with (f2 (b + w * t) * (w * w)) by ring. rewrite W2. field.
    - intros t Ht. destruct (H _ (In t Ht)) as (E0 & E1 & E2 & E3 & E4). eapply deriv_eq.
      + apply Add; [apply Sub; [apply (deriv_affine f2 b w t _ E2)|apply Pl; [apply Cn|apply deriv_monomial]]|apply deriv_monomial].
      + cbn [INR pow]. field.
    - intros t Ht. destruct (H _ (In t Ht)) as (E0 & E1 & E2 & E3 & E4). eapply deriv_eq.
      + apply Add; [apply Sub; [apply Sc, (deriv_affine f3 b w t _ E3)|apply Cn]|apply deriv_monomial].
      + cbn [INR pow]. replace (f4 (b + w * t) * w * w) with (f4 (b + w * t) * (w * w)) by ring. rewrite W2. field.
    - intros t Ht. destruct (H _ (In t Ht)) as (_ & _ & _ & _ & E4). apply Rabs_le_inv in E4. destruct Hs as [-> | ->]; lra.
    - rewrite Rmult_0_r, Rplus_0_r. ring.
    - rewrite Rmult_0_r, Rplus_0_r. ring.
    - rewrite Rmult_0_r, Rplus_0_r. ring.
    - rewrite Rmult_0_r, Rplus_0_r. ring.
    - split.
      + replace (K * T ^ 2 / 2 + s * r2) with (s * (f2 (b + w * T) - (f2 b + w * f3 b * T ^ 1)) + K / 2 * T ^ 2) by (unfold r2; field). exact Q1.
      + replace (6 * (K * T ^ 4 / 24 + s * r)) with (6 * (s * (f (b + w * T) - (f b + w * f1 b * T ^ 1 + f2 b / 2 * T ^ 2 + w * f3 b / 6 * T ^ 3)) + K / 24 * T ^ 4)) by (unfold r; field).
        replace (K * T ^ 2 / 2 + s * r2) with (s * (f2 (b + w * T) - (f2 b + w * f3 b * T ^ 1)) + K / 2 * T ^ 2) by (unfold r2; field). exact Q2. }
  destruct (G 1 (or_introl eq_refl)) as [A1 A2]. destruct (G (-1) (or_intror eq_refl)) as [B1 B2]. split; apply Rabs_le; [lra|].
  assert (T ^ 2 * (K * T ^ 2 / 2) = K * T ^ 4 / 2) by field. lra.
Qed.

(** ** The errors of the second derivatives solve nearly the same system *)
Lemma Rabs_sum3 a b c e A B C E : Rabs a <= A -> Rabs b <= B -> Rabs c <= C -> e = a + b + c -> A + B + C <= E -> Rabs e <= E.
Proof. intros Ha Hb Hc -> HE. apply Rabs_le_inv in Ha, Hb, Hc. apply Rabs_le. lra. Qed.

Lemma end_error h h' e0 e1 e2 rho sigma K H : 0 < h -> 0 < h' -> h <= H -> h' <= H -> 0 <= K ->
  h * e0 + 2 * (h + h') * e1 + h' * e2 = rho -> (e1 - e0) * h' = (e2 - e1) * h + sigma ->
  Rabs rho <= K * (h ^ 3 + h' ^ 3) / 4 -> Rabs sigma <= K * (h * h' * (h + h')) / 2 -> Rabs e2 <= Rabs e1 -> Rabs e1 <= K * H ^ 2 / 4.
Proof.
  intros Ph Ph' Hh Hh' HK E1 E2 B1 B2 L.
  assert (Er : (h + 2 * h') * e1 + (h' - h) * e2 = (rho * h' + sigma * h) / (h + h')).
  { assert (e0 = e1 - (e2 - e1) * h / h' - sigma / h') as E0.
    { apply (Rmult_eq_reg_r h'); [|lra]. replace ((e1 - (e2 - e1) * h / h' - sigma / h') * h') with (e1 * h' - (e2 - e1) * h - sigma) by (field; lra). lra. }
    rewrite E0 in E1. rewrite <- E1. field. lra. }
  assert (Br : Rabs ((rho * h' + sigma * h) / (h + h')) <= K * h' * ((h ^ 2 - h * h' + h' ^ 2) / 4 + h ^ 2 / 2)).
  { unfold Rdiv at 1. rewrite Rabs_mult, (Rabs_pos_eq (/ (h + h'))) by (left; apply Rinv_0_lt_compat; lra).
    apply (Rmult_le_reg_r (h + h')); [lra|]. rewrite Rmult_assoc, Rinv_l, Rmult_1_r by lra.
    eapply Rle_trans; [apply Rabs_triang|]. rewrite !Rabs_mult, (Rabs_pos_eq h), (Rabs_pos_eq h') by lra.
    apply Rle_trans with (K * (h ^ 3 + h' ^ 3) / 4 * h' + K * (h * h' * (h + h')) / 2 * h); [apply Rplus_le_compat; apply Rmult_le_compat_r; lra|right; field]. }
  rewrite <- Er in Br. clear Er.
  assert (G : (h + 2 * h') * Rabs e1 <= Rabs (h' - h) * Rabs e1 + K * h' * ((h ^ 2 - h * h' + h' ^ 2) / 4 + h ^ 2 / 2)).
  { rewrite <- (Rabs_pos_eq (h + 2 * h')) by lra. rewrite <- Rabs_mult.
    replace ((h + 2 * h') * e1) with (((h + 2 * h') * e1 + (h' - h) * e2) + - ((h' - h) * e2)) by ring.
    eapply Rle_trans; [apply Rabs_triang|]. rewrite Rabs_Ropp, (Rabs_mult (h' - h) e2).
    assert (Rabs (h' - h) * Rabs e2 <= Rabs (h' - h) * Rabs e1) by (apply Rmult_le_compat_l; [apply Rabs_pos|exact L]). lra. }
  set (A := Rabs e1) in *. clearbody A.
  assert (H2 : h ^ 2 <= H ^ 2 /\ h' ^ 2 <= H ^ 2) by (split; apply pow_incr; lra).
  destruct (Rle_dec h h') as [C|C].
  - rewrite Rabs_pos_eq in G by lra. apply (Rmult_le_reg_l (2 * h + h')); [lra|].
    assert (Q1 : h * h <= h * h') by (apply Rmult_le_compat_l; lra).
    assert (Q2 : K * h' * (3 * (h * h' - h * h)) >= 0) by (apply Rle_ge, Rmult_le_pos; [apply Rmult_le_pos; lra|lra]).
    assert (Q3 : (2 * h + h') * (K * h' ^ 2) <= (2 * h + h') * (K * H ^ 2)) by (apply Rmult_le_compat_l; [lra|apply Rmult_le_compat_l; lra]).
    replace ((2 * h + h') * (K * H ^ 2 / 4)) with ((2 * h + h') * (K * H ^ 2) / 4) by field.
    assert (Q4 : K * h' * ((h ^ 2 - h * h' + h' ^ 2) / 4 + h ^ 2 / 2) = (2 * h + h') * (K * h' ^ 2) / 4 - K * h' * (3 * (h * h' - h * h)) / 4) by field. lra.
  - rewrite Rabs_left in G by lra. apply (Rmult_le_reg_l (3 * h')); [lra|].
    assert (Q1 : h' * h' <= h * h') by (apply Rmult_le_compat_r; lra).
    assert (Q2 : K * h' * (h * h' - h' * h') >= 0) by (apply Rle_ge, Rmult_le_pos; [apply Rmult_le_pos; lra|lra]).
    assert (Q3 : (3 * h') * (K * h ^ 2) <= (3 * h') * (K * H ^ 2)) by (apply Rmult_le_compat_l; [lra|apply Rmult_le_compat_l; lra]).
    replace (3 * h' * (K * H ^ 2 / 4)) with (3 * h' * (K * H ^ 2) / 4) by field.
    assert (Q4 : K * h' * ((h ^ 2 - h * h' + h' ^ 2) / 4 + h ^ 2 / 2) = (3 * h') * (K * h ^ 2) / 4 - K * h' * (h * h' - h' * h') / 4) by field. lra.
Qed.

Section Errors.
Variables (k : nat -> R) (n : nat).
Hypothesis (Hn : (3 <= n)%nat) (inc : forall i, (i < n)%nat -> k i < k (S i)).
Variables (f f1 f2 f3 f4 : R -> R) (K H : R) (M : nat -> R).
Hypothesis D : forall x, k 0%nat <= x <= k n ->
  derivable_pt_lim f x (f1 x) /\ derivable_pt_lim f1 x (f2 x) /\ derivable_pt_lim f2 x (f3 x) /\ derivable_pt_lim f3 x (f4 x) /\ Rabs (f4 x) <= K.
Hypothesis (HK : 0 <= K) (HH : forall i, (i < n)%nat -> hh k i <= H) (Sy : system k n (fun i => f (k i)) M).
Let err i := M i - f2 (k i).

Let kin i : (i <= n)%nat -> k 0%nat <= k i <= k n.
Proof. intros Hi. split; apply (kle k n Hn inc); lia. Qed.

(** Taylor expansions at position [S i] towards both neighbours *)
Lemma joint_error i : (S i < n)%nat ->
  Rabs (hh k i * err i + 2 * (hh k i + hh k (S i)) * err (S i) + hh k (S i) * err (S (S i))) <= K * (hh k i ^ 3 + hh k (S i) ^ 3) / 4 /\
  Rabs ((err (S i) - err i) * hh k (S i) - (err (S (S i)) - err (S i)) * hh k i - ((M (S i) - M i) * hh k (S i) - (M (S (S i)) - M (S i)) * hh k i)) <= K * (hh k i * hh k (S i) * (hh k i + hh k (S i))) / 2.
Proof.
  intros Hi. pose proof (hpos k n inc i ltac:(lia)) as P. pose proof (hpos k n inc (S i) Hi) as P'. destruct Sy as (J & _ & _). specialize (J i Hi). red in J.
  set (h := hh k i) in *. set (h' := hh k (S i)) in *. set (b := k (S i)).
  assert (Er : k (S (S i)) = b + 1 * h') by (unfold b, h', hh; ring). assert (El : k i = b + -1 * h) by (unfold b, h, hh; ring).
  pose proof (kin i ltac:(lia)) as K0. pose proof (kin (S i) ltac:(lia)) as K1. pose proof (kin (S (S i)) ltac:(lia)) as K2.
  destruct (taylor f f1 f2 f3 f4 _ _ K b 1 h' D (or_introl eq_refl) ltac:(lra) K1 ltac:(rewrite <- Er; exact K2)) as [R1 R2].
  destruct (taylor f f1 f2 f3 f4 _ _ K b (-1) h D (or_intror eq_refl) ltac:(lra) K1 ltac:(rewrite <- El; exact K0)) as [L1 L2].
  rewrite <- Er in R1, R2. rewrite <- El in L1, L2. fold b in J. unfold err. fold b.
  set (r := f (k (S (S i))) - f b - 1 * f1 b * h' - f2 b / 2 * h' ^ 2 - 1 * f3 b / 6 * h' ^ 3) in *.
  set (r2 := f2 (k (S (S i))) - f2 b - 1 * f3 b * h') in *.
  set (l := f (k i) - f b - -1 * f1 b * h - f2 b / 2 * h ^ 2 - -1 * f3 b / 6 * h ^ 3) in *.
  set (l2 := f2 (k i) - f2 b - -1 * f3 b * h) in *. split.
  - assert (E : h * (M i - f2 (k i)) + 2 * (h + h') * (M (S i) - f2 b) + h' * (M (S (S i)) - f2 (k (S (S i)))) = (6 * r - h' ^ 2 * r2) / h' + (6 * l - h ^ 2 * l2) / h).
    { transitivity (6 * (ss k (fun i => f (k i)) (S i) - ss k (fun i => f (k i)) i) - h * f2 (k i) - 2 * (h + h') * f2 b - h' * f2 (k (S (S i)))); [rewrite <- J; ring|].
      unfold ss. fold h h' b. unfold r, r2, l, l2. field. lra. }
    rewrite E. eapply Rle_trans; [apply Rabs_triang|]. unfold Rdiv at 1 2. rewrite !Rabs_mult, (Rabs_pos_eq (/ h)), (Rabs_pos_eq (/ h')) by (left; now apply Rinv_0_lt_compat).
    apply Rle_trans with (K * h' ^ 4 / 4 * / h' + K * h ^ 4 / 4 * / h); [apply Rplus_le_compat; (apply Rmult_le_compat_r; [left; now apply Rinv_0_lt_compat|assumption])|].
    right. field. lra.
  - match goal with |- Rabs ?e <= _ => replace e with (r2 * h + l2 * h') by (unfold r2, l2; ring) end.
    eapply Rle_trans; [apply Rabs_triang|]. rewrite !Rabs_mult, (Rabs_pos_eq h), (Rabs_pos_eq h') by lra.
    apply Rle_trans with (K * h' ^ 2 / 2 * h + K * h ^ 2 / 2 * h'); [apply Rplus_le_compat; apply Rmult_le_compat_r; lra|right; field].
Qed.

Lemma inner_error i : (1 <= i < n)%nat -> Rabs (err i) <= K * H ^ 2 / 4.
Proof.
  destruct (argmax n Hn (fun i => Rabs (err i)) (n - 2)) as (m & Hm & Max). intros Hi. eapply Rle_trans; [apply Max; lia|]. clear i Hi.
  destruct (Nat.eq_dec m 1) as [->|N1].
  - destruct (joint_error 0 ltac:(lia)) as [B1 B2]. destruct Sy as (_ & S0 & _). red in S0.
    eapply (end_error (hh k 0) (hh k 1) (err 0%nat) (err 1%nat) (err 2%nat)); try reflexivity.
    + apply (hpos k n inc). lia.
    + apply (hpos k n inc). lia.
    + apply HH. lia.
    + apply HH. lia.
    + exact HK.
    + match type of B2 with Rabs ?s <= _ => instantiate (1 := s) end. rewrite S0. ring.
    + exact B1.
    + exact B2.
    + apply Max. lia.
  - destruct (Nat.eq_dec m (n - 1)) as [->|N2].
    + destruct (joint_error (n - 2) ltac:(lia)) as [B1 B2]. destruct Sy as (_ & _ & S1). red in S1.
      replace (S (S (n - 2))) with n in * by lia. replace (S (n - 2)) with (n - 1)%nat in * by lia.
      eapply (end_error (hh k (n - 1)) (hh k (n - 2)) (err n) (err (n - 1)%nat) (err (n - 2)%nat)); try reflexivity.
      * apply (hpos k n inc). lia.
      * apply (hpos k n inc). lia.
      * apply HH. lia.
      * apply HH. lia.
      * exact HK.
      * match type of B2 with Rabs ?s <= _ => instantiate (1 := s) end. rewrite S1. ring.
      * rewrite (Rplus_comm (hh k (n - 1) ^ 3)). match goal with |- Rabs ?e <= _ => match type of B1 with Rabs ?e' <= _ => replace e with e' by ring end end. exact B1.
      * replace (hh k (n - 1) * hh k (n - 2) * (hh k (n - 1) + hh k (n - 2))) with (hh k (n - 2) * hh k (n - 1) * (hh k (n - 2) + hh k (n - 1))) by ring. exact B2.
      * apply Max. lia.
    + destruct m as [|j]; [lia|]. destruct j as [|j]; [lia|]. destruct (joint_error (S j) ltac:(lia)) as [B1 _].
      pose proof (hpos k n inc (S j) ltac:(lia)) as P. pose proof (hpos k n inc (S (S j)) ltac:(lia)) as P'.
      pose proof (HH (S j) ltac:(lia)) as Hh. pose proof (HH (S (S j)) ltac:(lia)) as Hh'.
      set (h := hh k (S j)) in *. set (h' := hh k (S (S j))) in *. pose proof (Max (S j) ltac:(lia)) as M1. pose proof (Max (S (S (S j))) ltac:(lia)) as M2. cbv beta in M1, M2.
      assert (G : 2 * (h + h') * Rabs (err (S (S j))) <= (h + h') * Rabs (err (S (S j))) + K * (h ^ 3 + h' ^ 3) / 4).
      { rewrite <- (Rabs_pos_eq (2 * (h + h'))) by lra. rewrite <- Rabs_mult.
        replace (2 * (h + h') * err (S (S j))) with ((h * err (S j) + 2 * (h + h') * err (S (S j)) + h' * err (S (S (S j)))) + (- (h * err (S j)) + - (h' * err (S (S (S j)))))) by ring.
        eapply Rle_trans; [apply Rabs_triang|]. eapply Rle_trans; [apply Rplus_le_compat_l, Rabs_triang|]. rewrite !Rabs_Ropp, !(Rabs_mult h), !(Rabs_mult h'), (Rabs_pos_eq h), (Rabs_pos_eq h') by lra.
        assert (h * Rabs (err (S j)) <= h * Rabs (err (S (S j)))) by (apply Rmult_le_compat_l; lra).
        assert (h' * Rabs (err (S (S (S j)))) <= h' * Rabs (err (S (S j)))) by (apply Rmult_le_compat_l; lra). lra. }
      assert (H2 : h ^ 2 <= H ^ 2 /\ h' ^ 2 <= H ^ 2) by (split; apply pow_incr; lra). set (A := Rabs (err (S (S j)))) in *. clearbody A.
      apply (Rmult_le_reg_l (h + h')); [lra|].
      assert (Q : K * (h * h ^ 2 + h' * h' ^ 2) <= K * (h * H ^ 2 + h' * H ^ 2)) by (apply Rmult_le_compat_l; [lra|]; apply Rplus_le_compat; apply Rmult_le_compat_l; lra).
      replace (h ^ 3 + h' ^ 3) with (h * h ^ 2 + h' * h' ^ 2) in G by ring. replace ((h + h') * (K * H ^ 2 / 4)) with (K * (h * H ^ 2 + h' * H ^ 2) / 4) by field. lra.
Qed.

(** the outermost positions *)
Lemma outer_error_value h h' e0 e1 e2 sigma E : 0 < h -> 0 < h' -> (e1 - e0) * h' = (e2 - e1) * h + sigma -> Rabs e1 <= E -> Rabs e2 <= E ->
  Rabs sigma <= K * (h * h' * (h + h')) / 2 -> Rabs e0 <= E * (1 + 2 * (h / h')) + K * h * (h + h') / 2.
Proof.
  intros P P' E0 B1 B2 Bs.
  assert (e0 = e1 * (1 + h / h') + (- (e2 * (h / h')) + - (sigma / h'))) as ->.
  { apply (Rmult_eq_reg_r h'); [|lra]. replace ((e1 * (1 + h / h') + (- (e2 * (h / h')) + - (sigma / h'))) * h') with (e1 * h' + e1 * h - e2 * h - sigma) by (field; lra). lra. }
  assert (Pr : 0 < h / h') by now apply Rdiv_lt_0_compat.
  eapply Rle_trans; [apply Rabs_triang|]. eapply Rle_trans; [apply Rplus_le_compat_l, Rabs_triang|]. rewrite !Rabs_Ropp, !Rabs_mult, (Rabs_pos_eq (h / h')), (Rabs_pos_eq (1 + h / h')) by lra.
  assert (Q3 : Rabs (sigma / h') <= K * h * (h + h') / 2).
  { unfold Rdiv at 1. rewrite Rabs_mult, (Rabs_pos_eq (/ h')) by (left; now apply Rinv_0_lt_compat). apply Rle_trans with (K * (h * h' * (h + h')) / 2 * / h'); [apply Rmult_le_compat_r; [left; now apply Rinv_0_lt_compat|exact Bs]|right; field; lra]. }
  assert (Q1 : Rabs e1 * (1 + h / h') <= E * (1 + h / h')) by (apply Rmult_le_compat_r; lra).
  assert (Q2 : Rabs e2 * (h / h') <= E * (h / h')) by (apply Rmult_le_compat_r; lra). unfold Rdiv in *. rewrite ?Rabs_mult in *. lra.
Qed.
Lemma first_error : Rabs (err 0%nat) <= K * H ^ 2 / 4 * (1 + 2 * (hh k 0 / hh k 1)) + K * hh k 0 * (hh k 0 + hh k 1) / 2.
Proof.
  destruct (joint_error 0 ltac:(lia)) as [_ B2]. destruct Sy as (_ & S0 & _). red in S0.
  eapply (outer_error_value _ _ _ (err 1%nat) (err 2%nat)); [apply (hpos k n inc); lia|apply (hpos k n inc); lia| |apply inner_error; lia|apply inner_error; lia|exact B2].
  rewrite S0. ring.
Qed.
Lemma last_error : Rabs (err n) <= K * H ^ 2 / 4 * (1 + 2 * (hh k (n - 1) / hh k (n - 2))) + K * hh k (n - 1) * (hh k (n - 1) + hh k (n - 2)) / 2.
Proof.
  destruct (joint_error (n - 2) ltac:(lia)) as [_ B2]. destruct Sy as (_ & _ & S1). red in S1.
  replace (S (S (n - 2))) with n in * by lia. replace (S (n - 2)) with (n - 1)%nat in * by lia.
  eapply (outer_error_value _ _ _ (err (n - 1)%nat) (err (n - 2)%nat)); [apply (hpos k n inc); lia|apply (hpos k n inc); lia| |apply inner_error; lia|apply inner_error; lia|].
  2:{ replace (hh k (n - 1) * hh k (n - 2) * (hh k (n - 1) + hh k (n - 2))) with (hh k (n - 2) * hh k (n - 1) * (hh k (n - 2) + hh k (n - 1))) by ring. exact B2. }
  rewrite S1. ring.
Qed.

(** one cell *)
Lemma cell_error i E x : (i < n)%nat -> Rabs (err i) <= E -> Rabs (err (S i)) <= E -> k i <= x <= k (S i) ->
  Rabs (pc k (fun i => f (k i)) M i x - f x) <= hh k i ^ 2 / 8 * (E + K * hh k i ^ 2 / 8).
Proof.
  intros Hi B0 B1 Hx. pose proof (hpos k n inc i Hi) as P. pose proof (kin i ltac:(lia)) as K0. pose proof (kin (S i) ltac:(lia)) as K1.
  set (h := hh k i) in *. set (a := k i) in *. set (b := k (S i)) in *. set (s := fun x => pc k (fun i => f (k i)) M i x).
  set (c1 := ss k (fun i => f (k i)) i - h * (2 * M i + M (S i)) / 6). set (c3 := (M (S i) - M i) / (6 * h)).
  assert (C2 : bounded_curvature f2 a b K).
  { exists f3, f4. intros t Ht. destruct (D t) as (_ & _ & E2 & E3 & E4); [lra|]. auto. }
  assert (Hb : b = a + h) by (unfold b, a, h, hh; ring).
  assert (Cs : bounded_curvature (fun t => s t - f t) a b (E + K * h ^ 2 / 8)).
  { exists (fun t => (c1 + M i * (t - a) + 3 * c3 * (t - a) ^ 2) - f1 t), (fun t => (M i + 6 * c3 * (t - a)) - f2 t). intros t Ht.
    destruct (D t) as (E0 & E1 & E2 & E3 & E4); [lra|]. split; [|split].
    - apply (derivable_pt_lim_minus s f); [|exact E0]. unfold s, pc. fold h a c1 c3. eapply deriv_eq; [apply (deriv_cubic a (f a) c1 (M i / 2) c3)|field].
    - apply (derivable_pt_lim_minus (fun t => c1 + M i * (t - a) + 3 * c3 * (t - a) ^ 2) f1); [|exact E1].
      apply deriv_ext with (fun t => c1 + M i * (t - a) + 3 * c3 * (t - a) ^ 2 + 0 * (t - a) ^ 3); [intros; ring|]. eapply deriv_eq; [apply (deriv_cubic a c1 (M i) (3 * c3) 0)|ring].
    - pose proof (curved_line f2 a b K a b t C2 ltac:(lra) ltac:(lra) ltac:(lra) Ht) as CL.
      assert (Q : (t - a) * (b - t) / 2 <= h ^ 2 / 8).
      { assert (0 <= (2 * t - a - b) ^ 2) by apply pow2_ge_0. rewrite Hb in *. replace (h ^ 2 / 8) with ((t - a) * (a + h - t) / 2 + (2 * t - a - (a + h)) ^ 2 / 8) by field. lra. }
      assert (Q' : (t - a) * (b - t) / 2 * K <= h ^ 2 / 8 * K) by (apply Rmult_le_compat_r; assumption).
      assert (El : M i + 6 * c3 * (t - a) - straight_line a (f2 a) b (f2 b) t = (b - t) / h * err i + (t - a) / h * err (S i)).
      { unfold straight_line, err, c3. fold a b. rewrite Hb. replace (a + h - a) with h by ring. field. lra. }
      apply (Rabs_sum3 ((b - t) / h * err i) ((t - a) / h * err (S i)) (straight_line a (f2 a) b (f2 b) t - f2 t) _ ((b - t) / h * E) ((t - a) / h * E) (h ^ 2 / 8 * K)).
      + rewrite Rabs_mult, Rabs_pos_eq by (apply Rle_mult_inv_pos; lra). apply Rmult_le_compat_l; [apply Rle_mult_inv_pos; lra|exact B0].
      + rewrite Rabs_mult, Rabs_pos_eq by (apply Rle_mult_inv_pos; lra). apply Rmult_le_compat_l; [apply Rle_mult_inv_pos; lra|exact B1].
      + rewrite Rabs_minus_sym. lra.
      + rewrite <- El. ring.
      + right. rewrite Hb. field. lra. }
  pose proof (curved_line _ a b _ a b x Cs ltac:(lra) ltac:(lra) ltac:(lra) Hx) as CL. cbv beta in CL.
  assert (Z0 : s a - f a = 0) by (unfold s, a; rewrite pc_left; ring). assert (Z1 : s b - f b = 0) by (unfold s, b; rewrite (pc_right k n inc) by exact Hi; ring).
  rewrite Z0, Z1 in CL. replace (straight_line a 0 b 0 x) with 0 in CL by (unfold straight_line; rewrite Hb; field; lra). rewrite Rminus_0_r in CL.
  eapply Rle_trans; [exact CL|]. apply Rmult_le_compat_r.
  - assert (0 <= E) by (eapply Rle_trans; [apply Rabs_pos|exact B0]). assert (0 <= K * h ^ 2 / 8) by (apply Rmult_le_pos; [apply Rmult_le_pos; [lra|apply pow2_ge_0]|lra]). lra.
  - assert (0 <= (2 * x - a - b) ^ 2) by apply pow2_ge_0. rewrite Hb in *. replace (h ^ 2 / 8) with ((x - a) * (a + h - x) / 2 + (2 * x - a - (a + h)) ^ 2 / 8) by field. lra.
Qed.
End Errors.

(** ** C108: the spline of degree 3 through samples of a smooth function *)
Definition cell_constant (ks : list R) (H : R) (i : nat) : R :=
  let outer h h' := H ^ 2 / 4 * (1 + 2 * (h / h')) + h * (h + h') / 2 in
  if Nat.eqb i 0 then outer (gap ks 0) (gap ks 1)
  else if Nat.eqb i (length ks - 2) then outer (gap ks (length ks - 2)) (gap ks (length ks - 3))
  else H ^ 2 / 4.

Theorem C108_function : forall ks f K H i x, increasing ks -> (4 <= length ks)%nat ->
  bounded_fourth f (nth 0 ks 0) (nth (length ks - 1) ks 0) K -> (forall j, (S j < length ks)%nat -> gap ks j <= H) ->
  (S i < length ks)%nat -> nth i ks 0 <= x <= nth (S i) ks 0 ->
  Rabs (cubic_splev ks (map f ks) x - f x) <= K * gap ks i ^ 2 * (cell_constant ks H i + gap ks i ^ 2 / 8) / 8.
Proof.
  intros ks f K H i x I L (f1 & f2 & f3 & f4 & D) HH Hi Hx.
  set (n := (length ks - 1)%nat). set (k := fun i => nth i ks 0). pose proof (curvature_system ks (map f ks) I L) as Sy0. pose proof (list_inc ks I L) as inc. fold k n in inc. fold k n in Sy0.
  assert (Hn : (3 <= n)%nat) by (unfold n; lia).
  assert (Sy : system k n (fun i => f (k i)) (curvature ks (map f ks))).
  { destruct Sy0 as (J & S0 & S1). split; [|split; assumption]. intros j Hj. specialize (J j Hj). red in J |- *. unfold ss in *. cbv beta in *. rewrite !(nth_map' f ks _ 0) in J by (unfold n in *; lia). exact J. }
  assert (HK : 0 <= K).
  { destruct (D (k 0%nat)) as (_ & _ & _ & _ & B); [split; [apply Rle_refl|apply (kle k n Hn inc); lia]|]. eapply Rle_trans; [apply Rabs_pos|exact B]. }
  assert (HH' : forall i, (i < n)%nat -> hh k i <= H) by (intros j Hj; apply HH; unfold n in Hj; lia).
  pose proof (inner_error k n Hn inc f f1 f2 f3 f4 K H _ D HK HH' Sy) as In.
  assert (P : forall j, (j < n)%nat -> 0 < gap ks j) by (intros j Hj; apply (hpos k n inc j Hj)).
  assert (H0 : 0 <= K * H ^ 2 / 4) by (apply Rmult_le_pos; [apply Rmult_le_pos; [lra|apply pow2_ge_0]|lra]).
  assert (Rp : forall a b, (a < n)%nat -> (b < n)%nat -> K * H ^ 2 / 4 <= K * H ^ 2 / 4 * (1 + 2 * (gap ks a / gap ks b)) + K * gap ks a * (gap ks a + gap ks b) / 2).
  { intros a b Ha Hb. pose proof (P a Ha) as Pa. pose proof (P b Hb) as Pb. assert (0 <= K * H ^ 2 / 4 * (2 * (gap ks a / gap ks b))) by (apply Rmult_le_pos; [lra|pose proof (Rdiv_lt_0_compat _ _ Pa Pb); lra]).
    assert (0 <= K * gap ks a * (gap ks a + gap ks b)) by (apply Rmult_le_pos; [apply Rmult_le_pos; lra|lra]). lra. }
  assert (B : Rabs (curvature ks (map f ks) i - f2 (k i)) <= K * cell_constant ks H i /\ Rabs (curvature ks (map f ks) (S i) - f2 (k (S i))) <= K * cell_constant ks H i).
  { unfold cell_constant. cbv zeta beta. destruct (Nat.eqb_spec i 0) as [E|N0].
    - assert (Q := Rp 0%nat 1%nat ltac:(lia) ltac:(lia)). rewrite !(Rmult_plus_distr_l K).
      replace (K * (H ^ 2 / 4 * (1 + 2 * (gap ks 0 / gap ks 1)))) with (K * H ^ 2 / 4 * (1 + 2 * (gap ks 0 / gap ks 1))) by (unfold Rdiv; ring). replace (K * (gap ks 0 * (gap ks 0 + gap ks 1) / 2)) with (K * gap ks 0 * (gap ks 0 + gap ks 1) / 2) by (unfold Rdiv; ring).
      rewrite E. split; [exact (first_error k n Hn inc f f1 f2 f3 f4 K H _ D HK HH' Sy)|eapply Rle_trans; [apply In; lia|exact Q]].
    - destruct (Nat.eqb_spec i (length ks - 2)) as [E|N1].
      + assert (Q := Rp (length ks - 2)%nat (length ks - 3)%nat ltac:(unfold n; lia) ltac:(unfold n; lia)).
        rewrite !(Rmult_plus_distr_l K).
        replace (K * (H ^ 2 / 4 * (1 + 2 * (gap ks (length ks - 2) / gap ks (length ks - 3))))) with (K * H ^ 2 / 4 * (1 + 2 * (gap ks (length ks - 2) / gap ks (length ks - 3)))) by (unfold Rdiv; ring). replace (K * (gap ks (length ks - 2) * (gap ks (length ks - 2) + gap ks (length ks - 3)) / 2)) with (K * gap ks (length ks - 2) * (gap ks (length ks - 2) + gap ks (length ks - 3)) / 2) by (unfold Rdiv; ring).
        split; [eapply Rle_trans; [apply In; unfold n; lia|exact Q]|]. pose proof (last_error k n Hn inc f f1 f2 f3 f4 K H _ D HK HH' Sy) as B.
        replace (S i) with n by (unfold n; lia). replace (n - 1)%nat with (length ks - 2)%nat in B by (unfold n; lia). replace (n - 2)%nat with (length ks - 3)%nat in B by (unfold n; lia). exact B.
      + replace (K * (H ^ 2 / 4)) with (K * H ^ 2 / 4) by field. split; apply In; unfold n; lia. }
  destruct B as [B0 B1]. pose proof (cell_error k n Hn inc f f1 f2 f3 f4 K (curvature ks (map f ks)) D HK i (K * cell_constant ks H i) x ltac:(unfold n; lia) B0 B1 Hx) as C.
  rewrite (splev_pc ks (map f ks) I L x i) by (split; [lia|split; right; lra]).
  replace (pc (fun i => nth i ks 0) (fun i => nth i (map f ks) 0) (curvature ks (map f ks)) i x) with (pc k (fun i => f (k i)) (curvature ks (map f ks)) i x).
  - eapply Rle_trans; [exact C|]. right. change (hh k i) with (gap ks i). field.
  - unfold pc, ss. fold k. cbv beta. rewrite !(nth_map' f ks _ 0) by lia. reflexivity.
Qed.
Print Assumptions C108_function.

(** evenly spaced positions *)
Definition order4 (n c : nat) : R := if orb (Nat.eqb c 0) (Nat.eqb c (n - 2)) then 15 / 64 else 3 / 64.
Corollary C108_even : forall h ks f K i x, evenly h ks -> (4 <= length ks)%nat ->
  bounded_fourth f (nth 0 ks 0) (nth (length ks - 1) ks 0) K -> (S i < length ks)%nat -> nth i ks 0 <= x <= nth (S i) ks 0 ->
  Rabs (cubic_splev ks (map f ks) x - f x) <= order4 (length ks) i * K * h ^ 4.
Proof.
  intros h ks f K i x Ev L B Hi Hx. pose proof (evenly_increasing h ks Ev) as I. destruct Ev as [Hh Ev].
  assert (G : forall j, (S j < length ks)%nat -> gap ks j = h) by (intros j Hj; unfold gap; rewrite Ev by exact Hj; ring).
  eapply Rle_trans; [apply (C108_function ks f K h i x I L B)|]; [intros j Hj; rewrite G by exact Hj; lra|exact Hi|exact Hx|].
  right. rewrite G by exact Hi. unfold cell_constant, order4. cbv zeta. rewrite !G by lia.
  destruct (Nat.eqb_spec i 0); [|destruct (Nat.eqb_spec i (length ks - 2))]; cbn [orb]; field; lra.
Qed.
Print Assumptions C108_even.

(** a sine sampled at every half radian: within 0.003; halving the distance divides the bound by 16 *)
Example C108_case : forall x, 1 <= x <= 3 / 2 -> let ks := [0; 1 / 2; 1; 3 / 2; 2; 5 / 2] in Rabs (cubic_splev ks (map sin ks) x - sin x) <= 3 / 1024.
Proof.
  intros x Hx ks. eapply Rle_trans; [apply (C108_even (1 / 2) ks sin 1 2 x)|].
  - split; [lra|]. intros j Hj. unfold ks in *. cbn [length] in Hj. destruct j as [|[|[|[|[|j]]]]]; cbn; try lia; lra.
  - cbn. lia.
  - exists cos, (fun x => - sin x), (fun x => - cos x), sin. intros t _. split; [apply derivable_pt_lim_sin|]. split; [apply derivable_pt_lim_cos|]. split; [|split].
    + apply derivable_pt_lim_opp, derivable_pt_lim_sin.
    + replace (sin t) with (- - sin t) by ring. apply derivable_pt_lim_opp, derivable_pt_lim_cos.
    + apply Rabs_le. pose proof (SIN_bound t). lra.
  - cbn. lia.
  - cbn. lra.
  - unfold order4, ks. cbn [length Nat.eqb Nat.sub orb]. lra.
Qed.
(** the order cannot be higher: a fourth power is not reproduced *)
Example C108_fourth_power : @cubic_splev Q QT [0; 1; 2; 3; 4; 5]%Q [0; 1; 16; 81; 256; 625]%Q (5 # 2)%Q <> (625 # 16)%Q.
Proof. vm_compute. discriminate. Qed.

(** ** C109: metop20kmto1km *)
(** columns with given positions: 0, 4, 24, ..., 2044, 2047 *)
Definition metop_knots : list R := 0 :: map (fun i => 4 + 20 * INR i) (seq 0 103) ++ [2047].
Definition metop_spline (coordinate : R -> R -> R) (lons lats : mat R) (r : nat) (s : R -> R) : Prop :=
  spline3 metop_knots s /\ through metop_knots (map (fun c => coordinate (at2 0 lons r c) (at2 0 lats r c)) (seq 0 105)) s.

Lemma metop_knots_eq : metop_knots = map IZR metop_cols.
Proof.
  assert (E : metop_cols = 0%Z :: map (fun i => (4 + 20 * Z.of_nat i)%Z) (seq 0 103) ++ [2047%Z]) by (vm_compute; reflexivity).
  rewrite E. unfold metop_knots. cbn [map]. rewrite map_app, map_map. f_equal. f_equal. apply map_ext. intros i. rewrite plus_IZR, mult_IZR, INR_IZR_INZ. reflexivity.
Qed.
Lemma metop_knots_inc : increasing metop_knots.
Proof. rewrite metop_knots_eq. apply strict_inc_increasing, metop_inc. Qed.
Lemma metop_knots_length : length metop_knots = 105%nat.
Proof. unfold metop_knots. cbn [length]. rewrite app_length, map_length, seq_length. reflexivity. Qed.
Lemma metop_gap j : (j < 104)%nat -> gap metop_knots j = if Nat.eqb j 0 then 4 else if Nat.eqb j 103 then 3 else 20.
Proof.
  intros Hj. unfold gap, metop_knots. assert (N : forall i, (i < 103)%nat -> nth i (map (fun i => 4 + 20 * INR i) (seq 0 103) ++ [2047]) 0 = 4 + 20 * INR i).
  { intros i Hi. rewrite app_nth1 by (now rewrite map_length, seq_length). rewrite (nth_map' _ _ _ 0%nat) by now rewrite seq_length. now rewrite seq_nth. }
  destruct j as [|j]; cbn [nth Nat.eqb].
  - rewrite N by lia. cbn [INR]. ring.
  - destruct (Nat.eqb_spec j 102) as [->|]; cbn [Nat.eqb].
    + rewrite (N 102%nat) by lia. rewrite app_nth2 by (rewrite map_length, seq_length; lia). rewrite map_length, seq_length. cbn [Nat.sub nth]. rewrite (INR_IZR_INZ 102). change (Z.of_nat 102) with 102%Z. lra.
    + rewrite !N by lia. rewrite S_INR. ring.
Qed.

Theorem C109_spline : forall coordinate lons lats r, exists s, metop_spline coordinate lons lats r s /\ forall s', metop_spline coordinate lons lats r s' -> forall x, s' x = s x.
Proof.
  intros coordinate lons lats r. destruct (C99_spline metop_knots (map (fun c => coordinate (at2 0 lons r c) (at2 0 lats r c)) (seq 0 105)) metop_knots_inc ltac:(rewrite metop_knots_length; lia)) as (A & B & U).
  eexists. split; [split; [exact A|exact B]|]. intros s' [A' B'] x. now apply U.
Qed.
Print Assumptions C109_spline.

Theorem C109_pixel : forall other spl2 n lons lats lo la r J (s : (R -> R -> R) -> R -> R), shaped n 105 lons -> shaped n 105 lats ->
  metop20kmto1km (spl1_with other) spl2 lons lats = Ok (lo, la) -> (r < n)%nat -> (J < 2048)%nat ->
  (forall coordinate, metop_spline coordinate lons lats r (s coordinate)) ->
  (at2 None lo r J, at2 None la r J) = @xyz2lonlat _ RN (Some (s at_x (INR J)), Some (s at_y (INR J)), Some (s at_z (INR J))).
Proof.
  intros other spl2 n lons lats lo la r J s S1 S2 Hrun Hr HJ Hs. destruct (c_shaped _ _ lons lats S1 S2) as (Cx & Cy & Cz).
  rewrite (metop_result (spl1_with other) spl2 n) in Hrun by assumption. rewrite (surjective_pairing (geo3 _ _ _)) in Hrun. apply Ok_pair_inj in Hrun; destruct Hrun as [<- <-].
  rewrite (geo3_at n 2048); auto; try now apply metop_rows_shaped.
  assert (At : forall d coordinate, shaped n 105 d -> (forall c, (c < 105)%nat -> at2 0 d r c = coordinate (at2 0 lons r c) (at2 0 lats r c)) -> at2 0 (map (metop_row (spl1_with other)) d) r J = s coordinate (INR J)).
  { intros d coordinate [L W] Hd. unfold at2. rewrite (nth_map' _ d r []) by lia. unfold metop_row. rewrite (nth_map' _ (seq 0 2048) J 0%nat) by (now rewrite seq_length). rewrite seq_nth by exact HJ.
    cbn [Nat.add]. unfold spl1_with. cbn [Z.eqb Pos.eqb]. rewrite <- metop_knots_eq, <- INR_IZR_INZ. destruct (Hs coordinate) as [A B].
    assert (Er : nth r d [] = map (fun c => coordinate (at2 0 lons r c) (at2 0 lats r c)) (seq 0 105)).
    { assert (Lr : length (nth r d []) = 105%nat) by (rewrite Forall_forall in W; apply W, nth_In; lia).
      apply (nth_ext _ _ 0 0); [rewrite map_length, seq_length; exact Lr|]. intros c Hc. rewrite Lr in Hc. rewrite (nth_map' _ _ _ 0%nat) by (now rewrite seq_length). rewrite seq_nth by exact Hc. now apply Hd. }
    rewrite Er. symmetry. apply (C99_spline metop_knots _ metop_knots_inc ltac:(rewrite metop_knots_length; lia)); assumption. }
  assert (Tie : forall c, (c < 105)%nat -> at2 0 (cx (lons, lats)) r c = at_x (at2 0 lons r c) (at2 0 lats r c) /\ at2 0 (cy (lons, lats)) r c = at_y (at2 0 lons r c) (at2 0 lats r c) /\ at2 0 (cz (lons, lats)) r c = at_z (at2 0 lons r c) (at2 0 lats r c)).
  { intros c Hc. pose proof (c_at n 105 lons lats r c S1 S2 Hr Hc) as E. rewrite legacy_place in E. apply pair_inj in E. destruct E as [E E3]. apply pair_inj in E. destruct E as [E1 E2]. auto. }
  rewrite (At _ at_x Cx), (At _ at_y Cy), (At _ at_z Cz); [reflexivity| | |]; intros c Hc; apply Tie; exact Hc.
Qed.
Print Assumptions C109_pixel.

(** tie points on a smooth curve, seen in one coordinate: the position computed for column J is near the curve *)
Theorem C109_accuracy : forall coordinate lons lats r s f K J, metop_spline coordinate lons lats r s -> bounded_fourth f 0 2047 K ->
  (forall c, (c < 105)%nat -> coordinate (at2 0 lons r c) (at2 0 lats r c) = f (nth c metop_knots 0)) -> (J < 2048)%nat ->
  Rabs (s (INR J) - f (INR J)) <= 7500 * K /\ ((J <= 4)%nat -> Rabs (s (INR J) - f (INR J)) <= 380 * K) /\ ((2044 <= J)%nat -> Rabs (s (INR J) - f (INR J)) <= 187 * K).
Proof.
  intros coordinate lons lats r s f K J [A B] D Hf HJ.
  assert (HJ' : INR J <= 2047) by (rewrite INR_IZR_INZ; apply IZR_le; lia). pose proof (pos_INR J) as J0.
  assert (HK : 0 <= K). { destruct D as (f1 & f2 & f3 & f4 & D). destruct (D 0 ltac:(lra)) as (_ & _ & _ & _ & E). eapply Rle_trans; [apply Rabs_pos|exact E]. }
  assert (Es : forall x, s x = cubic_splev metop_knots (map f metop_knots) x).
  { intros x. apply (C99_spline metop_knots _ metop_knots_inc ltac:(rewrite metop_knots_length; lia)); [exact A|]. intros i Hi. rewrite (B i Hi). rewrite (nth_map' f _ _ 0) by exact Hi.
    rewrite metop_knots_length in Hi. rewrite (nth_map' _ _ _ 0%nat) by (now rewrite seq_length). rewrite seq_nth by exact Hi. now apply Hf. }
  assert (K0 : nth 0 metop_knots 0 = 0) by reflexivity.
  assert (Kl : forall i, (i < 103)%nat -> nth (S i) metop_knots 0 = 4 + 20 * INR i).
  { intros i Hi. unfold metop_knots. cbn [nth]. rewrite app_nth1 by (now rewrite map_length, seq_length). rewrite (nth_map' _ _ _ 0%nat) by now rewrite seq_length. now rewrite seq_nth. }
  assert (Ke : nth 104 metop_knots 0 = 2047).
  { unfold metop_knots. cbn [nth]. rewrite app_nth2 by (rewrite map_length, seq_length; lia). rewrite map_length, seq_length. reflexivity. }
  assert (Cell : forall i, (i < 104)%nat -> nth i metop_knots 0 <= INR J <= nth (S i) metop_knots 0 -> Rabs (s (INR J) - f (INR J)) <= K * gap metop_knots i ^ 2 * (cell_constant metop_knots 20 i + gap metop_knots i ^ 2 / 8) / 8).
  { intros i Hi Hx. rewrite Es. apply C108_function; [apply metop_knots_inc|rewrite metop_knots_length; lia| | |rewrite metop_knots_length; lia|exact Hx].
    - rewrite metop_knots_length. change (105 - 1)%nat with 104%nat. rewrite K0, Ke. exact D.
    - rewrite metop_knots_length. intros j Hj. rewrite metop_gap by lia. destruct (Nat.eqb j 0); [lra|]. destruct (Nat.eqb j 103); lra. }
  assert (First : (J <= 4)%nat -> Rabs (s (INR J) - f (INR J)) <= 380 * K).
  { intros H4. assert (INR J <= 4) by (rewrite INR_IZR_INZ; apply IZR_le; lia). eapply Rle_trans; [apply (Cell 0%nat); [lia|rewrite K0, Kl by lia; cbn [INR]; lra]|].
    unfold cell_constant. cbv zeta. rewrite !metop_gap by lia. cbn [Nat.eqb]. right. field. }
  assert (Last : (2044 <= J)%nat -> Rabs (s (INR J) - f (INR J)) <= 187 * K).
  { intros H4. assert (2044 <= INR J) by (rewrite INR_IZR_INZ; apply IZR_le; lia). eapply Rle_trans; [apply (Cell 103%nat); [lia|rewrite Ke, (Kl 102%nat) by lia; rewrite (INR_IZR_INZ 102); change (Z.of_nat 102) with 102%Z; lra]|].
    unfold cell_constant. cbv zeta. rewrite metop_knots_length. change (105 - 2)%nat with 103%nat. change (105 - 3)%nat with 102%nat. rewrite !metop_gap by lia. cbn [Nat.eqb]. lra. }
  split; [|split; assumption].
  destruct (le_dec J 4) as [H4|H4]; [specialize (First H4); lra|]. destruct (le_dec 2044 J) as [H5|H5]; [specialize (Last H5); lra|].
  set (i := ((J - 4) / 20)%nat). pose proof (Nat.div_mod (J - 4) 20 ltac:(lia)) as Dm. pose proof (Nat.mod_upper_bound (J - 4) 20 ltac:(lia)) as Mb. fold i in Dm.
  assert (Hi : (i < 102)%nat) by lia.
  eapply Rle_trans; [apply (Cell (S i)); [lia|]|].
  - rewrite !Kl by lia. rewrite S_INR. rewrite !INR_IZR_INZ. split.
    + rewrite <- mult_IZR, <- plus_IZR. apply IZR_le. lia.
    + rewrite <- (plus_IZR _ 1), <- mult_IZR, <- plus_IZR. apply IZR_le. lia.
  - unfold cell_constant. cbv zeta. rewrite metop_knots_length. change (105 - 2)%nat with 103%nat. rewrite !metop_gap by lia. cbn [Nat.eqb].
    destruct (Nat.eqb_spec i 102); [lia|]. lra.
Qed.
Print Assumptions C109_accuracy.

(** not vacuous: a run; an equator scanned at constant speed *)
Example C109_case :
  (exists lo la, metop20kmto1km (spl1_with (fun _ _ _ _ => 0)) (fun _ _ _ _ => 0) (repeat (repeat 10 105) 2) (repeat (repeat 60 105) 2) = Ok (lo, la)) /\
  (forall w, bounded_fourth (fun t => 6370997 * cos (w * t)) 0 2047 (6370997 * w ^ 4)).
Proof.
  split.
  - destruct (C12_metop_shape (spl1_with (fun _ _ _ _ => 0)) (fun _ _ _ _ => 0) 2 _ _ (shaped_repeat 10 2 105) (shaped_repeat 60 2 105)) as (lo & la & E & _). eauto.
  - intros w. assert (S : forall c x, derivable_pt_lim (fun t => c * sin (w * t)) x (c * w * cos (w * x))).
    { intros c x. eapply deriv_eq; [apply (derivable_pt_lim_scal (fun t => sin (w * t)) c)|]; [|rewrite Rmult_assoc; reflexivity].
      eapply deriv_eq; [apply (deriv_ext (fun t => sin (0 + w * t))); [intros; f_equal; ring|apply (deriv_affine sin 0 w x), derivable_pt_lim_sin]|]. rewrite Rplus_0_l. ring. }
    assert (C : forall c x, derivable_pt_lim (fun t => c * cos (w * t)) x (- (c * w) * sin (w * x))).
    { intros c x. eapply deriv_eq; [apply (derivable_pt_lim_scal (fun t => cos (w * t)) c)|]; [|instantiate (1 := - w * sin (w * x)); ring].
      eapply deriv_eq; [apply (deriv_ext (fun t => cos (0 + w * t))); [intros; f_equal; ring|apply (deriv_affine cos 0 w x), derivable_pt_lim_cos]|]. rewrite Rplus_0_l. ring. }
    do 4 eexists. intros x _. split; [apply C|]. split; [apply S|]. split; [apply C|]. split; [apply S|]. cbv beta.
    replace (- (- (6370997 * w) * w * w) * w * cos (w * x)) with (6370997 * w ^ 4 * cos (w * x)) by ring. rewrite Rabs_mult, Rabs_pos_eq.
    + rewrite <- (Rmult_1_r (6370997 * w ^ 4)) at 2. apply Rmult_le_compat_l; [|apply Rabs_le, COS_bound]. replace (w ^ 4) with ((w ^ 2) ^ 2) by ring. pose proof (pow2_ge_0 (w ^ 2)). lra.
    + replace (w ^ 4) with ((w ^ 2) ^ 2) by ring. pose proof (pow2_ge_0 (w ^ 2)). lra.
Qed.

(** ** C110: both axes *)
Lemma order4_le n c : 0 < order4 n c <= 15 / 64.
Proof. unfold order4. destruct (_ || _)%bool; lra. Qed.
Lemma spline_stable h ks vs d c x : evenly h ks -> (4 <= length ks)%nat -> (forall i, (i < length ks)%nat -> Rabs (nth i vs 0) <= d) ->
  (S c < length ks)%nat -> nth c ks 0 <= x <= nth (S c) ks 0 -> Rabs (cubic_splev ks vs x) <= (1 + 4 * edge (length ks) c) * d.
Proof.
  intros Ev L Hd Hc Hx. assert (D0 : 0 <= d) by (eapply Rle_trans; [apply Rabs_pos|apply (Hd 0%nat); lia]).
  assert (Sd : second_differences (length ks) (fun i => nth i vs 0) (4 * d)).
  { intros i Hi. pose proof (Hd i ltac:(lia)) as A. pose proof (Hd (S i) ltac:(lia)) as B. pose proof (Hd (S (S i)) Hi) as C. apply Rabs_le_inv in A, B, C. apply Rabs_le. lra. }
  pose proof (spline_distance h ks vs (4 * d) c x Ev L ltac:(lra) Sd Hc Hx) as M. pose proof (evenly_increasing h ks Ev) as I.
  destruct (line_weights (nth c ks 0) (nth (S c) ks 0) x) as (t & Ht & Et); [apply I; lia|exact Hx|]. rewrite Et in M.
  pose proof (Rabs_weights t _ _ d Ht (Hd c ltac:(lia)) (Hd (S c) Hc)) as W. apply Rabs_le_inv in M, W. apply Rabs_le. lra.
Qed.

(** a field with four bounded derivatives along the tie rows and across them *)
Definition smooth_field (ys xs : list R) (F : R -> R -> R) (Ky Kx : R) : Prop :=
  (forall r, (r < length ys)%nat -> bounded_fourth (F (nth r ys 0)) (nth 0 xs 0) (nth (length xs - 1) xs 0) Kx) /\
  (forall x, inside xs x -> bounded_fourth (fun y => F y x) (nth 0 ys 0) (nth (length ys - 1) ys 0) Ky).

Lemma cell_inside ks c x : increasing ks -> (S c < length ks)%nat -> nth c ks 0 <= x <= nth (S c) ks 0 -> inside ks x.
Proof.
  intros I Hc Hx. split.
  - destruct c; [lra|]. pose proof (I 0%nat (S c) ltac:(lia)). lra.
  - destruct (Nat.eq_dec (S c) (length ks - 1)) as [e|]; [rewrite <- e; lra|]. pose proof (I (S c) (length ks - 1)%nat ltac:(lia)). lra.
Qed.

Theorem C110_value : forall other hy hx ys xs w F Ky Kx r c y x,
  evenly hy ys -> evenly hx xs -> (4 <= length ys)%nat -> (4 <= length xs)%nat -> shaped (length ys) (length xs) w ->
  sampled_field ys xs w F -> smooth_field ys xs F Ky Kx ->
  (S r < length ys)%nat -> nth r ys 0 <= y <= nth (S r) ys 0 -> (S c < length xs)%nat -> nth c xs 0 <= x <= nth (S c) xs 0 ->
  exists v, rbs other Spline default_degrees (ys, xs) (double_data w) tt y x = Some v /\
    Rabs (v - F y x) <= order4 (length ys) r * Ky * hy ^ 4 + (1 + 4 * edge (length ys) r) * (order4 (length xs) c * Kx * hx ^ 4).
Proof.
  intros other hy hx ys xs w F Ky Kx r c y x Ey Ex Ly Lx [Lw Fw] Sa [Sx Sy] Hr Hy Hc Hx. rewrite Forall_forall in Fw.
  pose proof (evenly_increasing _ _ Ey) as Iy. pose proof (evenly_increasing _ _ Ex) as Ix.
  pose proof (cell_inside ys r y Iy Hr Hy) as Hy'. pose proof (cell_inside xs c x Ix Hc Hx) as Hx'.
  set (s := fun r => cubic_splev xs (nth r w [])). set (P := map (fun r => s r x) (seq 0 (length ys))).
  exists (cubic_splev ys P y). split.
  { pose proof (C103_spline other default_degrees ys xs w s (fun x => cubic_splev ys (map (fun r => s r x) (seq 0 (length ys)))) y x) as E. cbv beta in E.
    rewrite (proj2 (proj2 (C96_constant_outside xs x Ix ltac:(lia))) Hx'), (proj2 (proj2 (C96_constant_outside ys y Iy ltac:(lia))) Hy') in E.
    apply E; [split; [auto|cbn [deg_y default_degrees]; lia]|split; [auto|cbn [deg_x default_degrees]; lia]|split; [auto|now apply Forall_forall]| |].
    - intros q Hq. destruct (C99_spline xs (nth q w []) Ix ltac:(lia)) as (A & B & _). split; [exact B|left; auto].
    - destruct (C99_spline ys (map (fun r => s r x) (seq 0 (length ys))) Iy ltac:(lia)) as (A & B & _). split; [exact B|left; auto]. }
  set (d := order4 (length xs) c * Kx * hx ^ 4). set (G := map (fun y => F y x) ys).
  assert (Ne : forall q, (q < length ys)%nat -> Rabs (nth q P 0 - nth q G 0) <= d).
  { intros q Hq. unfold P, G. rewrite nth_seq_map by exact Hq. rewrite (nth_map' _ _ _ 0) by exact Hq.
    unfold s. replace (nth q w []) with (map (F (nth q ys 0)) xs).
    - now apply (C108_even hx xs (F (nth q ys 0)) Kx c x Ex Lx (Sx q Hq)).
    - assert (Lq : length (nth q w []) = length xs) by (apply Fw, nth_In; lia).
      apply (nth_ext _ _ 0 0); [now rewrite map_length|]. intros k Hk. rewrite map_length in Hk. rewrite (nth_map' _ _ _ 0) by exact Hk. symmetry. now apply Sa. }
  assert (El : cubic_splev ys P y = 1 * cubic_splev ys (map (fun q => nth q P 0 - nth q G 0) (seq 0 (length ys))) y + 1 * cubic_splev ys G y).
  { apply splev_lin; [exact Iy|exact Ly|]. intros i Hi. rewrite nth_seq_map by exact Hi. ring. }
  pose proof (spline_stable hy ys (map (fun q => nth q P 0 - nth q G 0) (seq 0 (length ys))) d r y Ey Ly) as B1.
  specialize (B1 ltac:(intros i Hi; rewrite nth_seq_map by exact Hi; now apply Ne) Hr Hy).
  pose proof (C108_even hy ys (fun y => F y x) Ky r y Ey Ly (Sy x Hx') Hr Hy) as B2. fold G in B2.
  rewrite El. apply Rabs_le_inv in B1, B2. apply Rabs_le. lra.
Qed.
Print Assumptions C110_value.

(** one bound for the whole area of the tie points *)
Lemma inside_cell ks x : increasing ks -> (2 <= length ks)%nat -> inside ks x -> exists c, (S c < length ks)%nat /\ nth c ks 0 <= x <= nth (S c) ks 0.
Proof.
  intros I L [H0 H1]. assert (G : forall m, (m < length ks)%nat -> x <= nth m ks 0 -> (1 <= m)%nat -> exists c, (S c < length ks)%nat /\ nth c ks 0 <= x <= nth (S c) ks 0).
  { induction m as [|m IH]; [lia|]. intros Hm Hx _. destruct (Rle_dec (nth m ks 0) x) as [C|C]; [exists m; auto|].
    destruct m as [|m]; [lra|]. apply IH; [lia|lra|lia]. }
  apply (G (length ks - 1)%nat); [lia|exact H1|lia].
Qed.
Corollary C110_everywhere : forall other hy hx ys xs w F Ky Kx y x,
  evenly hy ys -> evenly hx xs -> (4 <= length ys)%nat -> (4 <= length xs)%nat -> shaped (length ys) (length xs) w ->
  sampled_field ys xs w F -> smooth_field ys xs F Ky Kx -> inside ys y -> inside xs x ->
  exists v, rbs other Spline default_degrees (ys, xs) (double_data w) tt y x = Some v /\
    Rabs (v - F y x) <= 15 / 64 * (Ky * hy ^ 4 + 11 / 2 * (Kx * hx ^ 4)).
Proof.
  intros other hy hx ys xs w F Ky Kx y x Ey Ex Ly Lx Sw Sa Sm Hy Hx.
  pose proof (evenly_increasing _ _ Ey) as Iy. pose proof (evenly_increasing _ _ Ex) as Ix.
  destruct (inside_cell ys y Iy ltac:(lia) Hy) as (r & Hr & Hy'). destruct (inside_cell xs x Ix ltac:(lia) Hx) as (c & Hc & Hx').
  destruct (C110_value other hy hx ys xs w F Ky Kx r c y x) as (v & E & B); auto. exists v. split; [exact E|]. eapply Rle_trans; [exact B|].
  assert (Py : 0 <= Ky * hy ^ 4).
  { destruct Sm as [_ Sy]. destruct (Sy x Hx) as (f1 & f2 & f3 & f4 & D). destruct (D y Hy) as (_ & _ & _ & _ & K). pose proof (Rabs_pos (f4 y)). destruct Ey. apply Rmult_le_pos; [lra|apply pow_le; lra]. }
  assert (Px : 0 <= Kx * hx ^ 4).
  { destruct Sm as [Sx _]. destruct (Sx 0%nat ltac:(lia)) as (f1 & f2 & f3 & f4 & D). destruct (D x Hx) as (_ & _ & _ & _ & K). pose proof (Rabs_pos (f4 x)). destruct Ex. apply Rmult_le_pos; [lra|apply pow_le; lra]. }
  pose proof (order4_le (length ys) r) as Oy. pose proof (order4_le (length xs) c) as Ox.
  assert (Ed : 1 <= 1 + 4 * edge (length ys) r <= 11 / 2) by (unfold edge; destruct (_ || _)%bool; lra).
  rewrite Rmult_plus_distr_l. apply Rplus_le_compat; [rewrite Rmult_assoc; apply Rmult_le_compat_r; lra|].
  replace (15 / 64 * (11 / 2 * (Kx * hx ^ 4))) with (11 / 2 * (15 / 64 * (Kx * hx ^ 4))) by ring. rewrite Rmult_assoc.
  apply Rmult_le_compat; [lra|apply Rmult_le_pos; lra|lra|apply Rmult_le_compat_r; lra].
Qed.
Print Assumptions C110_everywhere.

(** GeoSplineInterpolator: each cartesian coordinate of the position (C106) is as near to the coordinate of a smooth surface through the tie points *)
Theorem C110_position : forall hy hx ys xs f F Ky Kx y x V,
  evenly hy ys -> evenly hx xs -> (4 <= length ys)%nat -> (4 <= length xs)%nat ->
  (forall r c, (r < length ys)%nat -> (c < length xs)%nat -> f r c = F (nth r ys 0) (nth c xs 0)) -> smooth_field ys xs F Ky Kx ->
  inside ys y -> inside xs x -> tensor_value default_degrees ys xs f (nearest ys y) (nearest xs x) V ->
  Rabs (V - F y x) <= 15 / 64 * (Ky * hy ^ 4 + 11 / 2 * (Kx * hx ^ 4)).
Proof.
  intros hy hx ys xs f F Ky Kx y x V Ey Ex Ly Lx Hf Sm Hy Hx HV.
  set (w := map (fun r => map (f r) (seq 0 (length xs))) (seq 0 (length ys))).
  assert (Sw : shaped (length ys) (length xs) w).
  { split; [unfold w; now rewrite map_length, seq_length|]. apply Forall_map, Forall_forall. intros q _. now rewrite map_length, seq_length. }
  assert (Aw : forall r c, (r < length ys)%nat -> (c < length xs)%nat -> at2 0 w r c = f r c).
  { intros r' c' H1 H2. unfold at2, w. rewrite (nth_map' _ _ _ 0%nat) by now rewrite seq_length. rewrite seq_nth by exact H1. now rewrite nth_seq_map. }
  assert (Ny : enough (deg_y default_degrees) ys) by (split; [exact (evenly_increasing _ _ Ey)|cbn [deg_y default_degrees]; lia]).
  assert (Nx : enough (deg_x default_degrees) xs) by (split; [exact (evenly_increasing _ _ Ex)|cbn [deg_x default_degrees]; lia]).
  pose proof (tensor_unique (fun _ _ _ _ => 0) default_degrees ys xs w f y x V Ny Nx Sw Aw HV) as E.
  destruct (C110_everywhere (fun _ _ _ _ => 0) hy hx ys xs w F Ky Kx y x Ey Ex Ly Lx Sw) as (v & E' & B); auto.
  - intros r c H1 H2. rewrite Aw by assumption. now apply Hf.
  - rewrite E in E'. injection E' as <-. exact B.
Qed.
Print Assumptions C110_position.

(** not vacuous: y^4 + x^4 at 0, 1, 2, 3 along both axes, fourth derivatives 24 *)
Example C110_case : let ks := [0; 1; 2; 3] in let F := fun y x : R => y ^ 4 + x ^ 4 in
  evenly 1 ks /\ sampled_field ks ks (map (fun y => map (F y) ks) ks) F /\ smooth_field ks ks F 24 24 /\ inside ks (3 / 2).
Proof.
  cbv zeta. split; [|split; [|split]].
  - split; [lra|]. intros i Hi. cbn [length] in Hi. destruct i as [|[|[|i]]]; cbn; try lia; lra.
  - intros i j Hi Hj. unfold at2. cbn [length] in Hi, Hj. rewrite (nth_map' _ _ _ 0) by exact Hi. now rewrite (nth_map' _ _ _ 0).
  - assert (B : forall c lo hi, bounded_fourth (fun t => c + t ^ 4) lo hi 24).
    { intros c lo hi. exists (fun t => 4 * t ^ 3), (fun t => 12 * t ^ 2), (fun t => 24 * t), (fun _ => 24). intros t _. split; [|split; [|split; [|split]]].
      - eapply deriv_eq; [apply (derivable_pt_lim_plus (fct_cte c) (fun t => t ^ 4)); [apply derivable_pt_lim_const|apply (derivable_pt_lim_pow t 4)]|]. cbn [INR Nat.pred]. ring.
      - eapply deriv_eq; [apply (deriv_monomial 4 2)|]. cbn [INR]. ring.
      - eapply deriv_eq; [apply (deriv_monomial 12 1)|]. cbn [INR]. ring.
      - apply (deriv_ext (fun t => 24 * t ^ 1)); [intros; ring|]. eapply deriv_eq; [apply (deriv_monomial 24 0)|]. cbn [INR]. ring.
      - rewrite Rabs_pos_eq by lra. lra. }
    split; [intros r _; apply B|]. intros x _. destruct (B (x ^ 4) (nth 0 [0; 1; 2; 3] 0) (nth (length [0; 1; 2; 3] - 1) [0; 1; 2; 3] 0)) as (f1 & f2 & f3 & f4 & D).
    exists f1, f2, f3, f4. intros t Ht. destruct (D t Ht) as (D1 & D2). split; [|exact D2]. revert D1. apply deriv_ext. intros; ring.
  - unfold inside. cbn. lra.
Qed.

(** ** C111: the linear interpolators *)
(** a field with two bounded derivatives along the tie rows and across them *)
Definition curved_field (ys xs : list R) (F : R -> R -> R) (Ky Kx : R) : Prop :=
  (forall r, (r < length ys)%nat -> bounded_curvature (F (nth r ys 0)) (nth 0 xs 0) (nth (length xs - 1) xs 0) Kx) /\
  (forall x, inside xs x -> bounded_curvature (fun y => F y x) (nth 0 ys 0) (nth (length ys - 1) ys 0) Ky).
Lemma curved_cell ks f K c x : increasing ks -> bounded_curvature f (nth 0 ks 0) (nth (length ks - 1) ks 0) K -> (S c < length ks)%nat -> nth c ks 0 <= x <= nth (S c) ks 0 ->
  Rabs (straight_line (nth c ks 0) (f (nth c ks 0)) (nth (S c) ks 0) (f (nth (S c) ks 0)) x - f x) <= K * gap ks c ^ 2 / 8.
Proof.
  intros I B Hc Hx. assert (Le : forall j m, (j <= m < length ks)%nat -> nth j ks 0 <= nth m ks 0).
  { intros j m Hjm. destruct (Nat.eq_dec j m) as [->|]; [lra|]. left. apply I. lia. }
  assert (HK : 0 <= K). { destruct B as (f1 & f2 & H). destruct (H (nth 0 ks 0)) as (_ & _ & B); [split; [lra|apply Le; lia]|]. pose proof (Rabs_pos (f2 (nth 0 ks 0))). lra. }
  pose proof (curved_line f _ _ K (nth c ks 0) (nth (S c) ks 0) x B ltac:(apply Le; lia) ltac:(apply I; lia) ltac:(apply Le; lia) Hx) as B2.
  rewrite Rabs_minus_sym. eapply Rle_trans; [exact B2|]. pose proof (product_quarter _ _ x Hx) as Q. fold (gap ks c) in Q.
  replace (K * gap ks c ^ 2 / 8) with (gap ks c ^ 2 / 4 / 2 * K) by field. apply Rmult_le_compat_r; [exact HK|]. lra.
Qed.
(** GeoGridInterpolator: each cartesian coordinate of the position (C91) *)
Theorem C111_position : forall ys xs f F Ky Kx r c y x, increasing ys -> increasing xs ->
  (forall r c, (r < length ys)%nat -> (c < length xs)%nat -> f r c = F (nth r ys 0) (nth c xs 0)) -> curved_field ys xs F Ky Kx ->
  (S r < length ys)%nat -> nth r ys 0 <= y <= nth (S r) ys 0 -> (S c < length xs)%nat -> nth c xs 0 <= x <= nth (S c) xs 0 ->
  Rabs (PropsGridLinear.bilinear ys xs f r c y x - F y x) <= (Ky * gap ys r ^ 2 + Kx * gap xs c ^ 2) / 8.
Proof.
  intros ys xs f F Ky Kx r c y x Iy Ix Hf [Cx Cy] Hr Hy Hc Hx. unfold PropsGridLinear.bilinear. rewrite !Hf by lia.
  pose proof (curved_cell xs (F (nth r ys 0)) Kx c x Ix (Cx r ltac:(lia)) Hc Hx) as B0. pose proof (curved_cell xs (F (nth (S r) ys 0)) Kx c x Ix (Cx (S r) Hr) Hc Hx) as B1.
  pose proof (curved_cell ys (fun y => F y x) Ky r y Iy (Cy x (cell_inside xs c x Ix Hc Hx)) Hr Hy) as B2. cbv beta in B2.
  destruct (line_weights (nth r ys 0) (nth (S r) ys 0) y) as (u & Hu & Eu); [apply Iy; lia|exact Hy|]. rewrite !Eu in *.
  pose proof (Rabs_weights u _ _ _ Hu B0 B1) as W. apply Rabs_le_inv in W, B2. apply Rabs_le. lra.
Qed.
Print Assumptions C111_position.

Theorem C111_value : forall i ys xs w F Ky Kx r c y x, axes ys xs -> shaped (length ys) (length xs) w -> sampled_field ys xs w F -> curved_field ys xs F Ky Kx ->
  (S r < length ys)%nat -> nth r ys 0 <= y <= nth (S r) ys 0 -> (S c < length xs)%nat -> nth c xs 0 <= x <= nth (S c) xs 0 ->
  exists v, grid i (points_of ys xs) (finite w) tt (Some y) (Some x) = Some (Some v) /\
    Rabs (v - F y x) <= (Ky * gap ys r ^ 2 + Kx * gap xs c ^ 2) / 8.
Proof.
  intros i ys xs w F Ky Kx r c y x Ha Sw Sa Cf Hr Hy Hc Hx. destruct Ha as (Iy & Ix & Ly & Lx).
  exists (PropsGridLinear.bilinear ys xs (at2 0 w) r c y x). split.
  - apply C90_bilinear; [repeat split; auto|exact Sw|split; [exact Hr|split; right; lra]|split; [exact Hc|split; right; lra]|].
    right. split; eapply cell_inside; eauto.
  - apply C111_position; auto.
Qed.
Print Assumptions C111_value.

(** the bound is attained: x^2 between 0 and 1, second derivative 2 *)
Example C111_case : let ks := [0; 1] in let F := fun y x : R => 0 * y + x ^ 2 in
  axes ks ks /\ curved_field ks ks F 0 2 /\ sampled_field ks ks [[0; 1]; [0; 1]] F /\
  (forall v, grid {| bounds_error := true; fill_value := None |} (points_of ks ks) (finite [[0; 1]; [0; 1]]) tt (Some 0) (Some (1 / 2)) = Some (Some v) ->
     Rabs (v - F 0 (1 / 2)) = (0 * gap ks 0 ^ 2 + 2 * gap ks 0 ^ 2) / 8).
Proof.
  cbv zeta. assert (I : increasing [0; 1]) by (intros a b H; cbn [length] in H; destruct a as [|[|a]]; destruct b as [|[|b]]; cbn; try lia; lra).
  assert (A : axes [0; 1] [0; 1]) by (repeat split; auto; cbn; lia). split; [exact A|]. split; [|split].
  - assert (B : forall K2 lo hi, 0 <= K2 -> bounded_curvature (fun x => K2 / 2 * x ^ 2) lo hi K2).
    { intros K2 lo hi H. exists (fun x => K2 * x), (fun _ => K2). intros t _. split; [|split].
      - eapply deriv_eq; [apply (deriv_monomial (K2 / 2) 1)|]. cbn [INR]. field.
      - apply (deriv_ext (fun t => K2 * t ^ 1)); [intros; ring|]. eapply deriv_eq; [apply (deriv_monomial K2 0)|]. cbn [INR]. ring.
      - rewrite Rabs_pos_eq by exact H. lra. }
    split.
    + intros r _. destruct (B 2 (nth 0 [0; 1] 0) (nth (length [0; 1] - 1) [0; 1] 0) ltac:(lra)) as (f1 & f2 & D). exists f1, f2. intros t Ht. destruct (D t Ht) as (D1 & D2). split; [|exact D2]. revert D1. apply deriv_ext. intros; field.
    + intros x _. exists (fun _ => 0), (fun _ => 0). intros t _. split; [|split; [apply derivable_pt_lim_const|rewrite Rabs_R0; lra]].
      apply (deriv_ext (fct_cte (x ^ 2))); [intros; unfold fct_cte; ring|apply derivable_pt_lim_const].
  - intros i j Hi Hj. cbn [length] in Hi, Hj. destruct i as [|[|i]]; destruct j as [|[|j]]; cbn; try lia; ring.
  - intros v E. rewrite (C90_bilinear _ [0; 1] [0; 1] [[0; 1]; [0; 1]] 0 0 0 (1 / 2) A) in E.
    + injection E as <-. unfold PropsGridLinear.bilinear, straight_line, gap, at2. cbn. rewrite Rabs_pos_eq; lra.
    + split; [reflexivity|]. repeat (apply Forall_cons || apply Forall_nil); reflexivity.
    + split; [cbn; lia|split; right; cbn; lra].
    + split; [cbn; lia|split; right; cbn; lra].
    + right. unfold inside. cbn. lra.
Qed.
