(** C127: between the tie points the satellite-angle MODIS interpolation follows the viewing geometry to third order. *)
From Coq Require Import ZArith List Lia Bool Reals Lra Arith.
From Verif Require Import Base Num Geo GeoProofs GeoAgree Mem Modis ModisProofs ModisOob ModisAngles PropsGeo PropsModis PropsSimple PropsCubic PropsAccuracy PropsGround PropsModisValues PropsScanAcc.
From Verif Require Import PiBound FloatModis.
Import ListNotations.
Open Scope Z_scope.
Open Scope R_scope.

(** ** A parabola through both ends and the middle *)
Definition parabola (f : R -> R) (u : R) : R := f 0 + u * (f 1 - f 0) + u * (1 - u) * (4 * f (1 / 2) - 2 * f 0 - 2 * f 1).
Definition third_derivative (f f3 : R -> R) (lo hi : R) : Prop :=
  exists f1 f2, forall x, lo <= x <= hi -> derivable_pt_lim f x (f1 x) /\ derivable_pt_lim f1 x (f2 x) /\ derivable_pt_lim f2 x (f3 x).

Lemma rolle_zero f f1 a b : a < b -> (forall x, a <= x <= b -> derivable_pt_lim f x (f1 x)) -> f a = 0 -> f b = 0 -> exists c, a < c < b /\ f1 c = 0.
Proof.
  intros Hab D Ha Hb. destruct (MVT_cor2 f f1 a b Hab D) as (c & E & Hc). exists c. split; [exact Hc|]. rewrite Ha, Hb in E.
  assert (b - a <> 0) by lra. assert (f1 c * (b - a) = 0) by lra. apply Rmult_integral in H0. tauto.
Qed.
Lemma rolle4 g g3 a b c d : third_derivative g g3 a d -> a < b -> b < c -> c < d -> g a = 0 -> g b = 0 -> g c = 0 -> g d = 0 -> exists x, a < x < d /\ g3 x = 0.
Proof.
  intros (g1 & g2 & D) Hab Hbc Hcd Za Zb Zc Zd.
  destruct (rolle_zero g g1 a b Hab) as (p & Hp & Zp); [intros x Hx; apply D; lra|exact Za|exact Zb|].
  destruct (rolle_zero g g1 b c Hbc) as (q & Hq & Zq); [intros x Hx; apply D; lra|exact Zb|exact Zc|].
  destruct (rolle_zero g g1 c d Hcd) as (r & Hr & Zr); [intros x Hx; apply D; lra|exact Zc|exact Zd|].
  destruct (rolle_zero g1 g2 p q ltac:(lra)) as (s & Hs & Zs); [intros x Hx; apply D; lra|exact Zp|exact Zq|].
  destruct (rolle_zero g1 g2 q r ltac:(lra)) as (t & Ht & Zt); [intros x Hx; apply D; lra|exact Zq|exact Zr|].
  destruct (rolle_zero g2 g3 s t ltac:(lra)) as (x & Hx & Zx); [intros x Hx; apply D; lra|exact Zs|exact Zt|].
  exists x. split; [lra|exact Zx].
Qed.
Lemma poly3_deriv c0 c1 c2 c3 x : derivable_pt_lim (fun t => c0 + c1 * t + c2 * t ^ 2 + c3 * t ^ 3) x (c1 + 2 * c2 * x + 3 * c3 * x ^ 2).
Proof.
  eapply deriv_eq.
  - apply (derivable_pt_lim_plus (fun t => c0 + c1 * t + c2 * t ^ 2) (fun t => c3 * t ^ 3)).
    + apply (derivable_pt_lim_plus (fun t => c0 + c1 * t) (fun t => c2 * t ^ 2)).
      * apply (derivable_pt_lim_plus (fun _ => c0) (fun t => c1 * t)); [apply derivable_pt_lim_const|]. apply (derivable_pt_lim_scal (fun t => t) c1). apply derivable_pt_lim_id.
      * apply (derivable_pt_lim_scal (fun t => t ^ 2) c2). apply (derivable_pt_lim_pow x 2).
    + apply (derivable_pt_lim_scal (fun t => t ^ 3) c3). apply (derivable_pt_lim_pow x 3).
  - cbn. ring.
Qed.
Lemma parabola_error f f3 K u : third_derivative f f3 0 1 -> (forall x, 0 <= x <= 1 -> Rabs (f3 x) <= K) -> 0 <= u <= 1 -> Rabs (parabola f u - f u) <= K / 120.
Proof.
  intros D HK Hu. assert (K0 : 0 <= K) by (eapply Rle_trans; [apply Rabs_pos|apply (HK 0); lra]).
  set (w := fun t => t * (t - 1 / 2) * (t - 1)).
  assert (Z3 : parabola f 0 - f 0 = 0 /\ parabola f (1 / 2) - f (1 / 2) = 0 /\ parabola f 1 - f 1 = 0) by (unfold parabola; repeat split; field).
  destruct Z3 as (Z0 & Zh & Z1).
  destruct (Req_dec u 0) as [->|N0]; [rewrite Z0, Rabs_R0; lra|]. destruct (Req_dec u 1) as [->|N1]; [rewrite Z1, Rabs_R0; lra|].
  destruct (Req_dec u (1 / 2)) as [->|Nh]; [rewrite Zh, Rabs_R0; lra|].
  assert (W0 : w u <> 0) by (unfold w; intros E; apply Rmult_integral in E; destruct E as [E|E]; [apply Rmult_integral in E; destruct E|]; lra).
  set (c := (f u - parabola f u) / w u). set (g := fun t => f t - (parabola f t + c * w t)).
  set (A := 4 * f (1 / 2) - 2 * f 0 - 2 * f 1).
  assert (DG : third_derivative g (fun x => f3 x - 6 * c) 0 1).
  { destruct D as (f1 & f2 & D). set (q0 := f 0). set (q1 := f 1 - f 0 + A + c / 2). set (q2 := - A - c * (3 / 2)).
    exists (fun x => f1 x - (q1 + 2 * q2 * x + 3 * c * x ^ 2)), (fun x => f2 x - (2 * q2 + 6 * c * x)). intros x Hx. destruct (D x Hx) as (D1 & D2 & D3). split; [|split].
    - apply (deriv_ext (fun t => f t - (q0 + q1 * t + q2 * t ^ 2 + c * t ^ 3))); [intros t; unfold g, parabola, w; fold A; unfold q0, q1, q2; field|].
      apply derivable_pt_lim_minus; [exact D1|]. apply poly3_deriv.
    - apply derivable_pt_lim_minus; [exact D2|]. eapply deriv_eq; [apply (deriv_ext (fun t => q1 + 2 * q2 * t + 3 * c * t ^ 2 + 0 * t ^ 3)); [intros; ring|apply poly3_deriv]|ring].
    - apply derivable_pt_lim_minus; [exact D3|]. eapply deriv_eq; [apply (deriv_ext (fun t => 2 * q2 + 6 * c * t + 0 * t ^ 2 + 0 * t ^ 3)); [intros; ring|apply poly3_deriv]|ring]. }
  assert (G : g 0 = 0 /\ g (1 / 2) = 0 /\ g 1 = 0 /\ g u = 0).
  { unfold g. replace (w 0) with 0 by (unfold w; ring). replace (w (1 / 2)) with 0 by (unfold w; field). replace (w 1) with 0 by (unfold w; ring). repeat split; try lra. unfold c. field. exact W0. }
  destruct G as (G0 & Gh & G1 & Gu).
  assert (X : exists x, 0 < x < 1 /\ f3 x - 6 * c = 0).
  { destruct (Rlt_dec u (1 / 2)); [apply (rolle4 g _ 0 u (1 / 2) 1)|apply (rolle4 g _ 0 (1 / 2) u 1)]; auto; lra. }
  destruct X as (x & Hx & Ex). assert (Ec : c = f3 x / 6) by lra. specialize (HK x ltac:(lra)).
  assert (E : parabola f u - f u = - (c * w u)) by (unfold c; field; exact W0). rewrite E, Rabs_Ropp, Rabs_mult.
  assert (Wb : Rabs (w u) <= / 20).
  { apply Rabs_le. assert (S : (w u) ^ 2 <= (/ 20) ^ 2).
    { replace (w u ^ 2) with ((u - 1 / 2) ^ 2 * (1 / 4 - (u - 1 / 2) ^ 2) ^ 2) by (unfold w; field). set (t := (u - 1 / 2) ^ 2). assert (0 <= t <= 1 / 4) by (unfold t; nra).
      assert (0 <= (1 / 3 - t) * (t - 1 / 12) ^ 2) by (apply Rmult_le_pos; [lra|apply pow2_ge_0]). nra. }
    nra. }
  assert (Cb : Rabs c <= K / 6) by (rewrite Ec; unfold Rdiv; rewrite Rabs_mult, (Rabs_pos_eq (/ 6)) by lra; lra).
  pose proof (Rabs_pos c). pose proof (Rabs_pos (w u)). replace (K / 120) with (K / 6 * / 20) by field. apply Rmult_le_compat; lra.
Qed.

(** ** The angle at the centre of the earth as a function of the nadir angle *)
Definition zenith (phi : R) : R := asin (sin phi / kap).
Definition arc (phi : R) : R := zenith phi - phi.
Definition zenith1 (phi : R) : R := cos phi / kap / cos (zenith phi).
Definition zenith2 (phi : R) : R := sin (zenith phi) / cos (zenith phi) * (zenith1 phi * zenith1 phi - 1).
Definition zenith3 (phi : R) : R := zenith1 phi * (zenith1 phi * zenith1 phi - 1) * (1 + 2 * (sin (zenith phi) * sin (zenith phi))) / (cos (zenith phi) * cos (zenith phi)).
Definition in_view (phi : R) : Prop := 0 <= phi <= PI / 2 /\ sin phi / kap <= sin z70.

Lemma deriv_asin x : -1 < x < 1 -> derivable_pt_lim asin x (1 / sqrt (1 - x * x)).
Proof. intros H. pose proof (derive_pt_asin x H) as D. apply derive_pt_eq in D. exact D. Qed.
Lemma zenith_in phi : in_view phi -> sin (zenith phi) = sin phi / kap /\ 0 <= zenith phi <= z70 /\ 34 / 100 <= cos (zenith phi).
Proof.
  intros [H1 H2]. pose proof z70_b. pose proof PI_bounds. pose proof kap_b as K. assert (S0 : 0 <= sin phi) by (apply sin_ge_0; lra).
  assert (Q0 : 0 <= sin phi / kap) by (apply Rle_mult_inv_pos; lra). pose proof (SIN_bound z70) as B.
  assert (E : sin (zenith phi) = sin phi / kap) by (unfold zenith; apply sin_asin; lra). split; [exact E|].
  assert (R : 0 <= zenith phi <= z70).
  { unfold zenith. rewrite <- asin_0, <- (asin_sin z70) by lra. split; apply asin_le; lra. }
  split; [exact R|]. now apply cos_70.
Qed.
Lemma zenith_deriv phi : in_view phi -> derivable_pt_lim zenith phi (zenith1 phi).
Proof.
  intros H. destruct (zenith_in phi H) as (E & R & C). destruct H as [H1 H2]. pose proof z70_b. pose proof PI_bounds. pose proof kap_b as K.
  assert (S0 : 0 <= sin phi) by (apply sin_ge_0; lra). assert (Q0 : 0 <= sin phi / kap) by (apply Rle_mult_inv_pos; lra).
  assert (S7 : sin z70 < 1). { rewrite <- sin_PI2. apply sin_increasing_1; lra. }
  unfold zenith. eapply deriv_eq.
  - apply (derivable_pt_lim_comp (fun t => sin t / kap) asin).
    + apply (deriv_ext (fun t => / kap * sin t)); [intros; unfold Rdiv; ring|]. apply (derivable_pt_lim_scal sin (/ kap)), derivable_pt_lim_sin.
    + apply deriv_asin. lra.
  - unfold zenith1. assert (EC : sqrt (1 - sin phi / kap * (sin phi / kap)) = cos (zenith phi)).
    { rewrite <- E. pose proof (sin2_cos2 (zenith phi)) as Q. unfold Rsqr in Q. replace (1 - sin (zenith phi) * sin (zenith phi)) with (cos (zenith phi) * cos (zenith phi)) by lra. apply sqrt_square. lra. }
    rewrite EC. field. split; lra.
Qed.
Lemma zenith1_sq phi : in_view phi -> (zenith1 phi * zenith1 phi - 1) * (cos (zenith phi) * cos (zenith phi)) = / (kap * kap) - 1.
Proof.
  intros H. destruct (zenith_in phi H) as (E & R & C). pose proof kap_b as K. pose proof (sin2_cos2 phi) as Q1. pose proof (sin2_cos2 (zenith phi)) as Q2. unfold Rsqr in Q1, Q2.
  unfold zenith1. replace ((cos phi / kap / cos (zenith phi) * (cos phi / kap / cos (zenith phi)) - 1) * (cos (zenith phi) * cos (zenith phi)))
    with (cos phi * cos phi / (kap * kap) - cos (zenith phi) * cos (zenith phi)) by (field; split; lra).
  replace (cos phi * cos phi) with (1 - sin phi * sin phi) by lra. replace (cos (zenith phi) * cos (zenith phi)) with (1 - sin (zenith phi) * sin (zenith phi)) by lra. rewrite E. field. lra.
Qed.
Lemma zenith1_deriv phi : in_view phi -> derivable_pt_lim zenith1 phi (zenith2 phi).
Proof.
  intros H. destruct (zenith_in phi H) as (E & R & C). pose proof kap_b as K. unfold zenith1. eapply deriv_eq.
  - apply (derivable_pt_lim_div (fun t => cos t / kap) (fun t => cos (zenith t))).
    + apply (deriv_ext (fun t => / kap * cos t)); [intros; unfold Rdiv; ring|]. apply (derivable_pt_lim_scal cos (/ kap)), derivable_pt_lim_cos.
    + apply (derivable_pt_lim_comp zenith cos); [apply zenith_deriv, H|apply derivable_pt_lim_cos].
    + lra.
  - cbv beta. unfold zenith2, zenith1, Rsqr. rewrite E. field. split; lra.
Qed.
Lemma zenith2_deriv phi : in_view phi -> derivable_pt_lim zenith2 phi (zenith3 phi).
Proof.
  intros H. destruct (zenith_in phi H) as (E & R & C). pose proof kap_b as K. unfold zenith2. eapply deriv_eq.
  - apply (derivable_pt_lim_mult (fun t => sin (zenith t) / cos (zenith t)) (fun t => zenith1 t * zenith1 t - 1)).
    + apply (derivable_pt_lim_div (fun t => sin (zenith t)) (fun t => cos (zenith t))); [apply (derivable_pt_lim_comp zenith sin); [apply zenith_deriv, H|apply derivable_pt_lim_sin]
       |apply (derivable_pt_lim_comp zenith cos); [apply zenith_deriv, H|apply derivable_pt_lim_cos]|lra].
    + apply (derivable_pt_lim_minus (fun t => zenith1 t * zenith1 t) (fun _ => 1)); [|apply (derivable_pt_lim_const 1)].
      apply (derivable_pt_lim_mult zenith1 zenith1); apply zenith1_deriv, H.
  - cbv beta. unfold zenith3, zenith2, Rsqr. pose proof (sin2_cos2 (zenith phi)) as Q. unfold Rsqr in Q.
    set (s := sin (zenith phi)) in *. set (c := cos (zenith phi)) in *. set (z := zenith1 phi). clearbody s c z.
    transitivity (z * (z * z - 1) * ((s * s + c * c) + 2 * (s * s)) / (c * c)); [field; lra|]. replace (s * s + c * c) with 1 by lra. reflexivity.
Qed.

(** how the third derivative grows towards the edge of the swath *)
Lemma zenith1_b phi : in_view phi -> 1 <= zenith1 phi <= 175 / 100.
Proof.
  intros H. pose proof (zenith1_sq phi H) as S. destruct (zenith_in phi H) as (E & R & C). pose proof kap_b as K. pose proof PI_bounds.
  assert (KK : 234 / 1000 <= / (kap * kap) - 1 <= 236 / 1000).
  { assert (L : 8096 / 10000 <= kap * kap <= 8098 / 10000) by nra. split.
    - assert (/ (8098 / 10000) <= / (kap * kap)) by (apply Rinv_le_contravar; lra). lra.
    - assert (/ (kap * kap) <= / (8096 / 10000)) by (apply Rinv_le_contravar; lra). lra. }
  rewrite <- S in KK. set (z := zenith1 phi) in *. set (c := cos (zenith phi)) in *.
  assert (Z0 : 0 <= z). { unfold z, zenith1. fold c. apply Rle_mult_inv_pos; [|lra]. apply Rle_mult_inv_pos; [|lra]. apply cos_ge_0; destruct H; lra. }
  assert (CC : 1156 / 10000 <= c * c) by nra. assert (P : 0 < z * z - 1) by nra. split; [nra|].
  assert ((z * z - 1) * (1156 / 10000) <= (z * z - 1) * (c * c)) by (apply Rmult_le_compat_l; lra). nra.
Qed.
Lemma zenith3_b phi : in_view phi -> Rabs (zenith3 phi) <= 100.
Proof.
  intros H. pose proof (zenith1_b phi H) as Z. pose proof (zenith1_sq phi H) as S. destruct (zenith_in phi H) as (E & R & C). pose proof kap_b as K.
  assert (KK : / (kap * kap) - 1 <= 236 / 1000).
  { assert (L : 8096 / 10000 <= kap * kap) by nra. assert (/ (kap * kap) <= / (8096 / 10000)) by (apply Rinv_le_contravar; lra). lra. }
  rewrite <- S in KK. unfold zenith3. pose proof (sin2_cos2 (zenith phi)) as Q. unfold Rsqr in Q. set (z := zenith1 phi) in *. set (c := cos (zenith phi)) in *. set (s := sin (zenith phi)) in *.
  assert (CC : 1156 / 10000 <= c * c) by nra. assert (P0 : 0 <= z * z - 1) by nra. set (D := c * c) in *.
  assert (SS : s * s = 1 - D) by lra. rewrite SS. set (Z2 := z * z - 1) in *.
  assert (0 <= s * s) by nra. assert (D1 : D <= 1) by lra.
  assert (N0 : 0 <= z * Z2 * (1 + 2 * (1 - D))) by (apply Rmult_le_pos; [apply Rmult_le_pos|]; lra).
  rewrite Rabs_pos_eq by (apply Rle_mult_inv_pos; lra). apply (Rmult_le_reg_r (D * D)); [nra|].
  replace (z * Z2 * (1 + 2 * (1 - D)) / D * (D * D)) with (z * (Z2 * D) * (3 - 2 * D)) by (field; lra).
  assert (z * (Z2 * D) <= 175 / 100 * (236 / 1000)) by (apply Rmult_le_compat; try lra; apply Rmult_le_pos; lra).
  assert (0 <= z * (Z2 * D)) by (apply Rmult_le_pos; [lra|apply Rmult_le_pos; lra]).
  assert (z * (Z2 * D) * (3 - 2 * D) <= 413 / 1000 * (3 - 2 * D)) by (apply Rmult_le_compat_r; lra). nra.
Qed.
Lemma view_mix a b u : in_view a -> in_view b -> 0 <= u <= 1 -> in_view (a + (b - a) * u).
Proof.
  intros Ha Hb Hu. destruct Ha as [A1 A2], Hb as [B1 B2]. assert (M : forall a b, 0 <= a <= PI / 2 -> 0 <= b <= PI / 2 -> a <= b -> forall u, 0 <= u <= 1 -> a <= a + (b - a) * u <= b) by (intros; split; nra).
    assert (X : exists m, (m = a \/ m = b) /\ 0 <= a + (b - a) * u <= m).
    { destruct (Rle_dec a b) as [L|L]; [exists b; split; [auto|]; pose proof (M a b A1 B1 L u Hu); lra|].
      exists a. split; [auto|]. pose proof (M b a B1 A1 ltac:(lra) (1 - u) ltac:(lra)) as Q. replace (b + (a - b) * (1 - u)) with (a + (b - a) * u) in Q by ring. lra. }
    destruct X as (m & Hm & Hx). assert (Vm : 0 <= m <= PI / 2 /\ sin m / kap <= sin z70) by (destruct Hm; subst; auto). split; [lra|].
    pose proof kap_b. eapply Rle_trans; [|apply Vm]. apply Rmult_le_compat_r; [apply Rlt_le, Rinv_0_lt_compat; lra|]. apply sin_incr_1; lra.
Qed.
Lemma arc_third a b : in_view a -> in_view b -> third_derivative (fun u => arc (a + (b - a) * u)) (fun u => zenith3 (a + (b - a) * u) * (b - a) ^ 3) 0 1.
Proof.
  intros Ha Hb. exists (fun u => (zenith1 (a + (b - a) * u) - 1) * (b - a)), (fun u => zenith2 (a + (b - a) * u) * (b - a) ^ 2). intros u Hu.
  pose proof (view_mix a b u Ha Hb Hu) as V.
  split; [|split].
  - apply (deriv_affine arc a (b - a) u). apply (derivable_pt_lim_minus zenith (fun t => t)); [apply zenith_deriv, V|apply derivable_pt_lim_id].
  - eapply deriv_eq; [apply (deriv_ext (fun u => (b - a) * (zenith1 (a + (b - a) * u) - 1))); [intros; ring|]|].
    + apply (derivable_pt_lim_scal (fun u => zenith1 (a + (b - a) * u) - 1)). apply (derivable_pt_lim_minus (fun u => zenith1 (a + (b - a) * u)) (fun _ => 1)); [|apply (derivable_pt_lim_const 1)].
      apply (deriv_affine zenith1 a (b - a) u), zenith1_deriv, V.
    + ring.
  - eapply deriv_eq; [apply (deriv_ext (fun u => (b - a) ^ 2 * zenith2 (a + (b - a) * u))); [intros; ring|]|].
    + apply (derivable_pt_lim_scal (fun u => zenith2 (a + (b - a) * u))). apply (deriv_affine zenith2 a (b - a) u), zenith2_deriv, V.
    + ring.
Qed.
Lemma view_between a b u : in_view a -> in_view b -> 0 <= u <= 1 -> Rabs (parabola (fun u => arc (a + (b - a) * u)) u - arc (a + (b - a) * u)) <= 5 / 6 * Rabs (b - a) ^ 3.
Proof.
  intros Ha Hb Hu. assert (B3 : forall x, 0 <= x <= 1 -> Rabs (zenith3 (a + (b - a) * x) * (b - a) ^ 3) <= 100 * Rabs (b - a) ^ 3).
  { intros x Hx. rewrite Rabs_mult, <- RPow_abs. apply Rmult_le_compat_r; [apply pow_le, Rabs_pos|]. apply zenith3_b.
    now apply view_mix. }
  pose proof (parabola_error (fun u => arc (a + (b - a) * u)) _ _ u (arc_third a b Ha Hb) B3 Hu) as P. lra.
Qed.

(** ** Great circles *)
Definition dot (A B : R * R * R) : R := let '(a, b, c) := A in let '(d, e, f) := B in a * d + b * e + c * f.
Definition orthonormal (A B : R * R * R) : Prop := dot A A = 1 /\ dot B B = 1 /\ dot A B = 0.
(** the combination of two points with weights 1 - u and u *)
Definition mix (u : R) (p q : R * R * R) : R * R * R :=
  let '(a, b, c) := p in let '(d, e, f) := q in ((1 - u) * a + u * d, (1 - u) * b + u * e, (1 - u) * c + u * f).
(** the point of the great circle through A and B (radius r) at the angle t from A *)
Definition circle (r : R) (A B : R * R * R) (t : R) : R * R * R :=
  let '(a, b, c) := A in let '(d, e, f) := B in (r * (cos t * a + sin t * d), r * (cos t * b + sin t * e), r * (cos t * c + sin t * f)).

Lemma circle_diff r A B c s c' s' : 0 <= r -> orthonormal A B ->
  let P (c s : R) := let '(a1, a2, a3) := A in let '(b1, b2, b3) := B in (r * (c * a1 + s * b1), r * (c * a2 + s * b2), r * (c * a3 + s * b3)) in
  PropsGround.distance (P c s) (P c' s') = r * sqrt ((c - c') ^ 2 + (s - s') ^ 2).
Proof.
  destruct A as [[a1 a2] a3], B as [[b1 b2] b3]. intros Hr (H1 & H2 & H3). unfold dot in *. cbv zeta. unfold PropsGround.distance.
  rewrite <- (sqrt_square r) at 7 by exact Hr. rewrite <- sqrt_mult_alt by nra. f_equal.
  transitivity (r * r * ((c - c') ^ 2 * (a1 * a1 + a2 * a2 + a3 * a3) + (s - s') ^ 2 * (b1 * b1 + b2 * b2 + b3 * b3) + 2 * (c - c') * (s - s') * (a1 * b1 + a2 * b2 + a3 * b3))); [ring|].
  rewrite H1, H2, H3. ring.
Qed.
Lemma chord_flat al ta tb : sqrt (((1 - al) * cos ta + al * cos tb - cos (ta + al * (tb - ta))) ^ 2 + ((1 - al) * sin ta + al * sin tb - sin (ta + al * (tb - ta))) ^ 2)
  <= Rabs (al * (1 - al)) / 2 * (tb - ta) ^ 2.
Proof.
  set (al' := (1 - al) * cos ta + al * cos tb - cos (ta + al * (tb - ta))). set (be := (1 - al) * sin ta + al * sin tb - sin (ta + al * (tb - ta))).
  set (n := sqrt (al' ^ 2 + be ^ 2)). assert (R0 : 0 <= Rabs (al * (1 - al)) / 2 * (tb - ta) ^ 2) by (apply Rmult_le_pos; [pose proof (Rabs_pos (al * (1 - al))); lra|apply pow2_ge_0]).
  assert (S0 : 0 <= al' ^ 2 + be ^ 2) by (pose proof (pow2_ge_0 al'); pose proof (pow2_ge_0 be); lra).
  assert (NN : n * n = al' ^ 2 + be ^ 2) by (apply sqrt_sqrt, S0). assert (N0 : 0 <= n) by apply sqrt_pos.
  destruct (Req_dec n 0) as [Z|NZ]; [rewrite Z; exact R0|]. set (p := al' / n). set (q := be / n).
  assert (PQ : p * p + q * q = 1) by (unfold p, q; replace (al' / n * (al' / n) + be / n * (be / n)) with ((al' ^ 2 + be ^ 2) / (n * n)) by (field; exact NZ); rewrite NN; field; nra).
  set (f := fun t => p * cos t + q * sin t).
  assert (EN : n = (1 - al) * f ta + al * f tb - f (ta + al * (tb - ta))).
  { transitivity (p * al' + q * be).
    - unfold p, q. replace (al' / n * al' + be / n * be) with ((al' ^ 2 + be ^ 2) / n) by (field; exact NZ). rewrite <- NN. field. exact NZ.
    - unfold f, al', be. ring. }
  assert (BC : forall lo hi, bounded_curvature f lo hi 1).
  { intros lo hi. exists (fun t => - p * sin t + q * cos t), (fun t => - p * cos t - q * sin t). intros t _. split; [|split].
    - eapply deriv_eq; [apply (derivable_pt_lim_plus (fun t => p * cos t) (fun t => q * sin t)); [apply (derivable_pt_lim_scal cos p), derivable_pt_lim_cos|apply (derivable_pt_lim_scal sin q), derivable_pt_lim_sin]|ring].
    - eapply deriv_eq; [apply (derivable_pt_lim_plus (fun t => - p * sin t) (fun t => q * cos t)); [apply (derivable_pt_lim_scal sin (- p)), derivable_pt_lim_sin|apply (derivable_pt_lim_scal cos q), derivable_pt_lim_cos]|ring].
    - pose proof (sin2_cos2 t) as Q. unfold Rsqr in Q. apply Rabs_le. assert (E : (- p * cos t - q * sin t) ^ 2 + (p * sin t - q * cos t) ^ 2 = 1).
      { transitivity ((p * p + q * q) * (sin t * sin t + cos t * cos t)); [ring|]. rewrite PQ, Q. ring. }
      pose proof (pow2_ge_0 (p * sin t - q * cos t)). nra. }
  assert (G : forall x a b, a < b -> forall s, x = a + s * (b - a) -> Rabs ((1 - s) * f a + s * f b - f x) <= Rabs (s * (1 - s)) / 2 * (b - a) ^ 2).
  { intros x a b Hab s ->. pose proof (curved_beyond f (Rmin a (a + s * (b - a))) (Rmax b (a + s * (b - a))) 1 a b (a + s * (b - a)) (BC _ _)) as C.
    assert (M1 := Rmin_l a (a + s * (b - a))). assert (M2 := Rmin_r a (a + s * (b - a))). assert (M3 := Rmax_l b (a + s * (b - a))). assert (M4 := Rmax_r b (a + s * (b - a))).
    specialize (C M1 Hab M3 (conj M2 M4)).
    replace (f a + (a + s * (b - a) - a) * ((f b - f a) / (b - a)) - f (a + s * (b - a))) with ((1 - s) * f a + s * f b - f (a + s * (b - a))) in C by (field; lra).
    eapply Rle_trans; [exact C|]. replace ((a + s * (b - a) - a) * (a + s * (b - a) - b)) with (- (s * (1 - s)) * (b - a) ^ 2) by ring.
    rewrite Rabs_mult, Rabs_Ropp, (Rabs_pos_eq ((b - a) ^ 2)) by apply pow2_ge_0. right. field. }
  rewrite EN. eapply Rle_trans; [apply Rle_abs|]. destruct (Rtotal_order ta tb) as [L|[E|L]].
  - now apply G.
  - exfalso. apply NZ. rewrite EN, E. replace (tb + al * (tb - tb)) with tb by ring. ring.
  - pose proof (G (ta + al * (tb - ta)) tb ta L (1 - al) ltac:(ring)) as Q. replace (1 - (1 - al)) with al in Q by ring.
    replace ((1 - al) * f ta + al * f tb) with (al * f tb + (1 - al) * f ta) by ring. eapply Rle_trans; [exact Q|]. right. rewrite (Rmult_comm (1 - al) al). ring.
Qed.
Lemma chord_arc s t : sqrt ((cos s - cos t) ^ 2 + (sin s - sin t) ^ 2) <= Rabs (s - t).
Proof.
  rewrite <- (sqrt_square (Rabs (s - t))) by apply Rabs_pos. apply sqrt_le_1_alt. replace (Rabs (s - t) * Rabs (s - t)) with ((s - t) ^ 2) by (rewrite <- pow2_abs; ring).
  pose proof (sin2_cos2 s) as S. pose proof (sin2_cos2 t) as T. unfold Rsqr in S, T. pose proof (cos_minus s t) as C.
  assert (E : (cos s - cos t) ^ 2 + (sin s - sin t) ^ 2 = 2 - 2 * cos (s - t)) by (rewrite C; transitivity ((sin s * sin s + cos s * cos s) + (sin t * sin t + cos t * cos t) - 2 * (cos s * cos t + sin s * sin t)); [ring|rewrite S, T; ring]).
  rewrite E. set (x := s - t). assert (C2 : cos x = 1 - 2 * sin (x / 2) * sin (x / 2)) by (rewrite <- cos_2a_sin; f_equal; field). rewrite C2.
  assert (SA : Rabs (sin (x / 2)) <= Rabs (x / 2)).
  { assert (P : forall y, 0 <= y -> Rabs (sin y) <= y).
    { intros y Hy. destruct (Rle_dec y 1) as [L|L]; [|apply Rle_trans with 1; [apply Rabs_le, SIN_bound|lra]].
      rewrite Rabs_pos_eq by (apply sin_ge_0; pose proof PI2_1; lra). destruct (Req_dec y 0) as [->|N]; [rewrite sin_0; lra|]. left. apply sin_lt_x. lra. }
    destruct (Rle_dec 0 (x / 2)) as [L|L]; [rewrite (Rabs_pos_eq (x / 2)) by exact L; now apply P|].
    rewrite (Rabs_left (x / 2)) by lra. rewrite <- Rabs_Ropp, <- sin_neg. apply P. lra. }
  assert (Q : (sin (x / 2)) ^ 2 <= (x / 2) ^ 2) by (rewrite <- !Rsqr_pow2; apply Rsqr_le_abs_1; exact SA). lra.
Qed.

Lemma distance_mix v p q p' q' d d' : 0 <= v <= 1 -> PropsGround.distance p p' <= d -> PropsGround.distance q q' <= d' ->
  PropsGround.distance (mix v p q) (mix v p' q') <= (1 - v) * d + v * d'.
Proof.
  destruct p as [[p1 p2] p3], q as [[q1 q2] q3], p' as [[r1 r2] r3], q' as [[s1 s2] s3]. intros Hv H1 H2. unfold PropsGround.distance, mix in *.
  pose proof (norm_triangle ((1 - v) * (p1 - r1)) ((1 - v) * (p2 - r2)) ((1 - v) * (p3 - r3)) (v * (q1 - s1)) (v * (q2 - s2)) (v * (q3 - s3))) as T.
  assert (SC : forall a x y z, 0 <= a -> sqrt ((a * x) ^ 2 + (a * y) ^ 2 + (a * z) ^ 2) = a * sqrt (x ^ 2 + y ^ 2 + z ^ 2)).
  { intros a x y z Ha. rewrite <- (sqrt_square a) at 4 by exact Ha. rewrite <- sqrt_mult_alt by nra. f_equal. ring. }
  rewrite !SC in T by lra. replace ((1 - v) * (p1 - r1) + v * (q1 - s1)) with ((1 - v) * p1 + v * q1 - ((1 - v) * r1 + v * s1)) in T by ring.
  replace ((1 - v) * (p2 - r2) + v * (q2 - s2)) with ((1 - v) * p2 + v * q2 - ((1 - v) * r2 + v * s2)) in T by ring.
  replace ((1 - v) * (p3 - r3) + v * (q3 - s3)) with ((1 - v) * p3 + v * q3 - ((1 - v) * r3 + v * s3)) in T by ring.
  eapply Rle_trans; [exact T|]. apply Rplus_le_compat; apply Rmult_le_compat_l; lra.
Qed.
Lemma mix_circle r A B al al0 ta tb theta : 0 <= r -> orthonormal A B ->
  PropsGround.distance (mix al (circle r A B ta) (circle r A B tb)) (circle r A B theta)
  <= r * (Rabs (al0 * (1 - al0)) / 2 * (tb - ta) ^ 2 + Rabs (ta + al0 * (tb - ta) - theta) + Rabs ((al - al0) * (tb - ta))).
Proof.
  intros Hr O. assert (P : forall c s c' s', PropsGround.distance
     (let '(a1, a2, a3) := A in let '(b1, b2, b3) := B in (r * (c * a1 + s * b1), r * (c * a2 + s * b2), r * (c * a3 + s * b3)))
     (let '(a1, a2, a3) := A in let '(b1, b2, b3) := B in (r * (c' * a1 + s' * b1), r * (c' * a2 + s' * b2), r * (c' * a3 + s' * b3))) = r * sqrt ((c - c') ^ 2 + (s - s') ^ 2)).
  { intros c s c' s'. exact (circle_diff r A B c s c' s' Hr O). }
  set (Q := fun c s => let '(a1, a2, a3) := A in let '(b1, b2, b3) := B in (r * (c * a1 + s * b1), r * (c * a2 + s * b2), r * (c * a3 + s * b3))).
  assert (P' : forall c s c' s', PropsGround.distance (Q c s) (Q c' s') = r * sqrt ((c - c') ^ 2 + (s - s') ^ 2)) by exact P. clear P.
  assert (M : forall x, mix x (circle r A B ta) (circle r A B tb) = Q ((1 - x) * cos ta + x * cos tb) ((1 - x) * sin ta + x * sin tb)).
  { intros x. unfold Q, mix, circle. destruct A as [[a1 a2] a3], B as [[b1 b2] b3]. f_equal; [f_equal|]; ring. }
  assert (C : forall t, circle r A B t = Q (cos t) (sin t)) by (intros t; unfold Q, circle; destruct A as [[a1 a2] a3], B as [[b1 b2] b3]; reflexivity).
  rewrite M, C. set (tau := ta + al0 * (tb - ta)).
  eapply Rle_trans; [apply (distance_triangle _ (Q ((1 - al0) * cos ta + al0 * cos tb) ((1 - al0) * sin ta + al0 * sin tb)))|].
  eapply Rle_trans; [apply Rplus_le_compat_l, (distance_triangle _ (Q (cos tau) (sin tau)))|]. rewrite !P'.
  pose proof (chord_flat al0 ta tb) as F. fold tau in F. pose proof (chord_arc tau theta) as G. pose proof (chord_arc tb ta) as H.
  replace ((1 - al) * cos ta + al * cos tb - ((1 - al0) * cos ta + al0 * cos tb)) with ((al - al0) * (cos tb - cos ta)) by ring.
  replace ((1 - al) * sin ta + al * sin tb - ((1 - al0) * sin ta + al0 * sin tb)) with ((al - al0) * (sin tb - sin ta)) by ring.
  replace (((al - al0) * (cos tb - cos ta)) ^ 2 + ((al - al0) * (sin tb - sin ta)) ^ 2) with ((al - al0) ^ 2 * ((cos tb - cos ta) ^ 2 + (sin tb - sin ta) ^ 2)) by ring.
  rewrite sqrt_mult_alt by apply pow2_ge_0. replace ((al - al0) ^ 2) with (Rsqr (al - al0)) by (unfold Rsqr; ring). rewrite sqrt_Rsqr_abs.
  assert (I : Rabs (al - al0) * sqrt ((cos tb - cos ta) ^ 2 + (sin tb - sin ta) ^ 2) <= Rabs ((al - al0) * (tb - ta))) by (rewrite Rabs_mult; apply Rmult_le_compat_l; [apply Rabs_pos|exact H]).
  rewrite <- !Rmult_plus_distr_l. apply Rmult_le_compat_l; [exact Hr|]. lra.
Qed.

(** ** The pixels *)
Lemma ali_small w za zb : (w = 1 \/ w = 5)%Z -> 0 <= za <= z70 -> 0 <= zb <= z70 -> za <> zb ->
  Rabs (aliR w za zb * (thetaR zb - thetaR za)) <= 4e-7 * IZR w ^ 2.
Proof.
  intros Hw Ha Hb Hab. destruct (mid za zb Ha Hb) as (M1 & M2 & M3 & _). change ((phiR za + phiR zb) / 2) with (midphi za zb) in *. change (zetaR (midphi za zb)) with (midzeta za zb) in *.
  pose proof (cos_70 _ M1) as C. pose proof (dist_b _ M1) as [D _]. rewrite <- M3 in D.
  assert (W : IZR w ^ 2 = 1 \/ IZR w ^ 2 = 25) by (destruct Hw as [-> | ->]; cbn; lra). assert (W0 : 0 < IZR w) by (destruct Hw as [-> | ->]; lra).
  assert (N : thetaR za - thetaR zb <> 0). { pose proof (theta_diff za zb Ha Hb) as [T _]. intros E. rewrite E, Rabs_R0 in T. pose proof (Rabs_pos_lt (za - zb) ltac:(lra)). lra. }
  unfold aliR, denR. destruct (Req_EM_T za zb) as [E|_]; [contradiction|].
  replace (4 * gapR w za zb * sin (midzeta za zb) / (thetaR za - thetaR zb) * (thetaR zb - thetaR za)) with (- (4 * gapR w za zb * sin (midzeta za zb))) by (field; exact N).
  rewrite Rabs_Ropp, Rabs_mult. pose proof (SIN_bound (midzeta za zb)) as S. assert (SA : Rabs (sin (midzeta za zb)) <= 1) by (apply Rabs_le; lra).
  set (c := cos (midzeta za zb)) in *. set (d := shift2 w za zb) in *.
  assert (D2 : 0 <= d * d <= 34e-9 * IZR w ^ 2).
  { split; [nra|]. unfold d, shift2. fold c. set (q := cos (midphi za zb) / kap - c) in *. replace (q * (IZR w / 1418) * (q * (IZR w / 1418))) with (q * q / (1418 * 1418) * IZR w ^ 2) by field.
    apply Rmult_le_compat_r; [apply pow2_ge_0|]. assert (q * q <= 676 / 10000) by nra. lra. }
  assert (G : 0 <= gapR w za zb <= 1e-7 * IZR w ^ 2).
  { unfold gapR. fold c d. assert (DC : d * d <= c * c) by (destruct W as [W|W]; rewrite W in D2; nra). rewrite gap_form by lra. pose proof (sqrt_pos (c * c - d * d)) as P.
    split; [apply Rle_mult_inv_pos; lra|]. apply (Rmult_le_reg_r (c + sqrt (c * c - d * d))); [lra|]. unfold Rdiv. rewrite Rmult_assoc, Rinv_l, Rmult_1_r by lra.
    assert (1e-7 * IZR w ^ 2 * (34 / 100) <= 1e-7 * IZR w ^ 2 * (c + sqrt (c * c - d * d))) by (apply Rmult_le_compat_l; [pose proof (pow2_ge_0 (IZR w)); lra|lra]). lra. }
  rewrite Rabs_pos_eq by lra. apply Rle_trans with (4 * gapR w za zb * 1); [apply Rmult_le_compat_l; lra|]. lra.
Qed.

Lemma weight_b u e : 0 <= u <= 1 -> Rabs e <= 2 -> Rabs ((u + u * (1 - u) * e) * (1 - (u + u * (1 - u) * e))) <= 1 / 4.
Proof.
  intros Hu He. apply Rabs_le_inv in He. assert (U0 : 0 <= u * (1 - u)) by (apply Rmult_le_pos; lra).
  assert (A1 : u * (1 - u) * -2 <= u * (1 - u) * e) by (apply Rmult_le_compat_l; lra). assert (A2 : u * (1 - u) * e <= u * (1 - u) * 2) by (apply Rmult_le_compat_l; lra).
  pose proof (pow2_ge_0 (u - 1 / 4)). pose proof (pow2_ge_0 (u - 3 / 4)). set (a := u + u * (1 - u) * e). assert (-1 / 8 <= a <= 9 / 8) by (unfold a; lra). clearbody a.
  pose proof (pow2_ge_0 (a - 1 / 2)). assert (0 <= (a + 1 / 8) * (9 / 8 - a)) by (apply Rmult_le_pos; lra). apply Rabs_le. lra.
Qed.

(** Two neighbouring tie points of a tie row, seen under different zenith angles of at most 70 degrees, and the two below them; the rows of tie points
    are on great circles through the point below the satellite, at angles from it that the zenith angles of the upper row imply.
    The pixel at the fraction u of the cell has the nadir angle (1 - u) phi_a + u phi_b, hence the angle theta from the point below the satellite.
    Its position computed by the program is on the ground within 4 d of the true position T, where d consists of the sag of the chords,
    the third-order error of the expansion, the alignment of the rows and the distance of T from the straight line between the two rows. *)
(** the position of a pixel in exact arithmetic *)
Lemma view_place w (z : Z -> Z -> R) (lo la : Z -> Z -> R) row col u v e l : (w = 1 \/ w = 5)%Z -> @exp_ali _ RN w (Some (z row col)) (Some (z row (col + 1)%Z)) = (Some e, Some l) ->
  0 <= u <= 1 -> 0 <= v <= 1 -> 0 <= z row col <= 70 -> 0 <= z row (col + 1)%Z <= 70 -> z row col <> z row (col + 1)%Z ->
  forall phi_a phi_b ta tb zeta theta A B A' B', seen (degrees (z row col)) phi_a ta -> seen (degrees (z row (col + 1)%Z)) phi_b tb ->
  0 <= zeta <= PI / 2 -> seen zeta ((1 - u) * phi_a + u * phi_b) theta ->
  orthonormal A B -> orthonormal A' B' ->
  let tie a b := ground 6370997 (lo a b) (la a b) in
  tie row col = circle 6370997 A B ta -> tie row (col + 1)%Z = circle 6370997 A B tb ->
  tie (row + 1)%Z col = circle 6370997 A' B' ta -> tie (row + 1)%Z (col + 1)%Z = circle 6370997 A' B' tb ->
  forall T delta, PropsGround.distance (mix v (circle 6370997 A B theta) (circle 6370997 A' B' theta)) T <= delta ->
  let d := 6370997 * ((tb - ta) ^ 2 / 8 + 5 / 6 * Rabs (phi_b - phi_a) ^ 3 + v * (1 - v) * (4e-7 * IZR w ^ 2)) + delta in
  let along := u + u * (1 - u) * e + v * (1 - v) * l in
  let place (coordinate : R -> R -> R) := corners (fun a b => coordinate (lo a b) (la a b)) row col v along in
  PropsGround.distance (place at_x, place at_y, place at_z) T <= d.
Proof.
  intros KM EA Hu Hv Ba Bb ZN phi_a phi_b ta tb zeta theta A B A' B' Sa Sb Hz Sz OA OA' tie T1 T2 T3 T4 T delta DT d along place.
  set (za := degrees (z row col)) in *. set (zb := degrees (z row (col + 1)%Z)) in *. pose proof PI_RGT_0 as HPI.
  assert (Ra : 0 <= za <= z70) by (unfold za, degrees, z70; split; [apply Rmult_le_pos; lra|apply Rmult_le_compat_r; lra]).
  assert (Rb : 0 <= zb <= z70) by (unfold zb, degrees, z70; split; [apply Rmult_le_pos; lra|apply Rmult_le_compat_r; lra]).
  assert (ZN' : za <> zb) by (unfold za, zb, degrees; intros E; apply ZN; apply Rmult_eq_reg_r in E; [exact E|lra]).
  pose proof z70_89 as Z9. destruct (seen_phi za phi_a ta ltac:(lra) Sa) as [Ea Eta]. destruct (seen_phi zb phi_b tb ltac:(lra) Sb) as [Eb Etb].
  change (za - phiR za) with (thetaR za) in Eta. change (zb - phiR zb) with (thetaR zb) in Etb.
  assert (NT : ta - tb <> 0). { pose proof (theta_diff za zb Ra Rb) as [Q _]. rewrite <- Eta, <- Etb in Q. intros E. rewrite E, Rabs_R0 in Q. pose proof (Rabs_pos_lt (za - zb) ltac:(lra)). lra. }
  assert (DN : denR za zb <> 0) by (unfold denR; destruct (Req_EM_T za zb); [contradiction|]; rewrite <- Eta, <- Etb; exact NT).
  pose proof (exp_ali_exact w (z row col) (z row (col + 1)%Z) KM ltac:(lra) ltac:(lra) DN) as EX. rewrite EA in EX. injection EX as Ee El.
  change (z row col * (PI / 180)) with za in *. change (z row (col + 1)%Z * (PI / 180)) with zb in *.
  destruct (mid za zb Ra Rb) as (M1 & M2 & M3 & M4). change ((phiR za + phiR zb) / 2) with (midphi za zb) in *. change (zetaR (midphi za zb)) with (midzeta za zb) in *.
  rewrite <- Eta, <- Etb in M4.
  assert (Ee' : e * (tb - ta) = 4 * (thetaR (midzeta za zb) - (ta + tb) / 2)).
  { rewrite Ee. unfold expR, denR. destruct (Req_EM_T za zb); [contradiction|]. rewrite <- Eta, <- Etb. field. exact NT. }
  assert (Eb2 : Rabs e <= 2).
  { rewrite Ee. unfold expR, denR. destruct (Req_EM_T za zb); [contradiction|]. rewrite <- Eta, <- Etb. unfold Rdiv at 1. rewrite !Rabs_mult, Rabs_inv, (Rabs_pos_eq 4) by lra.
    pose proof (Rabs_pos_lt _ NT). apply (Rmult_le_reg_r (Rabs (ta - tb))); [lra|]. rewrite !Rmult_assoc, Rinv_l by lra. lra. }
  (* the view *)
  assert (VA : in_view phi_a /\ in_view phi_b).
  { pose proof kap_b as K. split; [rewrite Ea|rewrite Eb]; (split; [apply phiR_range; lra|]); rewrite sin_phiR by lra.
    - replace (kap * sin za / kap) with (sin za) by (field; lra). apply sin_incr_1; pose proof z70_b; pose proof PI_bounds; lra.
    - replace (kap * sin zb / kap) with (sin zb) by (field; lra). apply sin_incr_1; pose proof z70_b; pose proof PI_bounds; lra. }
  destruct VA as [Va Vb].
  assert (AR : forall zz phi th, 0 <= zz <= PI / 2 -> seen zz phi th -> arc phi = th).
  { intros zz phi th Hzz (Q1 & Q2 & ->). unfold arc, zenith. replace (sin phi / kap) with (sin zz); [rewrite asin_sin by lra; reflexivity|].
    unfold kap. change Re with earth. change Alt with height. apply (Rmult_eq_reg_l earth); [|unfold earth; lra]. rewrite <- Q2. field. unfold earth, height. lra. }
  pose proof z89_lt as Z9'.
  pose proof (AR za phi_a ta ltac:(lra) Sa) as Aa. pose proof (AR zb phi_b tb ltac:(lra) Sb) as Ab. pose proof (AR zeta _ theta Hz Sz) as At.
  assert (Am : arc (midphi za zb) = thetaR (midzeta za zb)).
  { unfold arc, zenith, thetaR. rewrite <- M3. f_equal. rewrite <- M2. apply asin_sin. pose proof z70_b. pose proof PI_bounds. lra. }
  pose proof (view_between phi_a phi_b u Va Vb Hu) as VB. unfold parabola in VB. rewrite Rmult_0_r, Rplus_0_r, Rmult_1_r in VB.
  replace (phi_a + (phi_b - phi_a)) with phi_b in VB by ring. replace (phi_a + (phi_b - phi_a) * (1 / 2)) with (midphi za zb) in VB by (unfold midphi; rewrite <- Ea, <- Eb; field).
  replace (phi_a + (phi_b - phi_a) * u) with ((1 - u) * phi_a + u * phi_b) in VB by ring. rewrite Aa, Ab, Am, At in VB.
  set (al0 := u + u * (1 - u) * e). set (al := u + u * (1 - u) * e + v * (1 - v) * l) in *.
  assert (T0 : Rabs (ta + al0 * (tb - ta) - theta) <= 5 / 6 * Rabs (phi_b - phi_a) ^ 3).
  { replace (ta + al0 * (tb - ta)) with (ta + u * (tb - ta) + u * (1 - u) * (e * (tb - ta))) by (unfold al0; ring). rewrite Ee'.
    replace (4 * (thetaR (midzeta za zb) - (ta + tb) / 2)) with (4 * thetaR (midzeta za zb) - 2 * ta - 2 * tb) by field. exact VB. }
  assert (T5 : Rabs (al0 * (1 - al0)) / 2 * (tb - ta) ^ 2 <= (tb - ta) ^ 2 / 8).
  { pose proof (weight_b u e Hu Eb2) as Q. fold al0 in Q. pose proof (pow2_ge_0 (tb - ta)). apply Rle_trans with (1 / 4 / 2 * (tb - ta) ^ 2); [apply Rmult_le_compat_r; lra|lra]. }
  assert (T6 : Rabs ((al - al0) * (tb - ta)) <= v * (1 - v) * (4e-7 * IZR w ^ 2)).
  { replace ((al - al0) * (tb - ta)) with (v * (1 - v) * (l * (tb - ta))) by (unfold al, al0; ring). assert (V0 : 0 <= v * (1 - v)) by (apply Rmult_le_pos; lra).
    rewrite Rabs_mult, (Rabs_pos_eq (v * (1 - v))) by exact V0. apply Rmult_le_compat_l; [exact V0|]. rewrite El, Eta, Etb. now apply ali_small. }
  pose proof (mix_circle 6370997 A B al al0 ta tb theta ltac:(lra) OA) as D1. pose proof (mix_circle 6370997 A' B' al al0 ta tb theta ltac:(lra) OA') as D2.
  set (err := 6370997 * _) in D1. change (PropsGround.distance (mix al (circle 6370997 A' B' ta) (circle 6370997 A' B' tb)) (circle 6370997 A' B' theta) <= err) in D2.
  pose proof (distance_mix v _ _ _ _ _ _ Hv D1 D2) as D3. replace ((1 - v) * err + v * err) with err in D3 by ring.
  assert (D4 : PropsGround.distance (mix v (mix al (tie row col) (tie row (col + 1)%Z)) (mix al (tie (row + 1)%Z col) (tie (row + 1)%Z (col + 1)%Z))) T <= d).
  { rewrite T1, T2, T3, T4. eapply Rle_trans; [apply (distance_triangle _ (mix v (circle 6370997 A B theta) (circle 6370997 A' B' theta)))|].
    eapply Rle_trans; [apply Rplus_le_compat; [exact D3|exact DT]|]. unfold d, err. apply Rplus_le_compat_r, Rmult_le_compat_l; lra. }
  exact D4.
Qed.
Theorem C127_view : forall k g n w (lon lat satz olon olat : ndarray (option R)) (lo la z : Z -> Z -> R),
  even_grid k -> (0 <= n)%Z -> std_width k w -> PropsModis.shaped Float32 n w lon lat satz ->
  (forall a b, (0 <= a < n)%Z -> (0 <= b < w)%Z -> aat lon a b = Some (lo a b) /\ aat lat a b = Some (la a b) /\ aat satz a b = Some (z a b) /\ 0 <= z a b <= 89) ->
  (forall a b, (0 <= a < n)%Z -> (0 <= b)%Z -> (b + 1 < w)%Z -> ~ (z a b = 0 /\ z a (b + 1)%Z = 0)) ->
  @modis _ RN k g lon lat satz = Ok (olon, olat) ->
  forall s j i, (0 <= s)%Z -> ((s + 1) * scan_len k <= n)%Z -> (0 <= j < fine_len k)%Z -> (0 <= i < fine_width k)%Z ->
  let row := (s * scan_len k + row_cell k j)%Z in let col := col_cell k w i in
  let u := scan_pos k i - IZR col in let v := track_pos k j - IZR (row_cell k j) in
  0 <= u <= 1 -> 0 <= v <= 1 -> z row col <= 70 -> z row (col + 1)%Z <= 70 -> z row col <> z row (col + 1)%Z ->
  forall phi_a phi_b ta tb zeta theta A B A' B', seen (degrees (z row col)) phi_a ta -> seen (degrees (z row (col + 1)%Z)) phi_b tb ->
  0 <= zeta <= PI / 2 -> seen zeta ((1 - u) * phi_a + u * phi_b) theta ->
  orthonormal A B -> orthonormal A' B' ->
  let tie a b := ground 6370997 (lo a b) (la a b) in
  tie row col = circle 6370997 A B ta -> tie row (col + 1)%Z = circle 6370997 A B tb ->
  tie (row + 1)%Z col = circle 6370997 A' B' ta -> tie (row + 1)%Z (col + 1)%Z = circle 6370997 A' B' tb ->
  forall X Y Z delta, let T := (X, Y, Z) in PropsGround.on_sphere 6370997 T ->
  PropsGround.distance (mix v (circle 6370997 A B theta) (circle 6370997 A' B' theta)) T <= delta ->
  let d := 6370997 * ((tb - ta) ^ 2 / 8 + 5 / 6 * Rabs (phi_b - phi_a) ^ 3 + v * (1 - v) * (4e-7 * IZR (km k) ^ 2)) + delta in
  d <= 6370997 / 100 -> d < Rabs Y \/ d < X ->
  exists l p, aat olon (s * fine_len k + j)%Z i = Some l /\ aat olat (s * fine_len k + j)%Z i = Some p /\
    PropsGround.distance (ground 6370997 l p) T <= 4 * d.
Proof.
  intros k g n w lon lat satz olon olat lo la z Hk Hn Hw S F NZ O s j i Hs Hsn Hj Hi row col u v Hu Hv Z1 Z2 ZN phi_a phi_b ta tb zeta theta A B A' B' Sa Sb Hz Sz OA OA' tie T1 T2 T3 T4
    X Y Z delta T ST DT d Hd Hdir.
  assert (W2 : (2 <= w)%Z) by (destruct k; cbn [std_width] in Hw; lia).
  assert (SL : (2 <= scan_len k)%Z) by (destruct k; cbn [scan_len]; lia).
  assert (RC : (0 <= row_cell k j <= scan_len k - 2)%Z) by (unfold row_cell; lia).
  assert (CC : (0 <= col /\ col + 1 < w)%Z) by (unfold col, col_cell; lia).
  assert (RB : (0 <= row < n)%Z) by (unfold row; nia).
  destruct (C69_pixels k g n w lon lat satz olon olat lo la z Hk Hn Hw S F NZ O s j i Hs Hsn Hj Hi) as (e & l & EA & P). fold row col in EA, P. fold u v in P. cbv zeta in P.
  destruct (F row col ltac:(lia) ltac:(lia)) as (_ & _ & _ & Ba). destruct (F row (col + 1)%Z ltac:(lia) ltac:(lia)) as (_ & _ & _ & Bb).
  assert (KM : (km k = 1 \/ km k = 5)%Z) by (unfold km; destruct (is_1km k); auto).
  pose proof (view_place (km k) z lo la row col u v e l KM EA Hu Hv (conj (proj1 Ba) Z1) (conj (proj1 Bb) Z2) ZN phi_a phi_b ta tb zeta theta A B A' B' Sa Sb Hz Sz OA OA' T1 T2 T3 T4 T delta DT) as D4. cbv zeta in D4. fold d in D4.
  set (al := u + u * (1 - u) * e + v * (1 - v) * l) in *. set (px := corners (fun a b => at_x (lo a b) (la a b)) row col v al) in *. set (py := corners (fun a b => at_y (lo a b) (la a b)) row col v al) in *. set (pz := corners (fun a b => at_z (lo a b) (la a b)) row col v al) in *.
  assert (Dir : py <> 0 \/ 0 < px).
  { assert (Q : Rabs (px - X) <= d /\ Rabs (py - Y) <= d).
    { unfold T, PropsGround.distance in D4. assert (G : forall a, a ^ 2 <= (px - X) ^ 2 + (py - Y) ^ 2 + (pz - Z) ^ 2 -> Rabs a <= d).
      { intros a Ha. eapply Rle_trans; [|exact D4]. rewrite <- sqrt_Rsqr_abs. apply sqrt_le_1_alt. rewrite Rsqr_pow2. exact Ha. }
      pose proof (pow2_ge_0 (px - X)). pose proof (pow2_ge_0 (py - Y)). pose proof (pow2_ge_0 (pz - Z)). split; apply G; lra. }
    destruct Q as [Q1 Q2]. destruct Hdir as [H|H].
    - left. intros E. rewrite E, Rminus_0_l, Rabs_Ropp in Q2. lra.
    - right. apply Rabs_le_inv in Q1. lra. }
  destruct (C112_ground 6370997 px py pz T d ltac:(lra) ST D4 Hd Dir) as (ol & op & E1 & E2).
  exists ol, op. rewrite C20_cython_partial in P. replace (@EARTH_RADIUS _ RN) with (Some 6370997) in P by reflexivity. rewrite E1 in P. injection P as -> ->. auto.
Qed.
Print Assumptions C127_view.

(** A case: two tie rows along the meridians 0.1 and 0.1 + 1/1274 (5 km further east), seen from above the equator under 10 to 37 degrees *)
Lemma mix_meridians r v theta l1 l2 : 0 <= r -> 0 <= v <= 1 ->
  PropsGround.distance (mix v (circle r (cos l1, sin l1, 0) (0, 0, 1) theta) (circle r (cos l2, sin l2, 0) (0, 0, 1) theta))
    (circle r (cos (l1 + v * (l2 - l1)), sin (l1 + v * (l2 - l1)), 0) (0, 0, 1) theta) <= r * ((l2 - l1) ^ 2 / 8).
Proof.
  intros Hr Hv. assert (V4 : Rabs (v * (1 - v)) <= 1 / 4) by (rewrite Rabs_pos_eq by (apply Rmult_le_pos; lra); pose proof (pow2_ge_0 (v - 1 / 2)); lra).
  pose proof (chord_flat v l1 l2) as C. set (p := (1 - v) * cos l1 + v * cos l2 - cos (l1 + v * (l2 - l1))) in *. set (q := (1 - v) * sin l1 + v * sin l2 - sin (l1 + v * (l2 - l1))) in *.
  assert (E : sqrt (p ^ 2 + q ^ 2) <= (l2 - l1) ^ 2 / 8).
  { eapply Rle_trans; [exact C|]. pose proof (pow2_ge_0 (l2 - l1)). apply Rle_trans with (1 / 4 / 2 * (l2 - l1) ^ 2); [apply Rmult_le_compat_r; lra|lra]. }
  unfold PropsGround.distance, mix, circle. apply Rle_trans with (r * sqrt (p ^ 2 + q ^ 2)); [|apply Rmult_le_compat_l; assumption].
  rewrite <- (sqrt_square r) at 10 by exact Hr. rewrite <- sqrt_mult_alt by nra. apply sqrt_le_1_alt.
  match goal with |- ?x <= _ => replace x with (r * r * (cos theta * cos theta) * (p ^ 2 + q ^ 2)) by (unfold p, q; ring) end.
  apply Rmult_le_compat_r; [pose proof (pow2_ge_0 p); pose proof (pow2_ge_0 q); lra|]. pose proof (sin2_cos2 theta) as Q. unfold Rsqr in Q.
  rewrite <- (Rmult_1_r (r * r)) at 2. apply Rmult_le_compat_l; [nra|]. pose proof (Rle_0_sqr (sin theta)) as Q2. unfold Rsqr in Q2. lra.
Qed.
Example C127_case : let zen (b : Z) := 10 + IZR b / 10 in let lam (a : R) := 1 / 10 + a / 1274 in
  let lo (a b : Z) := lam (IZR a) * (180 / PI) in let la (a b : Z) := thetaR (degrees (zen b)) * (180 / PI) in
  let arr (f : Z -> Z -> R) := {| adt := Float32; arows := 2; acols := 270; aat := fun a b => Some (f a b) |} in
  forall g olon olat, @modis _ RN M5km_1km g (arr lo) (arr la) (arr (fun _ b => zen b)) = Ok (olon, olat) ->
  forall j i, (2 <= j <= 7)%Z -> (2 <= i <= 1346)%Z ->
  let b := ((i - 2) / 5)%Z in let u := IZR ((i - 2) mod 5) / 5 in let v := IZR (j - 2) / 5 in
  let phi := (1 - u) * phiR (degrees (zen b)) + u * phiR (degrees (zen (b + 1)%Z)) in
  exists l p, aat olon j i = Some l /\ aat olat j i = Some p /\
    PropsGround.distance (ground 6370997 l p) (ground 6370997 (lam v * (180 / PI)) (arc phi * (180 / PI))) <= 80.
Proof.
  intros zen lam lo la arr g olon olat O j i Hj Hi b u v phi. pose proof PI_bounds as HPI.
  assert (GC : forall l t, ground 6370997 (l * (180 / PI)) (t * (180 / PI)) = circle 6370997 (cos l, sin l, 0) (0, 0, 1) t).
  { intros l t. unfold ground, circle. replace (l * (180 / PI) * (PI / 180)) with l by (field; lra). replace (t * (180 / PI) * (PI / 180)) with t by (field; lra). f_equal; [f_equal|]; ring. }
  assert (ON : forall l, orthonormal (cos l, sin l, 0) (0, 0, 1)).
  { intros l. unfold orthonormal, dot. pose proof (sin2_cos2 l) as Q. unfold Rsqr in Q. repeat split; lra. }
  assert (ZB : forall b, (0 <= b < 270)%Z -> 10 <= zen b <= 37).
  { intros b' Hb. assert (0 <= IZR b' <= 269) by (split; apply IZR_le; lia). unfold zen. lra. }
  assert (RC : row_cell M5km_1km j = 0%Z) by (unfold row_cell; cbn [factor scan_len]; lia).
  assert (CB : col_cell M5km_1km 270 i = b).
  { unfold col_cell, first_col. cbn [is_1km factor]. unfold b. assert (0 <= (i - 2) / 5)%Z by (apply Z.div_pos; lia). assert ((i - 2) / 5 < 269)%Z by (apply Z.div_lt_upper_bound; lia). lia. }
  assert (BB : (0 <= b < 269)%Z) by (split; [apply Z.div_pos; lia|apply Z.div_lt_upper_bound; lia]).
  assert (EU : scan_pos M5km_1km i - IZR b = u).
  { unfold scan_pos, first_col, u. cbn [is_1km factor]. rewrite <- minus_IZR. rewrite (Z.div_mod (i - 2) 5) at 1 by lia. fold b. rewrite plus_IZR, mult_IZR. field. }
  assert (EV : track_pos M5km_1km j - IZR 0 = v). { unfold track_pos, v. cbn [factor]. rewrite minus_IZR. field. }
  assert (HU : 0 <= u <= 1). { unfold u. pose proof (Z.mod_pos_bound (i - 2) 5 ltac:(lia)) as [M1 M2]. apply (IZR_le 0) in M1. apply IZR_lt in M2. lra. }
  assert (HV : 0 <= v <= 1). { unfold v. assert (0 <= IZR (j - 2) <= 5) by (split; apply IZR_le; lia). lra. }
  pose proof (ZB b ltac:(lia)) as B1. pose proof (ZB (b + 1)%Z ltac:(lia)) as B2.
  assert (DG : forall z, 10 <= z <= 37 -> 0 <= degrees z <= z70) by (intros z Hz; unfold degrees, z70; split; [apply Rmult_le_pos; lra|apply Rmult_le_compat_r; lra]).
  set (za := degrees (zen b)) in *. set (zb := degrees (zen (b + 1)%Z)) in *. pose proof (DG _ B1) as Ra. pose proof (DG _ B2) as Rb. fold za in Ra. fold zb in Rb. pose proof z70_89 as Z9. pose proof z89_lt as Z9'.
  assert (SE : forall z, 0 <= z <= z70 -> seen z (phiR z) (thetaR z)).
  { intros z Hz. split; [apply phiR_range; lra|]. split; [|reflexivity]. rewrite (sin_phiR z) by lra. unfold kap. change earth with Re. change height with Alt. field. unfold Re, Alt. lra. }
  assert (DZ : zb - za = PI / 1800) by (unfold za, zb, zen, degrees; rewrite plus_IZR; field).
  assert (VW : forall z, 0 <= z <= z70 -> in_view (phiR z)).
  { intros z Hz. pose proof kap_b as K. split; [apply phiR_range; lra|]. rewrite sin_phiR by lra. replace (kap * sin z / kap) with (sin z) by (field; lra). apply sin_incr_1; pose proof z70_b; lra. }
  assert (VP : in_view phi). { pose proof (view_mix (phiR za) (phiR zb) u (VW za Ra) (VW zb Rb) HU) as V. unfold phi. replace ((1 - u) * phiR za + u * phiR zb) with (phiR za + (phiR zb - phiR za) * u) by ring. exact V. }
  destruct (zenith_in phi VP) as (ZS & ZR & _).
  assert (SP : seen (zenith phi) phi (arc phi)).
  { split; [apply VP|]. split; [|reflexivity]. rewrite ZS. unfold kap. change Re with earth. change Alt with height. field. unfold earth, height. lra. }
  assert (PH : Rabs (phiR zb - phiR za) <= 0.0018).
  { pose proof (phi_lip zb za ltac:(lra) ltac:(lra)) as L. rewrite (Rabs_pos_eq (zb - za)), DZ in L by lra. pose proof kap_b. eapply Rle_trans; [exact L|].
    apply Rle_trans with (1 * (PI / 1800)); [apply Rmult_le_compat_r; lra|lra]. }
  assert (TH : 0 <= (thetaR zb - thetaR za) ^ 2 <= 0.0018 ^ 2).
  { split; [apply pow2_ge_0|]. pose proof (theta_diff zb za Rb Ra) as [_ L]. rewrite (Rabs_pos_eq (zb - za)), DZ in L by lra. rewrite <- pow2_abs. apply pow_incr. split; [apply Rabs_pos|lra]. }
  assert (P3 : 0 <= Rabs (phiR zb - phiR za) ^ 3 <= 0.0018 ^ 3) by (split; [apply pow_le, Rabs_pos|apply pow_incr; split; [apply Rabs_pos|exact PH]]).
  assert (V4 : 0 <= v * (1 - v) <= 1 / 4) by (split; [apply Rmult_le_pos; lra|pose proof (pow2_ge_0 (v - 1 / 2)); lra]).
  assert (LAM : lam v = lam 0 + v * (lam 1 - lam 0)) by (unfold lam; field).
  assert (OS : PropsGround.on_sphere 6370997 (ground 6370997 (lam v * (180 / PI)) (arc phi * (180 / PI)))).
  { unfold PropsGround.on_sphere, ground. set (q := arc phi * (180 / PI) * (PI / 180)). set (m := lam v * (180 / PI) * (PI / 180)). pose proof (sin2_cos2 q) as Q1. pose proof (sin2_cos2 m) as Q2. unfold Rsqr in Q1, Q2.
    transitivity (6370997 ^ 2 * (cos q * cos q * (sin m * sin m + cos m * cos m) + sin q * sin q)); [ring|]. rewrite Q2, Rmult_1_r, (Rplus_comm (cos q * cos q)), Q1. ring. }
  rewrite GC in OS |- *. set (T := circle 6370997 (cos (lam v), sin (lam v), 0) (0, 0, 1) (arc phi)) in *.
  assert (DT : PropsGround.distance (mix v (circle 6370997 (cos (lam 0), sin (lam 0), 0) (0, 0, 1) (arc phi)) (circle 6370997 (cos (lam 1), sin (lam 1), 0) (0, 0, 1) (arc phi))) T <= 1).
  { unfold T. rewrite LAM. eapply Rle_trans; [apply mix_meridians; lra|]. unfold lam. lra. }
  set (d := 6370997 * ((thetaR zb - thetaR za) ^ 2 / 8 + 5 / 6 * Rabs (phiR zb - phiR za) ^ 3 + v * (1 - v) * (4e-7 * IZR (km M5km_1km) ^ 2)) + 1).
  assert (D20 : d <= 20) by (unfold d, km; cbn [is_1km]; lra).
  assert (AB : 0 <= arc phi <= 1.222).
  { unfold arc. destruct VP as [VP1 VP2]. pose proof z70_b. split; [|lra]. assert (sin phi <= sin (zenith phi)); [|destruct (Rle_dec phi (zenith phi)); [lra|exfalso]].
    - rewrite ZS. pose proof kap_b. assert (0 <= sin phi) by (apply sin_ge_0; lra). apply (Rmult_le_reg_r kap); [lra|]. unfold Rdiv. rewrite Rmult_assoc, Rinv_l by lra. nra.
    - assert (sin (zenith phi) < sin phi) by (apply sin_increasing_1; lra). lra. }
  assert (TX : 100 < 6370997 * (cos (arc phi) * cos (lam v) + sin (arc phi) * 0)).
  { assert (C1 : 1 / 4 <= cos (arc phi)) by (eapply Rle_trans; [|apply cos_ge; lra]; nra). assert (L1 : 0 <= lam v <= 1) by (unfold lam; lra).
    assert (C2 : 1 / 4 <= cos (lam v)) by (eapply Rle_trans; [|apply cos_ge; lra]; nra). assert (1 / 4 * (1 / 4) <= cos (arc phi) * cos (lam v)) by (apply Rmult_le_compat; lra). lra. }
  destruct (C127_view M5km_1km g 2 270 (arr lo) (arr la) (arr (fun _ b => zen b)) olon olat lo la (fun _ b => zen b)) with (s := 0%Z) (j := j) (i := i) (phi_a := phiR za) (phi_b := phiR zb) (ta := thetaR za) (tb := thetaR zb)
    (zeta := zenith phi) (theta := arc phi) (A := (cos (lam 0), sin (lam 0), 0)) (B := (0, 0, 1)) (A' := (cos (lam 1), sin (lam 1), 0)) (B' := (0, 0, 1))
    (X := 6370997 * (cos (arc phi) * cos (lam v) + sin (arc phi) * 0)) (Y := 6370997 * (cos (arc phi) * sin (lam v) + sin (arc phi) * 0)) (Z := 6370997 * (cos (arc phi) * 0 + sin (arc phi) * 1)) (delta := 1)
    as (l & p & E1 & E2 & D);
    rewrite ?RC, ?CB; change (0 * scan_len M5km_1km + 0)%Z with 0%Z; change (IZR 0) with 0; rewrite ?EU.
  - unfold even_grid. auto.
  - lia.
  - cbn. auto.
  - repeat split.
  - intros a c _ Hc. specialize (ZB c Hc). split; [reflexivity|]. split; [reflexivity|]. split; [reflexivity|lra].
  - intros a c _ Hc Hc1 [E _]. specialize (ZB c ltac:(lia)). lra.
  - exact O.
  - lia.
  - cbn. lia.
  - unfold fine_len. cbn. lia.
  - cbn. lia.
  - exact HU.
  - rewrite EV. exact HV.
  - lra.
  - lra.
  - unfold zen. rewrite plus_IZR. lra.
  - apply SE, Ra.
  - apply SE, Rb.
  - lra.
  - exact SP.
  - apply ON.
  - apply ON.
  - unfold lo, la. apply GC.
  - unfold lo, la. apply GC.
  - unfold lo, la. apply GC.
  - unfold lo, la. apply GC.
  - exact OS.
  - rewrite EV. exact DT.
  - rewrite EV. fold d. lra.
  - right. rewrite EV. fold d. lra.
  - exists l, p. split; [exact E1|]. split; [exact E2|]. rewrite RC, EV in D. fold d in D. unfold T, circle. lra.
Qed.
