(** Rounding errors of the multilinear interpolation (multilinear_cython.pyx) in IEEE arithmetic. *)
From Coq Require Import ZArith Lia Bool Reals Lra List.
From Flocq.Core Require Import Core.
From Flocq.Prop Require Import Sterbenz.
From Verif Require Import Base Num Geo Float FloatGeo FloatAcc FloatTrip FloatNear Multilinear MultilinearProofs.
Import ListNotations.
Open Scope R_scope.

(** ** The specification: sums of hat functions *)
Definition hat (t : R) : R := Rmax 0 (1 - Rabs t).
Definition sum_to (n : nat) (g : nat -> R) : R := fold_right (fun k s => g k + s) 0 (seq 0 n).
(** number of steps between the first node of an axis and [x] *)
Definition steps_to (a b : R) (n : nat) (x : R) : R := (x - a) / ((b - a) / INR (n - 1)).
(** the multilinear interpolant of the values [g ks] of the nodes [ks] *)
Fixpoint interpolant (smin smax : list R) (ns : list nat) (g : list nat -> R) (p : list R) : R :=
  match smin, smax, ns, p with
  | a :: smin', b :: smax', n :: ns', x :: p' =>
      sum_to n (fun k => hat (steps_to a b n x - INR k) * interpolant smin' smax' ns' (fun ks => g (k :: ks)) p')
  | _, _, _, _ => g []
  end.

(** ** Sums of hat functions are piecewise linear *)
Lemma hat_1 t : 0 <= t <= 1 -> hat t = 1 - t.
Proof. intros H. unfold hat. rewrite Rabs_pos_eq, Rmax_right by lra. reflexivity. Qed.
Lemma hat_2 t : -1 <= t <= 0 -> hat t = 1 + t.
Proof. intros H. unfold hat. rewrite Rabs_left1, Rmax_right by lra. lra. Qed.
Lemma hat_0 t : t <= -1 \/ 1 <= t -> hat t = 0.
Proof. intros [H|H]; unfold hat; [rewrite Rabs_left1|rewrite Rabs_pos_eq]; try lra; rewrite Rmax_left; lra. Qed.

Lemma fold_zero (g : nat -> R) l s : (forall k, In k l -> g k = 0) -> fold_right (fun k s => g k + s) s l = s.
Proof. induction l as [|k l IH]; cbn; intros H; [reflexivity|]. rewrite IH, H; auto. lra. Qed.
Lemma sum_two n g q : (q + 1 < n)%nat -> (forall k, k <> q -> k <> (q + 1)%nat -> g k = 0) -> sum_to n g = g q + g (q + 1)%nat.
Proof.
  intros H Z. unfold sum_to. replace n with (q + (2 + (n - q - 2)))%nat by lia. rewrite seq_app, fold_right_app.
  rewrite fold_zero by (intros k Hk; apply in_seq in Hk; apply Z; lia). rewrite seq_app, fold_right_app. cbn [seq fold_right].
  rewrite fold_zero by (intros k Hk; apply in_seq in Hk; apply Z; lia). replace (0 + q)%nat with q by lia.
  replace (S q) with (q + 1)%nat by lia. lra.
Qed.
Lemma hats n w t q : (q + 1 < n)%nat -> INR q <= t <= INR q + 1 ->
  sum_to n (fun k => hat (t - INR k) * w k) = (1 - (t - INR q)) * w q + (t - INR q) * w (q + 1)%nat.
Proof.
  intros H Ht. rewrite (sum_two _ _ q H).
  - rewrite hat_1, hat_2 by (rewrite ?plus_INR; cbn [INR]; lra). rewrite plus_INR. cbn [INR]. ring.
  - intros k N1 N2. rewrite hat_0; [ring|]. destruct (Nat.lt_ge_cases k q) as [L|L].
    + right. assert (INR (k + 1) <= INR q) by (apply le_INR; lia). rewrite plus_INR in H0. cbn [INR] in H0. lra.
    + left. assert (INR (q + 2) <= INR k) by (apply le_INR; lia). rewrite plus_INR in H0. cbn [INR] in H0. lra.
Qed.

Lemma cell_of n t : (2 <= n)%nat -> 0 <= t <= INR (n - 1) -> exists q, (q + 1 < n)%nat /\ INR q <= t <= INR q + 1.
Proof.
  intros Hn Ht. pose proof (Rfloor_le t) as [F1 F2]. set (z := Rfloor t) in *. clearbody z.
  assert (Z0 : (0 <= z)%Z) by (assert ((-1 < z)%Z) by (apply lt_IZR; cbn; lra); lia).
  destruct (Z.le_gt_cases z (Z.of_nat n - 2)) as [L|L].
  - exists (Z.to_nat z). split; [lia|]. rewrite INR_IZR_INZ, Z2Nat.id by lia. lra.
  - exists (n - 2)%nat. split; [lia|]. apply IZR_le in Z0.
    assert (IZR (Z.of_nat n - 1) <= IZR z) by (apply IZR_le; lia).
    replace (INR (n - 1)) with (INR (n - 2) + 1) in Ht by (rewrite <- S_INR; f_equal; lia).
    assert (IZR (Z.of_nat n - 1) = INR (n - 2) + 1).
    { rewrite <- S_INR, INR_IZR_INZ. f_equal. lia. }
    lra.
Qed.

Definition cap (n : nat) (w : nat -> R) (B : R) : Prop := forall k, (k < n)%nat -> Rabs (w k) <= B.

Lemma pl_lip n w B s t : (2 <= n)%nat -> cap n w B -> 0 <= s -> s <= t -> t <= INR (n - 1) -> t - s <= 1 ->
  Rabs (sum_to n (fun k => hat (t - INR k) * w k) - sum_to n (fun k => hat (s - INR k) * w k)) <= 2 * B * (t - s).
Proof.
  intros Hn HB H0 H1 H2 H3. destruct (cell_of n s Hn) as (q & Hq & Cq); [lra|]. rewrite (hats n w s q Hq Cq).
  assert (D : forall k, (k + 1 < n)%nat -> Rabs (w (k + 1)%nat - w k) <= 2 * B).
  { intros k Hk. pose proof (HB k ltac:(lia)). pose proof (HB (k + 1)%nat ltac:(lia)). apply Rabs_le.
    apply Rabs_le_inv in H. apply Rabs_le_inv in H4. lra. }
  destruct (Rle_lt_dec t (INR q + 1)) as [L|L].
  - rewrite (hats n w t q Hq) by lra.
    match goal with |- Rabs ?e <= _ => replace e with ((t - s) * (w (q + 1)%nat - w q)) by ring end.
    rewrite Rabs_mult, (Rabs_pos_eq (t - s)) by lra. pose proof (D q Hq). rewrite (Rmult_comm (2 * B)).
    apply Rmult_le_compat_l; lra.
  - assert (Hq2 : (q + 1 + 1 < n)%nat).
    { assert (INR (q + 1) < INR (n - 1)) by (rewrite plus_INR; cbn [INR]; lra). apply INR_lt in H. lia. }
    rewrite (hats n w t (q + 1) Hq2) by (rewrite plus_INR; cbn [INR]; lra). rewrite plus_INR. cbn [INR].
    match goal with |- Rabs ?e <= _ => replace e with ((t - INR q - 1) * (w (q + 1 + 1)%nat - w (q + 1)%nat) + (INR q + 1 - s) * (w (q + 1)%nat - w q)) by ring end.
    eapply Rle_trans; [apply Rabs_triang|]. rewrite !Rabs_mult, (Rabs_pos_eq (t - INR q - 1)), (Rabs_pos_eq (INR q + 1 - s)) by lra.
    pose proof (D q Hq) as D1. pose proof (D (q + 1)%nat Hq2) as D2.
    assert ((t - INR q - 1) * Rabs (w (q + 1 + 1)%nat - w (q + 1)%nat) <= (t - INR q - 1) * (2 * B)) by (apply Rmult_le_compat_l; lra).
    assert ((INR q + 1 - s) * Rabs (w (q + 1)%nat - w q) <= (INR q + 1 - s) * (2 * B)) by (apply Rmult_le_compat_l; lra). lra.
Qed.
Lemma pl_move n w B s t d : (2 <= n)%nat -> cap n w B -> 0 <= s <= INR (n - 1) -> 0 <= t <= INR (n - 1) -> Rabs (t - s) <= d -> d <= 1 ->
  Rabs (sum_to n (fun k => hat (t - INR k) * w k) - sum_to n (fun k => hat (s - INR k) * w k)) <= 2 * B * d.
Proof.
  intros Hn HB Hs Ht Hd H1. assert (B0 : 0 <= B) by (eapply Rle_trans; [apply Rabs_pos|apply (HB 0%nat); lia]).
  destruct (Rle_lt_dec s t) as [L|L].
  - rewrite Rabs_pos_eq in Hd by lra. eapply Rle_trans; [apply (pl_lip n w B s t); auto; lra|].
    apply Rmult_le_compat_l; lra.
  - rewrite Rabs_left in Hd by lra. rewrite Rabs_minus_sym. eapply Rle_trans; [apply (pl_lip n w B t s); auto; lra|].
    apply Rmult_le_compat_l; lra.
Qed.
Lemma pl_cap n w B t : (2 <= n)%nat -> cap n w B -> 0 <= t <= INR (n - 1) -> Rabs (sum_to n (fun k => hat (t - INR k) * w k)) <= B.
Proof.
  intros Hn HB Ht. destruct (cell_of n t Hn Ht) as (q & Hq & Cq). rewrite (hats n w t q Hq Cq).
  pose proof (HB q ltac:(lia)) as B1. pose proof (HB (q + 1)%nat ltac:(lia)) as B2. set (l := t - INR q) in *.
  assert (0 <= l <= 1) by (unfold l; lra). clearbody l. apply Rabs_le_inv in B1. apply Rabs_le_inv in B2. apply Rabs_le.
  pose proof (mix_bounds (- B) B l (w q) (w (q + 1)%nat)). lra.
Qed.

(** ** One axis *)
Section Axis.
Variables (f : format) (c : R) (m : libm).
Hypothesis Ff : fine f.
#[local] Instance FX : NumOps (option R) := FN f f c m.

(** an axis whose rounding errors stay small compared with a step *)
Definition axis_ok (n : nat) : Prop := (2 <= n)%nat /\ (Z.of_nat n <= 2 ^ 24)%Z /\ eps f * INR (n - 1) <= / 1600.
(** neither tiny nor huge *)
Definition moderate (w : R) : Prop := / 100000000 <= w <= 100000000.

Lemma eps_small : 0 < eps f <= 5967 / 100000000000.
Proof.
  split; [now apply eps_pos|]. unfold eps. destruct (fine_u f Ff) as [_ U].
  assert (bpow radix2 (- fprec f) * (1 + / 1000) <= / 16777216 * (1 + / 1000)) by (apply Rmult_le_compat_r; lra). lra.
Qed.
Lemma fl_nat k : (Z.of_nat k < 2 ^ 24)%Z -> fl f (INR k) /\ nz (Z.of_nat k) = Some (INR k).
Proof.
  intros H. destruct Ff as (G & P & _). pose proof (fit_IZR f (Z.of_nat k) G ltac:(lia) ltac:(lia)) as E.
  rewrite INR_IZR_INZ. split; [apply (fit_inv f G _ _ E)|exact E].
Qed.
Lemma fit_rd t M : Rabs t <= M -> / big <= M <= big -> fit f t = Some (rd f t) /\ fl f (rd f t) /\ Rabs (rd f t - t) <= eps f * M.
Proof.
  intros H HM. destruct (near_fit f Ff t M H HM) as (v & E & F & D). pose proof (fit_inv f (proj1 Ff) _ _ E) as [-> _]. auto.
Qed.

Lemma axis a b n x : axis_ok n -> fl f a -> fl f b -> fl f x -> moderate (b - a) -> a <= x <= b ->
  let sn := ndiv (nsub (Some x) (Some a)) (nsub (Some b) (Some a)) in
  exists X q, cell sn (Z.of_nat n) = Z.of_nat q /\ (q + 1 < n)%nat /\
    nsub (nmul sn (nz (Z.of_nat n - 1))) (nz (Z.of_nat q)) = Some (X - INR q) /\ fl f (X - INR q) /\
    INR q <= X <= INR q + 1 /\ X <= INR (n - 1) /\ 0 <= steps_to a b n x <= INR (n - 1) /\
    Rabs (X - steps_to a b n x) <= 4.1 * eps f * INR (n - 1).
Proof.
  intros (Hn & Hn2 & He) Fa Fb Fx [W1 W2] Hx. cbv zeta. pose proof eps_small as Ep. pose proof Ff as (G & P & _).
  assert (N1 : 1 <= INR (n - 1)) by (change 1 with (INR 1); apply le_INR; lia).
  assert (N2 : INR (n - 1) <= 16777216).
  { rewrite INR_IZR_INZ. apply IZR_le. change 16777216%Z with (2 ^ 24)%Z. lia. }
  set (D := b - a) in *. assert (HM : / big <= D <= big) by (unfold big; lra).
  destruct (fit_rd (x - a) D) as (E1 & F1 & R1); [rewrite Rabs_pos_eq; unfold D; lra|exact HM|].
  destruct (fit_rd (b - a) D) as (E2 & F2 & R2); [rewrite Rabs_pos_eq; unfold D in *; lra|exact HM|].
  pose proof (rd_le f G 0 (x - a) ltac:(lra)) as L1. rewrite rd_0 in L1. pose proof (rd_le f G (x - a) (b - a) ltac:(lra)) as L2.
  fold D in R2, E2, F2, L2. set (d1 := rd f (x - a)) in *. set (d2 := rd f D) in *.
  assert (ED : eps f * D <= D / 10000000) by (unfold Rdiv; rewrite Rmult_comm; apply Rmult_le_compat_l; lra).
  assert (P2 : D * (1 - / 10000000) <= d2) by (apply Rabs_le_inv in R2; lra). assert (P2' : 0 < d2) by lra.
  (* the normalized coordinate *)
  assert (S1 : nsub (Some x) (Some a) = Some d1) by exact E1.
  assert (S2 : nsub (Some b) (Some a) = Some d2) by exact E2.
  rewrite S1, S2.
  assert (Q0 : 0 <= d1 / d2 <= 1).
  { split; [apply Rmult_le_pos; [lra|apply Rlt_le, Rinv_0_lt_compat; lra]|].
    apply (Rmult_le_reg_r d2); [lra|]. unfold Rdiv. rewrite Rmult_assoc, Rinv_l by lra. lra. }
  destruct (fit_rd (d1 / d2) 1) as (E3 & F3 & R3); [rewrite Rabs_pos_eq; lra|unfold big; lra|].
  assert (S3 : ndiv (Some d1) (Some d2) = Some (rd f (d1 / d2))).
  { cbn [ndiv FX FN bind2]. destruct (Req_EM_T d2 0) as [Z|_]; [lra|]. exact E3. }
  rewrite S3. set (sg := rd f (d1 / d2)) in *.
  assert (G1 : 0 <= sg <= 1).
  { split.
    - pose proof (rd_le f G 0 (d1 / d2) ltac:(lra)) as H. rewrite rd_0 in H. exact H.
    - apply (rd_le_gf f G _ 1); [|lra]. pose proof (fl_nat 1 ltac:(lia)) as [[H _] _]. exact H. }
  assert (Rs : Rabs (sg - (x - a) / D) <= 3.01 * eps f).
  { assert (K : Rabs (d1 / d2 - (x - a) / D) <= 2.005 * eps f).
    { replace (d1 / d2 - (x - a) / D) with (((d1 - (x - a)) - (x - a) / D * (d2 - D)) / d2) by (field; split; lra).
      unfold Rdiv at 1. rewrite Rabs_mult, Rabs_inv, (Rabs_pos_eq d2) by lra.
      apply (Rmult_le_reg_r d2); [lra|]. rewrite Rmult_assoc, Rinv_l, Rmult_1_r by lra.
      assert (Q : 0 <= (x - a) / D <= 1).
      { split; [apply Rmult_le_pos; [lra|apply Rlt_le, Rinv_0_lt_compat; lra]|].
        apply (Rmult_le_reg_r D); [lra|]. unfold Rdiv. rewrite Rmult_assoc, Rinv_l by lra. unfold D; lra. }
      unfold Rminus at 1. eapply Rle_trans; [apply Rabs_triang|]. rewrite Rabs_Ropp, Rabs_mult, (Rabs_pos_eq ((x - a) / D)) by lra.
      assert ((x - a) / D * Rabs (d2 - D) <= 1 * (eps f * D)) by (apply Rmult_le_compat; try lra; apply Rabs_pos).
      assert (2.005 * eps f * (D * (1 - / 10000000)) <= 2.005 * eps f * d2) by (apply Rmult_le_compat_l; lra).
      assert (0 <= eps f * D) by (apply Rmult_le_pos; lra). nra. }
    eapply Rle_trans; [apply (abs_step _ (d1 / d2) _ _ _ R3 K)|]. lra. }
  (* the grid coordinate *)
  set (N := INR (n - 1)) in *.
  assert (Zn : nz (Z.of_nat n - 1) = Some N /\ fl f N).
  { replace (Z.of_nat n - 1)%Z with (Z.of_nat (n - 1)) by lia. destruct (fl_nat (n - 1)); [lia|]. split; auto. }
  destruct Zn as [Zn FN1]. rewrite Zn.
  assert (T0 : 0 <= sg * N <= N) by (split; [apply Rmult_le_pos; lra|rewrite <- (Rmult_1_l N) at 2; apply Rmult_le_compat_r; lra]).
  destruct (fit_rd (sg * N) N) as (E4 & F4 & R4); [rewrite Rabs_pos_eq; lra|unfold big; lra|].
  assert (S4 : nmul (Some sg) (Some N) = Some (rd f (sg * N))) by exact E4.
  rewrite S4. unfold cell. rewrite Zn, S4. set (X := rd f (sg * N)) in *.
  assert (X0 : 0 <= X <= N).
  { split.
    - pose proof (rd_le f G 0 (sg * N) ltac:(lra)) as H. rewrite rd_0 in H. exact H.
    - apply (rd_le_gf f G _ N); [apply FN1|lra]. }
  assert (RX : Rabs (X - (x - a) / D * N) <= 4.1 * eps f * N).
  { assert (K : Rabs (sg * N - (x - a) / D * N) <= 3.01 * eps f * N).
    { rewrite <- Rmult_minus_distr_r, Rabs_mult, (Rabs_pos_eq N) by lra. apply Rmult_le_compat_r; lra. }
    eapply Rle_trans; [apply (abs_step _ (sg * N) _ _ _ R4 K)|]. assert (0 <= eps f * N) by (apply Rmult_le_pos; lra). lra. }
  assert (ST : steps_to a b n x = (x - a) / D * N).
  { unfold steps_to. fold D N. field. split; lra. }
  rewrite <- ST in RX. clear S4 E4 R4 T0.
  cbn [ntrunc FX FN]. unfold Rtrunc. destruct (Rlt_dec X 0) as [L|_]; [lra|].
  pose proof (Rfloor_le X) as [U1 U2]. set (z := Rfloor X) in *. clearbody z.
  assert (Z1 : (0 <= z)%Z). { assert (H : (-1 < z)%Z) by (apply lt_IZR; cbn; lra). lia. }
  assert (NZ : N = IZR (Z.of_nat n - 1)) by (unfold N; rewrite INR_IZR_INZ; f_equal; lia).
  assert (Z2 : (z <= Z.of_nat n - 1)%Z) by (apply le_IZR; lra).
  assert (TI : to_int z = z).
  { unfold to_int, int_min, int_max. destruct (Z.leb_spec (-2147483648) z); [|lia]. destruct (Z.leb_spec z 2147483647); [|lia]. reflexivity. }
  rewrite TI. set (q := Z.to_nat (Z.min z (Z.of_nat n - 2))). exists X, q.
  assert (Hq : Z.max (Z.min z (Z.of_nat n - 2)) 0 = Z.of_nat q) by lia. split; [exact Hq|].
  assert (Hq2 : (q + 1 < n)%nat) by lia. split; [exact Hq2|].
  assert (C : INR q <= X <= INR q + 1).
  { rewrite INR_IZR_INZ, <- Hq. destruct (Z.le_gt_cases z (Z.of_nat n - 2)).
    - replace (Z.max (Z.min z (Z.of_nat n - 2)) 0) with z by lia. lra.
    - replace (Z.max (Z.min z (Z.of_nat n - 2)) 0) with (Z.of_nat n - 2)%Z by lia.
      replace z with (Z.of_nat n - 1)%Z in * by lia. rewrite minus_IZR in *. lra. }
  destruct (fl_nat q) as [Fq Zq]; [lia|]. rewrite Zq.
  assert (FL : fl f (X - INR q)).
  { split.
    - assert (Hp : Prec_gt_0 (fprec f)) by (red; lia).
      destruct q as [|q'] eqn:Eq; [cbn [INR]; rewrite Rminus_0_r; apply F4|].
      assert (1 <= INR (S q')) by (change 1 with (INR 1); apply le_INR; lia).
      apply sterbenz; [apply FLT_exp_valid; exact Hp|apply FLT_exp_monotone|apply F4|apply Fq|lra].
    - apply Rle_lt_trans with 1; [rewrite Rabs_pos_eq; lra|]. change 1 with (bpow radix2 0). apply bpow_lt. destruct Ff as (_ & _ & _ & H). lia. }
  split; [exact (fit_fl f _ FL)|]. split; [exact FL|]. split; [exact C|]. split; [lra|]. split; [|exact RX].
  rewrite ST. assert (Q : 0 <= (x - a) / D <= 1).
  { split; [apply Rmult_le_pos; [lra|apply Rlt_le, Rinv_0_lt_compat; lra]|].
    apply (Rmult_le_reg_r D); [lra|]. unfold Rdiv. rewrite Rmult_assoc, Rinv_l by lra. unfold D; lra. }
  split; [apply Rmult_le_pos; lra|]. rewrite <- (Rmult_1_l N) at 2. apply Rmult_le_compat_r; lra.
Qed.

(** ** The weighted mean of two values *)
Lemma mix l a b wa wb e B : fl f l -> 0 <= l <= 1 -> moderate B -> 0 <= e <= B / 10 -> Rabs wa <= B -> Rabs wb <= B ->
  near f a wa e -> near f b wb e ->
  near f (nadd (nmul (nsub (nz 1) (Some l)) a) (nmul (Some l) b)) ((1 - l) * wa + l * wb) (e + 5 * eps f * B).
Proof.
  intros Fl Hl [B1 B2] He Ha Hb (va & -> & Fa & Ea) (vb & -> & Fb & Eb). pose proof eps_small as Ep. pose proof Ff as (G & P & _).
  destruct (fl_nat 1 ltac:(lia)) as [F1 Z1]. change (Z.of_nat 1) with 1%Z in Z1. change (INR 1) with 1 in *. rewrite Z1.
  destruct (fit_rd (1 - l) 1) as (E1 & Fm & R1); [rewrite Rabs_pos_eq; lra|unfold big; lra|].
  assert (S1 : nsub (Some 1) (Some l) = Some (rd f (1 - l))) by exact E1. rewrite S1. set (mu := rd f (1 - l)) in *.
  assert (M0 : 0 <= mu <= 1).
  { split.
    - pose proof (rd_le f G 0 (1 - l) ltac:(lra)) as H. rewrite rd_0 in H. exact H.
    - apply (rd_le_gf f G _ 1); [apply F1|lra]. }
  assert (Va : Rabs va <= 1.1 * B).
  { replace va with ((va - wa) + wa) by ring. eapply Rle_trans; [apply Rabs_triang|]. lra. }
  assert (Vb : Rabs vb <= 1.1 * B).
  { replace vb with ((vb - wb) + wb) by ring. eapply Rle_trans; [apply Rabs_triang|]. lra. }
  assert (HM : / big <= 1.1 * B <= big) by (unfold big; lra).
  destruct (fit_rd (mu * va) (1.1 * B)) as (E2 & F2 & R2).
  { rewrite Rabs_mult, (Rabs_pos_eq mu) by lra. rewrite <- (Rmult_1_l (1.1 * B)). apply Rmult_le_compat; try lra. apply Rabs_pos. } { exact HM. }
  destruct (fit_rd (l * vb) (1.1 * B)) as (E3 & F3 & R3).
  { rewrite Rabs_mult, (Rabs_pos_eq l) by lra. rewrite <- (Rmult_1_l (1.1 * B)). apply Rmult_le_compat; try lra. apply Rabs_pos. } { exact HM. }
  assert (S2 : nmul (Some mu) (Some va) = Some (rd f (mu * va))) by exact E2.
  assert (S3 : nmul (Some l) (Some vb) = Some (rd f (l * vb))) by exact E3.
  rewrite S2, S3. set (pa := rd f (mu * va)) in *. set (pb := rd f (l * vb)) in *.
  set (t := (1 - l) * wa + l * wb).
  assert (EB : 0 <= eps f * B <= B / 1000000).
  { split; [apply Rmult_le_pos; lra|]. unfold Rdiv. rewrite Rmult_comm. apply Rmult_le_compat_l; lra. }
  assert (K : Rabs (pa + pb - t) <= e + 3.3 * (eps f * B)).
  { replace (pa + pb - t) with ((pa - mu * va) + (pb - l * vb) + ((mu - (1 - l)) * va + ((1 - l) * (va - wa) + l * (vb - wb)))) by (unfold t; ring).
    eapply Rle_trans; [apply Rabs_triang|]. eapply Rle_trans; [apply Rplus_le_compat; [apply Rabs_triang|apply Rabs_triang]|].
    assert (K1 : Rabs ((mu - (1 - l)) * va) <= eps f * 1 * (1.1 * B)) by (rewrite Rabs_mult; apply Rmult_le_compat; auto using Rabs_pos).
    assert (K2 : Rabs ((1 - l) * (va - wa) + l * (vb - wb)) <= e).
    { eapply Rle_trans; [apply Rabs_triang|]. rewrite !Rabs_mult, (Rabs_pos_eq l), (Rabs_pos_eq (1 - l)) by lra.
      assert ((1 - l) * Rabs (va - wa) <= (1 - l) * e) by (apply Rmult_le_compat_l; lra).
      assert (l * Rabs (vb - wb) <= l * e) by (apply Rmult_le_compat_l; lra). lra. }
    lra. }
  assert (Ht : Rabs t <= B).
  { apply Rabs_le_inv in Ha. apply Rabs_le_inv in Hb. apply Rabs_le. unfold t. apply mix_bounds; lra. }
  destruct (fit_rd (pa + pb) (1.2 * B)) as (E4 & F4 & R4).
  { replace (pa + pb) with ((pa + pb - t) + t) by ring. eapply Rle_trans; [apply Rabs_triang|]. lra. } { unfold big; lra. }
  exists (rd f (pa + pb)). split; [exact E4|]. split; [exact F4|].
  eapply Rle_trans; [apply (abs_step _ (pa + pb) _ _ _ R4 K)|]. lra.
Qed.

(** ** All axes *)
Definition ulps (ns : list nat) : R := fold_right (fun n s => 9 * INR (n - 1) + 5 + s) 0 ns.

Lemma ulps_pos ns : 0 <= ulps ns.
Proof. induction ns as [|n ns IH]; cbn [ulps fold_right]; [lra|]. fold (ulps ns). pose proof (pos_INR (n - 1)). lra. Qed.
Lemma ulps_small ns : Forall axis_ok ns -> (length ns <= 10)%nat -> eps f * ulps ns <= / 100 * INR (length ns).
Proof.
  intros H L. clear L. pose proof eps_small as Ep. induction H as [|n ns (_ & _ & Hn) H IH]; [cbn; lra|].
  cbn [ulps fold_right]. fold (ulps ns). change (length (n :: ns)) with (S (length ns)). rewrite S_INR. lra.
Qed.

Lemma interpolant_ext smin smax ns g h p : (forall ks, Forall2 (fun k n => (k < n)%nat) ks ns -> g ks = h ks) ->
  length smin = length ns -> length smax = length ns -> length p = length ns ->
  interpolant smin smax ns g p = interpolant smin smax ns h p.
Proof.
  revert smin smax g h p; induction ns as [|n ns IH]; intros smin smax g h p E H1 H2 H3.
  - destruct smin; [|discriminate]. cbn. apply E. constructor.
  - destruct smin as [|a smin]; [discriminate|]. destruct smax as [|b smax]; [discriminate|]. destruct p as [|x p]; [discriminate|].
    cbn [length] in *. cbn [interpolant]. unfold sum_to.
    assert (K : forall l, (forall k, In k l -> (k < n)%nat) ->
      fold_right (fun k s => hat (steps_to a b n x - INR k) * interpolant smin smax ns (fun ks => g (k :: ks)) p + s) 0 l =
      fold_right (fun k s => hat (steps_to a b n x - INR k) * interpolant smin smax ns (fun ks => h (k :: ks)) p + s) 0 l).
    { induction l as [|k l IHl]; cbn [fold_right]; intros Hl; [reflexivity|]. rewrite IHl by (intros; apply Hl; now right).
      rewrite (IH smin smax (fun ks => g (k :: ks)) (fun ks => h (k :: ks)) p); auto.
      intros ks Hk. apply E. constructor; [apply Hl; now left|exact Hk]. }
    apply K. intros k Hk. apply in_seq in Hk. lia.
Qed.

Definition grid_fl (smin smax : list R) : Prop := Forall2 (fun a b => fl f a /\ fl f b /\ moderate (b - a)) smin smax.

Lemma interpolant_cap smin smax ns g p B : Forall axis_ok ns -> length smin = length ns -> length smax = length ns -> length p = length ns ->
  grid_fl smin smax -> inside smin smax p ->
  (forall ks, Forall2 (fun k n => (k < n)%nat) ks ns -> Rabs (g ks) <= B) -> Rabs (interpolant smin smax ns g p) <= B.
Proof.
  intros Ha. revert smin smax g p; induction Ha as [|n ns (Hn & Hn2 & Hn3) Ha IH]; intros smin smax g p H1 H2 H3 Hg Hi HB.
  - destruct smin; [|discriminate]. cbn. apply HB. constructor.
  - destruct smin as [|a smin]; [discriminate|]. destruct smax as [|b smax]; [discriminate|]. destruct p as [|x p]; [discriminate|].
    cbn [length] in *. inversion Hg as [|? ? ? ? (_ & _ & [W1 W2]) Hg']; subst. inversion Hi as [|? ? ? ? Hx Hi']; subst. cbn [fst snd] in Hx.
    cbn [interpolant]. apply pl_cap; [exact Hn| |].
    + intros k Hk. apply IH; auto.
    + assert (N1 : 1 <= INR (n - 1)) by (change 1 with (INR 1); apply le_INR; lia).
      assert (ST : steps_to a b n x = (x - a) / (b - a) * INR (n - 1)) by (unfold steps_to; field; split; lra).
      rewrite ST. assert (Q : 0 <= (x - a) / (b - a) <= 1).
      { split; [apply Rmult_le_pos; [lra|apply Rlt_le, Rinv_0_lt_compat; lra]|].
        apply (Rmult_le_reg_r (b - a)); [lra|]. unfold Rdiv. rewrite Rmult_assoc, Rinv_l by lra. lra. }
      split; [apply Rmult_le_pos; lra|]. rewrite <- (Rmult_1_l (INR (n - 1))) at 2. apply Rmult_le_compat_r; lra.
Qed.

Lemma ml_near smin smax ns p V off B : (length ns <= 10)%nat -> Forall axis_ok ns ->
  length smin = length ns -> length smax = length ns -> length p = length ns ->
  grid_fl smin smax -> Forall (fl f) p -> inside smin smax p ->
  Forall (fun v => fl f v /\ Rabs v <= B) V -> moderate B -> (off + prodn ns <= length V)%nat -> (Z.of_nat (off + prodn ns) <= int_max + 1)%Z ->
  exists v, ml (dims_of (map Some smin) (map Some smax) (map Z.of_nat ns) (map Some p)) (map Some V) (Z.of_nat off) = Ok v /\
    near f v (interpolant smin smax ns (fun ks => nth (off + flat ns ks) V 0) p) (eps f * B * ulps ns).
Proof.
  intros Hl Ha H1 H2 H3 Hg Hp Hi HV HB. pose proof eps_small as Ep.
  assert (VB : forall k, (k < length V)%nat -> fl f (nth k V 0) /\ Rabs (nth k V 0) <= B).
  { intros k Hk. rewrite Forall_forall in HV. apply HV. now apply nth_In. }
  revert smin smax p off H1 H2 H3 Hg Hp Hi; induction Ha as [|n ns Hn Ha IH]; intros smin smax p off H1 H2 H3 Hg Hp Hi HL HM.
  - destruct smin; [|discriminate]. cbn [map dims_of ml interpolant flat ulps fold_right]. cbn [prodn fold_right] in HL, HM.
    rewrite (rdi_ok _ _ (Some 0)) by (rewrite ?map_length; lia). rewrite Nat2Z.id.
    exists (nth off (map Some V) (Some 0)). split; [reflexivity|]. rewrite map_nth.
    replace (off + 0)%nat with off by lia. eapply near_weaken; [|apply near_0, VB; lia]. rewrite Rmult_0_r. lra.
  - destruct smin as [|a smin]; [discriminate|]. destruct smax as [|b smax]; [discriminate|]. destruct p as [|x p]; [discriminate|].
    cbn [length] in *. inversion Hg as [|? ? ? ? (Fa & Fb & W) Hg']; subst. inversion Hi as [|? ? ? ? Hx Hi']; subst. cbn [fst snd] in Hx.
    inversion Hp as [|? ? Fx Hp']; subst.
    destruct (axis a b n x Hn Fa Fb Fx W Hx) as (X & q & C1 & C2 & C3 & C4 & C5 & C6 & C7 & C8). cbv zeta in C1, C3.
    cbn [map dims_of ml]. rewrite C1, C3.
    assert (PZ : prodZ (map Z.of_nat ns) = Z.of_nat (prodn ns)) by apply prodZ_n. rewrite PZ.
    cbn [prodn fold_right] in HL, HM. fold (prodn ns) in HL, HM.
    assert (O1 : (off + q * prodn ns + prodn ns <= length V)%nat) by nia.
    assert (O2 : (off + (q + 1) * prodn ns + prodn ns <= length V)%nat) by nia.
    assert (M1 : (Z.of_nat (off + q * prodn ns + prodn ns) <= int_max + 1)%Z) by nia.
    assert (M2 : (Z.of_nat (off + (q + 1) * prodn ns + prodn ns) <= int_max + 1)%Z) by nia.
    replace (Z.of_nat off + Z.of_nat (prodn ns) * Z.of_nat q)%Z with (Z.of_nat (off + q * prodn ns)) by lia.
    replace (Z.of_nat off + Z.of_nat (prodn ns) * (Z.of_nat q + 1))%Z with (Z.of_nat (off + (q + 1) * prodn ns)) by lia.
    destruct (IH ltac:(lia) smin smax p (off + q * prodn ns)%nat) as (va & -> & Na); auto.
    destruct (IH ltac:(lia) smin smax p (off + (q + 1) * prodn ns)%nat) as (vb & -> & Nb); auto.
    cbn [bind]. eexists. split; [reflexivity|].
    set (w := fun k => interpolant smin smax ns (fun ks => nth (off + flat (n :: ns) (k :: ks)) V 0) p).
    assert (FLt : forall ks ms, Forall2 (fun k n => (k < n)%nat) ks ms -> (flat ms ks < prodn ms)%nat).
    { clear. intros ks ms H. induction H as [|k m ks ms Hkm K1 IH]; cbn [flat prodn fold_right]; [lia|]. fold (prodn ms). nia. }
    assert (W' : forall k, interpolant smin smax ns (fun ks => nth (off + k * prodn ns + flat ns ks) V 0) p = w k).
    { intros k. apply interpolant_ext; auto. intros ks _. f_equal. cbn [flat]. lia. }
    rewrite W' in Na, Nb.
    assert (WB : cap n w B).
    { intros k Hk. unfold w. apply (interpolant_cap smin smax ns _ p B); auto; try lia.
      intros ks Hks. apply VB. assert (F := FLt (k :: ks) (n :: ns) (Forall2_cons _ _ Hk Hks)). cbn [prodn fold_right] in F. fold (prodn ns) in F. lia. }
    change (interpolant (a :: smin) (b :: smax) (n :: ns) (fun ks => nth (off + flat (n :: ns) ks) V 0) (x :: p))
      with (sum_to n (fun k => hat (steps_to a b n x - INR k) * w k)).
    pose proof (ulps_pos ns) as U0. assert (BP : 0 < B) by (destruct HB; lra).
    assert (US : eps f * ulps ns <= / 10).
    { pose proof (ulps_small ns Ha ltac:(lia)) as U. assert (INR (length ns) <= INR 9) by (apply le_INR; lia). cbn in H. lra. }
    assert (E1 : 0 <= eps f * B * ulps ns <= B / 10).
    { replace (eps f * B * ulps ns) with (B * (eps f * ulps ns)) by ring. assert (0 <= eps f * ulps ns) by (apply Rmult_le_pos; lra).
      split; [apply Rmult_le_pos; lra|]. unfold Rdiv. apply Rmult_le_compat_l; lra. }
    pose proof (mix (X - INR q) va vb (w q) (w (q + 1)%nat) _ B C4 ltac:(lra) HB E1 (WB q ltac:(lia)) (WB (q + 1)%nat ltac:(lia)) Na Nb) as M.
    rewrite <- (hats n w X q C2 C5) in M.
    destruct Hn as (Hn & Hn2 & Hn3).
    assert (D1 : 4.1 * eps f * INR (n - 1) <= 1) by lra.
    pose proof (pos_INR q) as Pq.
    pose proof (pl_move n w B (steps_to a b n x) X _ Hn WB C7 ltac:(lra) C8 D1) as MV.
    eapply near_move; [|exact M]. cbn [ulps fold_right]. fold (ulps ns).
    assert (0 <= B * (eps f * INR (n - 1))) by (apply Rmult_le_pos; [lra|apply Rmult_le_pos; [lra|apply pos_INR]]). lra.
Qed.

(** ** At the ends of the axes nothing is rounded *)
Lemma axis_end a b n x : axis_ok n -> fl f a -> fl f b -> moderate (b - a) -> x = a \/ x = b ->
  let sn := ndiv (nsub (Some x) (Some a)) (nsub (Some b) (Some a)) in
  exists q l, cell sn (Z.of_nat n) = Z.of_nat q /\ (q + l = if Req_EM_T x a then 0 else n - 1)%nat /\ (l <= 1)%nat /\ (q + 1 < n)%nat /\
    nsub (nmul sn (nz (Z.of_nat n - 1))) (nz (Z.of_nat q)) = Some (INR l).
Proof.
  intros Hn Fa Fb W Hx. pose proof Hn as (Hn1 & Hn2 & Hn3). cbv zeta. pose proof eps_small as Ep. pose proof Ff as (G & P & _).
  destruct W as [W1 W2]. set (D := b - a) in *. assert (HM : / big <= D <= big) by (unfold big; lra).
  destruct (fit_rd (b - a) D) as (E2 & F2 & R2); [rewrite Rabs_pos_eq; unfold D in *; lra|exact HM|]. fold D in R2, E2, F2.
  set (d2 := rd f D) in *.
  assert (ED : eps f * D <= D / 10000000) by (unfold Rdiv; rewrite Rmult_comm; apply Rmult_le_compat_l; lra).
  assert (P2 : D * (1 - / 10000000) <= d2) by (apply Rabs_le_inv in R2; lra). assert (P2' : 0 < d2) by lra.
  assert (S2 : nsub (Some b) (Some a) = Some d2) by exact E2. rewrite S2.
  assert (F0 : fl f 0 /\ nz 0 = Some 0) by (apply (fl_nat 0); lia). destruct F0 as [F0 Z0].
  assert (F1 : fl f 1 /\ nz 1 = Some 1) by (apply (fl_nat 1); lia). destruct F1 as [F1 Z1].
  destruct (fl_nat (n - 1)) as [FN1 Zn]; [lia|]. replace (Z.of_nat (n - 1)) with (Z.of_nat n - 1)%Z in Zn by lia.
  destruct Hx as [-> | ->].
  - exists 0%nat, 0%nat. destruct (Req_EM_T a a) as [_|N]; [|lra].
    assert (S1 : nsub (Some a) (Some a) = Some 0) by (cbn [nsub FX FN bind2]; rewrite Rminus_diag_eq by reflexivity; now apply fit_fl).
    assert (S3 : ndiv (Some 0) (Some d2) = Some 0).
    { cbn [ndiv FX FN bind2]. destruct (Req_EM_T d2 0) as [Z|_]; [lra|]. unfold Rdiv. rewrite Rmult_0_l. now apply fit_fl. }
    assert (S4 : nmul (Some 0) (Some (INR (n - 1))) = Some 0) by (cbn [nmul FX FN bind2]; rewrite Rmult_0_l; now apply fit_fl).
    rewrite S1, S3. unfold cell. rewrite Zn, S4. cbn [ntrunc FX FN]. unfold Rtrunc. destruct (Rlt_dec 0 0) as [L|_]; [lra|].
    rewrite (Rfloor_IZR 0). change (to_int 0) with 0%Z. split; [lia|]. split; [reflexivity|]. split; [lia|]. split; [lia|].
    change (nz (Z.of_nat 0)) with (nz 0%Z). rewrite Z0. cbn [nsub FX FN bind2 INR]. rewrite Rminus_0_r. now apply fit_fl.
  - exists (n - 2)%nat, 1%nat. destruct (Req_EM_T b a) as [N|_]; [unfold D in *; lra|]. rewrite S2.
    assert (S3 : ndiv (Some d2) (Some d2) = Some 1).
    { cbn [ndiv FX FN bind2]. destruct (Req_EM_T d2 0) as [Z|_]; [lra|]. unfold Rdiv. rewrite Rinv_r by lra. now apply fit_fl. }
    assert (S4 : nmul (Some 1) (Some (INR (n - 1))) = Some (INR (n - 1))) by (cbn [nmul FX FN bind2]; rewrite Rmult_1_l; now apply fit_fl).
    rewrite S3. unfold cell. rewrite Zn, S4. cbn [ntrunc FX FN]. unfold Rtrunc. pose proof (pos_INR (n - 1)) as PI.
    destruct (Rlt_dec (INR (n - 1)) 0) as [L|_]; [lra|]. rewrite INR_IZR_INZ, Rfloor_IZR.
    assert (TI : to_int (Z.of_nat (n - 1)) = Z.of_nat (n - 1)).
    { unfold to_int, int_min, int_max. destruct (Z.leb_spec (-2147483648) (Z.of_nat (n - 1))); [|lia].
      destruct (Z.leb_spec (Z.of_nat (n - 1)) 2147483647); [|lia]. reflexivity. }
    rewrite TI. split; [lia|]. split; [lia|]. split; [lia|]. split; [lia|].
    destruct (fl_nat (n - 2)) as [_ Zq]; [lia|]. rewrite Zq. cbn [nsub FX FN bind2].
    replace (IZR (Z.of_nat (n - 1)) - INR (n - 2)) with 1 by (rewrite <- INR_IZR_INZ; replace (n - 1)%nat with (S (n - 2)) by lia; rewrite S_INR; ring).
    now apply fit_fl.
Qed.
Lemma mix_end l a b : (l <= 1)%nat -> fl f a -> fl f b ->
  nadd (nmul (nsub (nz 1) (Some (INR l))) (Some a)) (nmul (Some (INR l)) (Some b)) = Some (if (l =? 0)%nat then a else b).
Proof.
  intros Hl Fa Fb. destruct (fl_nat 0) as [F0 _]; [lia|]. destruct (fl_nat 1) as [F1 Z1]; [lia|].
  change (Z.of_nat 1) with 1%Z in Z1. change (INR 1) with 1 in *. change (INR 0) with 0 in *. rewrite Z1.
  assert (l = 0 \/ l = 1)%nat as [-> | ->] by lia; cbn [INR Nat.eqb nsub nmul nadd FX FN bind2].
  - rewrite Rminus_0_r, (fit_fl f 1 F1). cbn [bind2]. rewrite Rmult_1_l, Rmult_0_l, (fit_fl f a Fa), (fit_fl f 0 F0). cbn [bind2].
    rewrite Rplus_0_r. now apply fit_fl.
  - rewrite Rminus_diag_eq, (fit_fl f 0 F0) by reflexivity. cbn [bind2]. rewrite Rmult_1_l, Rmult_0_l, (fit_fl f b Fb), (fit_fl f 0 F0). cbn [bind2].
    rewrite Rplus_0_l. now apply fit_fl.
Qed.

(** number of the corner: first or last node of each axis *)
Fixpoint corner (smin : list R) (ns : list nat) (p : list R) : list nat :=
  match smin, ns, p with
  | a :: smin', n :: ns', x :: p' => (if Req_EM_T x a then 0 else n - 1)%nat :: corner smin' ns' p'
  | _, _, _ => []
  end.
Lemma ml_corner smin smax ns p V off : Forall axis_ok ns ->
  length smin = length ns -> length smax = length ns -> length p = length ns ->
  grid_fl smin smax -> Forall2 (fun ab x => x = fst ab \/ x = snd ab) (combine smin smax) p ->
  Forall (fl f) V -> (off + prodn ns <= length V)%nat -> (Z.of_nat (off + prodn ns) <= int_max + 1)%Z ->
  ml (dims_of (map Some smin) (map Some smax) (map Z.of_nat ns) (map Some p)) (map Some V) (Z.of_nat off) =
  Ok (Some (nth (off + flat ns (corner smin ns p)) V 0)).
Proof.
  intros Ha H1 H2 H3 Hg Hi HV.
  revert smin smax p off H1 H2 H3 Hg Hi; induction Ha as [|n ns Hn Ha IH]; intros smin smax p off H1 H2 H3 Hg Hi HL HM.
  - destruct smin; [|discriminate]. cbn [map dims_of ml flat corner]. cbn [prodn fold_right] in HL, HM.
    rewrite (rdi_ok _ _ (Some 0)) by (rewrite ?map_length; lia). rewrite Nat2Z.id, map_nth.
    replace (off + 0)%nat with off by lia. reflexivity.
  - destruct smin as [|a smin]; [discriminate|]. destruct smax as [|b smax]; [discriminate|]. destruct p as [|x p]; [discriminate|].
    cbn [length] in *. inversion Hg as [|? ? ? ? (Fa & Fb & W) Hg']; subst. inversion Hi as [|? ? ? ? Hx Hi']; subst. cbn [fst snd] in Hx.
    destruct (axis_end a b n x Hn Fa Fb W Hx) as (q & l & C1 & C2 & C3 & C4 & C5). cbv zeta in C1, C5.
    cbn [map dims_of ml]. rewrite C1, C5.
    assert (PZ : prodZ (map Z.of_nat ns) = Z.of_nat (prodn ns)) by apply prodZ_n. rewrite PZ.
    cbn [prodn fold_right] in HL, HM. fold (prodn ns) in HL, HM.
    assert (O1 : (off + q * prodn ns + prodn ns <= length V)%nat) by nia.
    assert (O2 : (off + (q + 1) * prodn ns + prodn ns <= length V)%nat) by nia.
    assert (M1 : (Z.of_nat (off + q * prodn ns + prodn ns) <= int_max + 1)%Z) by nia.
    assert (M2 : (Z.of_nat (off + (q + 1) * prodn ns + prodn ns) <= int_max + 1)%Z) by nia.
    replace (Z.of_nat off + Z.of_nat (prodn ns) * Z.of_nat q)%Z with (Z.of_nat (off + q * prodn ns)) by lia.
    replace (Z.of_nat off + Z.of_nat (prodn ns) * (Z.of_nat q + 1))%Z with (Z.of_nat (off + (q + 1) * prodn ns)) by lia.
    rewrite (IH smin smax p), (IH smin smax p) by (auto; lia). cbn [bind].
    assert (FV : forall k, fl f (nth k V 0)).
    { intros k. destruct (Nat.lt_ge_cases k (length V)) as [L|L]; [rewrite Forall_forall in HV; apply HV; now apply nth_In|].
      rewrite nth_overflow by exact L. apply (fl_nat 0). lia. }
    rewrite mix_end by auto. do 2 f_equal. cbn [corner flat]. rewrite <- C2.
    destruct (Nat.eqb_spec l 0) as [L|L]; f_equal; [subst l|replace l with 1%nat by lia]; lia.
Qed.
End Axis.
