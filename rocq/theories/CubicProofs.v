(** Lemmas about the interpolating cubic splines of Cubic.v over the reals. *)
From Coq Require Import ZArith List Lia Bool Reals Lra Arith.
From Verif Require Import Spec Base Num Interp PlProofs Cubic.
Import ListNotations.
Open Scope R_scope.
#[local] Existing Instance RT.

(** ** tridiagonal systems *)
Definition dominant (r : row (T := R)) : Prop := Rabs (r_a r) + Rabs (r_c r) < r_b r.

Lemma solve_length rows : forall cp dp, length (solve rows cp dp) = length rows.
Proof. induction rows as [|r rows IH]; intros; [reflexivity|]. cbn [solve length]. now rewrite IH. Qed.

Lemma solve_ok rows : forall cp dp, Rabs cp <= 1 -> Forall dominant rows ->
  let m := solve rows cp dp in
  forall i r, nth_error rows i = Some r ->
    r_a r * (match i with O => dp - cp * nth 0 m 0 | S j => nth j m 0 end) + r_b r * nth i m 0 + r_c r * nth (S i) m 0 = r_d r.
Proof.
  induction rows as [|r rows IH]; intros cp dp Hc F m i r' Hi; [destruct i; discriminate|].
  inversion F as [|? ? D F']; subst. red in D.
  cbn [solve] in m. rt. set (den := r_b r - r_a r * cp) in *. set (c := r_c r / den) in *. set (d := (r_d r - r_a r * dp) / den) in *.
  assert (A : Rabs (r_a r * cp) <= Rabs (r_a r)).
  { rewrite Rabs_mult. pose proof (Rabs_pos (r_a r)). nra. }
  assert (Hden : Rabs (r_c r) < den).
  { unfold den. pose proof (Rle_abs (r_a r * cp)). lra. }
  pose proof (Rabs_pos (r_c r)) as Pc.
  assert (Hc' : Rabs c <= 1).
  { unfold c, Rdiv. rewrite Rabs_mult, (Rabs_pos_eq (/ den)) by (left; apply Rinv_0_lt_compat; lra).
    apply Rmult_le_reg_r with den; [lra|]. rewrite Rmult_assoc, Rinv_l by lra. lra. }
  specialize (IH c d Hc' F'). cbv zeta in IH. set (m' := solve rows c d) in *.
  destruct i as [|i].
  - injection Hi as <-. unfold m. cbn [nth]. rewrite hd_nth. rt.
    assert (E1 : d * den = r_d r - r_a r * dp) by (unfold d; field; lra).
    assert (E2 : c * den = r_c r) by (unfold c; field; lra).
    set (z := nth 0 m' 0) in *. unfold den in *.
    replace (r_a r * (dp - cp * (d - c * z)) + r_b r * (d - c * z) + r_c r * z)
      with (r_a r * dp + (d * (r_b r - r_a r * cp)) - (c * (r_b r - r_a r * cp)) * z + r_c r * z) by ring.
    rewrite E1, E2. ring.
  - cbn [nth_error] in Hi. specialize (IH i r' Hi). unfold m. cbn [nth]. rewrite hd_nth. rt.
    destruct i as [|i]; [|exact IH]. exact IH.
Qed.

(** ** abstract positions *)
Section Abstract.
Variables (k : nat -> R) (n : nat).
Hypothesis Hn : (3 <= n)%nat.
Hypothesis inc : forall i, (i < n)%nat -> k i < k (S i).

Definition hh i := k (S i) - k i.
Definition ss (v : nat -> R) i := (v (S i) - v i) / hh i.

Lemma hpos i : (i < n)%nat -> 0 < hh i.
Proof. intros H. pose proof (inc i H). unfold hh. lra. Qed.

Lemma kle i j : (i <= j <= n)%nat -> k i <= k j.
Proof. intros [H1 H2]. induction H1 as [|j H1 IH]; [lra|]. pose proof (inc j ltac:(lia)). pose proof (IH ltac:(lia)). lra. Qed.

(** second derivatives [M] of the interpolating spline *)
Definition joint (v M : nat -> R) i : Prop :=
  hh i * M i + 2 * (hh i + hh (S i)) * M (S i) + hh (S i) * M (S (S i)) = 6 * (ss v (S i) - ss v i).
Definition same_cubic (M : nat -> R) j : Prop := (M (S j) - M j) * hh (S j) = (M (S (S j)) - M (S j)) * hh j.
Definition system (v M : nat -> R) : Prop :=
  (forall i, (S i < n)%nat -> joint v M i) /\ same_cubic M 0 /\ same_cubic M (n - 2).

Lemma argmax (f : nat -> R) : forall a, exists m, (1 <= m <= S a)%nat /\ forall i, (1 <= i <= S a)%nat -> f i <= f m.
Proof.
  induction a as [|a (m & Hm & H)].
  - exists 1%nat. split; [lia|]. intros i Hi. replace i with 1%nat by lia. lra.
  - destruct (Rle_dec (f m) (f (S (S a)))) as [L|L].
    + exists (S (S a)). split; [lia|]. intros i Hi. destruct (Nat.eq_dec i (S (S a))) as [->|]; [lra|].
      apply Rle_trans with (f m); [apply H; lia|exact L].
    + exists m. split; [lia|]. intros i Hi. destruct (Nat.eq_dec i (S (S a))) as [->|]; [lra|]. apply H. lia.
Qed.

(** the equation at the first inner position after elimination of the outer one *)
Lemma end_row h h' m0 m1 m2 d : 0 < h -> 0 < h' -> h * m0 + 2 * (h + h') * m1 + h' * m2 = d ->
  (m1 - m0) * h' = (m2 - m1) * h -> (h + 2 * h') * m1 + (h' - h) * m2 = d * h' / (h + h').
Proof.
  intros H H' E S. assert (m0 = m1 - (m2 - m1) * h / h') as -> by (field_simplify_eq; lra). rewrite <- E. field. lra.
Qed.
Lemma end_bound h h' m1 m2 A K d : 0 < h -> 0 < h' -> (h + 2 * h') * m1 + (h' - h) * m2 = d * h' / (h + h') ->
  Rabs d <= 3 * K * (h + h') -> Rabs m1 = A -> Rabs m2 <= A -> A <= 3 * K.
Proof.
  intros H H' E D E1 E2.
  assert (D' : Rabs (d * h' / (h + h')) <= 3 * K * h').
  { unfold Rdiv. rewrite Rmult_assoc, Rabs_mult. assert (P : 0 < h' * / (h + h')) by (apply Rmult_lt_0_compat; [lra|apply Rinv_0_lt_compat; lra]).
    rewrite (Rabs_pos_eq _ (Rlt_le _ _ P)). apply Rle_trans with (3 * K * (h + h') * (h' * / (h + h'))).
    - apply Rmult_le_compat_r; lra.
    - right. field. lra. }
  rewrite <- E in D'.
  assert (T : (h + 2 * h') * A <= 3 * K * h' + Rabs (h' - h) * A).
  { replace ((h + 2 * h') * A) with (Rabs ((h + 2 * h') * m1)) by (rewrite Rabs_mult, E1, Rabs_pos_eq; lra).
    replace ((h + 2 * h') * m1) with ((h + 2 * h') * m1 + (h' - h) * m2 - (h' - h) * m2) by ring.
    eapply Rle_trans; [apply Rabs_triang|]. rewrite Rabs_Ropp, (Rabs_mult (h' - h)). apply Rplus_le_compat; [exact D'|].
    apply Rmult_le_compat_l; [apply Rabs_pos|exact E2]. }
  pose proof (Rabs_pos m1) as PA. rewrite E1 in PA.
  assert (B : h' * A <= h' * (3 * K)).
  { destruct (Rle_dec h h') as [L|L].
    - rewrite Rabs_pos_eq in T by lra. nra.
    - rewrite Rabs_left in T by lra. nra. }
  apply Rmult_le_reg_l in B; lra.
Qed.

(** the second derivatives are at most three times the second differences of the data *)
Lemma system_bound v M K : system v M -> (forall i, (S i < n)%nat -> Rabs (ss v (S i) - ss v i) <= K * ((hh i + hh (S i)) / 2)) ->
  forall i, (1 <= i < n)%nat -> Rabs (M i) <= 3 * K.
Proof.
  intros (J & S0 & S1) HK. destruct (argmax (fun i => Rabs (M i)) (n - 2)) as (m & Hm & Max).
  assert (B : Rabs (M m) <= 3 * K).
  { assert (HK' : forall i, (S i < n)%nat -> Rabs (6 * (ss v (S i) - ss v i)) <= 3 * K * (hh i + hh (S i))).
    { intros i Hi. rewrite Rabs_mult, (Rabs_pos_eq 6) by lra. specialize (HK i Hi). lra. }
    destruct (Nat.eq_dec m 1) as [->|N1].
    - pose proof (hpos 0 ltac:(lia)). pose proof (hpos 1 ltac:(lia)).
      eapply (end_bound (hh 0) (hh 1) (M 1%nat) (M 2%nat) (Rabs (M 1%nat))); [assumption|assumption| |apply (HK' 0%nat); lia|reflexivity|apply Max; lia].
      eapply end_row; [assumption|assumption|apply J; lia|exact S0].
    - destruct (Nat.eq_dec m (n - 1)) as [E|N2].
      + pose proof (hpos (n - 2) ltac:(lia)). pose proof (hpos (S (n - 2)) ltac:(lia)).
        assert (m = S (n - 2)) as -> by lia.
        eapply (end_bound (hh (S (n - 2))) (hh (n - 2)) _ (M (n - 2)%nat) (Rabs (M (S (n - 2))))); [assumption|assumption| |rewrite (Rplus_comm (hh (S (n - 2)))); apply HK'; lia|reflexivity|apply Max; lia].
        apply (end_row _ _ (M (S (S (n - 2))))); [assumption|assumption| |].
        * pose proof (J (n - 2)%nat ltac:(lia)) as E2. red in E2. lra.
        * red in S1. lra.
      + destruct m as [|m]; [lia|].
        pose proof (J m ltac:(lia)) as E. red in E. pose proof (hpos m ltac:(lia)). pose proof (hpos (S m) ltac:(lia)).
        pose proof (Max m ltac:(lia)) as B1. pose proof (Max (S (S m)) ltac:(lia)) as B2. cbv beta in B1, B2.
        specialize (HK' m ltac:(lia)). rewrite <- E in HK'.
        set (A := Rabs (M (S m))) in *.
        assert (T : 2 * (hh m + hh (S m)) * A <= 3 * K * (hh m + hh (S m)) + hh m * A + hh (S m) * A).
        { replace (2 * (hh m + hh (S m)) * A) with (Rabs (2 * (hh m + hh (S m)) * M (S m))) by (rewrite Rabs_mult, Rabs_pos_eq; [reflexivity|lra]).
          replace (2 * (hh m + hh (S m)) * M (S m)) with
            (hh m * M m + 2 * (hh m + hh (S m)) * M (S m) + hh (S m) * M (S (S m)) + - (hh m * M m) + - (hh (S m) * M (S (S m)))) by ring.
          eapply Rle_trans; [apply Rabs_triang|]. apply Rplus_le_compat; [eapply Rle_trans; [apply Rabs_triang|apply Rplus_le_compat; [exact HK'|]]|].
          - rewrite Rabs_Ropp, Rabs_mult, (Rabs_pos_eq (hh m)) by lra. apply Rmult_le_compat_l; lra.
          - rewrite Rabs_Ropp, Rabs_mult, (Rabs_pos_eq (hh (S m))) by lra. apply Rmult_le_compat_l; lra. }
        assert (B : (hh m + hh (S m)) * A <= (hh m + hh (S m)) * (3 * K)) by lra.
        apply Rmult_le_reg_l in B; lra. }
  intros i Hi. eapply Rle_trans; [apply Max; lia|exact B].
Qed.

Lemma outer_value h h' m0 m1 m2 : 0 < h' -> (m1 - m0) * h' = (m2 - m1) * h -> m0 = m1 - h / h' * (m2 - m1).
Proof. intros H E. field_simplify_eq; lra. Qed.

Lemma same_0 M : same_cubic M 0 -> M 0%nat = M 1%nat - hh 0 / hh 1 * (M 2%nat - M 1%nat).
Proof. intros H. pose proof (hpos 1 ltac:(lia)). apply outer_value; assumption. Qed.
Lemma same_n M : same_cubic M (n - 2) -> M n = M (n - 1)%nat + hh (n - 1) / hh (n - 2) * (M (n - 1)%nat - M (n - 2)%nat).
Proof.
  intros H. pose proof (hpos (n - 2) ltac:(lia)). red in H. replace (S (S (n - 2))) with n in H by lia. replace (S (n - 2)) with (n - 1)%nat in H by lia.
  field_simplify_eq; lra.
Qed.

Lemma system_unique v M M' : system v M -> system v M' -> forall i, (i <= n)%nat -> M i = M' i.
Proof.
  intros (J & S0 & S1) (J' & S0' & S1').
  assert (Z : forall i, (1 <= i < n)%nat -> M i = M' i).
  { assert (B : forall i, (1 <= i < n)%nat -> Rabs (M i - M' i) <= 3 * 0).
    { apply (system_bound (fun _ => 0) (fun i => M i - M' i)).
      - unfold system, joint, same_cubic, ss in *. split; [|split].
        + intros i Hi. specialize (J i Hi). specialize (J' i Hi). pose proof (hpos i ltac:(lia)). pose proof (hpos (S i) Hi).
          unfold Rdiv. rewrite !Rminus_0_r, !Rmult_0_l, !Rminus_0_r, Rmult_0_r. lra.
        + lra.
        + lra.
      - intros i Hi. unfold ss, Rdiv. rewrite !Rminus_0_r, !Rmult_0_l, !Rminus_0_r, Rabs_R0. lra. }
    intros i Hi. specialize (B i Hi). rewrite Rmult_0_r in B. pose proof (Rabs_pos (M i - M' i)).
    destruct (Req_dec (M i - M' i) 0) as [E|E]; [lra|]. apply Rabs_pos_lt in E. lra. }
  intros i Hi. destruct (Nat.eq_dec i 0) as [->|]; [|destruct (Nat.eq_dec i n) as [->|]; [|apply Z; lia]].
  - rewrite (same_0 M S0), (same_0 M' S0'), !Z by lia. reflexivity.
  - rewrite (same_n M S1), (same_n M' S1'), !Z by lia. reflexivity.
Qed.

(** ** the pieces *)
Definition pc (v M : nat -> R) i x : R :=
  v i + (ss v i - hh i * (2 * M i + M (S i)) / 6) * (x - k i) + M i / 2 * (x - k i) ^ 2 + (M (S i) - M i) / (6 * hh i) * (x - k i) ^ 3.

Lemma pc_left v M i : pc v M i (k i) = v i.
Proof. unfold pc. replace (k i - k i) with 0 by ring. ring. Qed.
Lemma pc_right v M i : (i < n)%nat -> pc v M i (k (S i)) = v (S i).
Proof. intros Hi. pose proof (hpos i Hi). unfold pc, ss. fold (hh i). field. lra. Qed.

Definition jump (M : nat -> R) j : R := match j with O => 0 | S i => (M (S (S i)) - M (S i)) / (6 * hh (S i)) - (M (S i) - M i) / (6 * hh i) end.

Lemma pc_jump v M i x : (S i < n)%nat -> joint v M i -> pc v M (S i) x = pc v M i x + jump M (S i) * (x - k (S i)) ^ 3.
Proof.
  intros Hi J. pose proof (hpos i ltac:(lia)) as P. pose proof (hpos (S i) Hi) as P'. red in J. unfold pc, jump.
  assert (E : ss v (S i) = ss v i + (hh i * M i + 2 * (hh i + hh (S i)) * M (S i) + hh (S i) * M (S (S i))) / 6) by lra.
  assert (Ev : v (S i) = v i + ss v i * hh i) by (unfold ss; field; lra).
  rewrite E, Ev. replace (k (S i)) with (k i + hh i) by (unfold hh; ring). set (s := ss v i). clearbody s. set (a := k i). set (h := hh i) in *. set (h' := hh (S i)) in *. clearbody a h h'.
  field. lra.
Qed.

(** ** truncated powers *)
Definition plus3 x := Rmax 0 x ^ 3.
Definition plus1 x := Rmax 0 x.
Lemma plus_neg x : x <= 0 -> plus3 x = 0 /\ plus1 x = 0.
Proof. intros H. unfold plus3, plus1. rewrite Rmax_left by lra. split; ring. Qed.
Lemma plus_pos x : 0 <= x -> plus3 x = x ^ 3 /\ plus1 x = x.
Proof. intros H. unfold plus3, plus1. rewrite Rmax_right by lra. auto. Qed.

Definition in_piece i x : Prop := (i < n)%nat /\ (i = 0%nat \/ k i <= x) /\ (S i = n \/ x <= k (S i)).

(** [f] with second derivatives [g] at the positions is a spline *)
Definition fits (f : R -> R) (g : nat -> R) : Prop :=
  system (fun i => f (k i)) g /\ forall i x, in_piece i x -> f x = pc (fun i => f (k i)) g i x.

Lemma fits_ext f f' g g' : fits f g -> (forall x, f' x = f x) -> (forall i, g' i = g i) -> fits f' g'.
Proof.
  intros [(J & S0 & S1) P] E E'. split; [split; [|split]|].
  - intros i Hi. specialize (J i Hi). unfold joint, ss in *. now rewrite !E, !E'.
  - unfold same_cubic in *. now rewrite !E'.
  - unfold same_cubic in *. now rewrite !E'.
  - intros i x Hx. rewrite E, (P i x Hx). unfold pc, ss. now rewrite !E, !E'.
Qed.
Lemma fits_add f g f' g' w : fits f g -> fits f' g' -> fits (fun x => w * f' x + f x) (fun i => w * g' i + g i).
Proof.
  intros [(J & S0 & S1) P] [(J' & S0' & S1') P'].
  assert (Es : forall i, (i < n)%nat -> ss (fun i => w * f' (k i) + f (k i)) i = w * ss (fun i => f' (k i)) i + ss (fun i => f (k i)) i).
  { intros i Hi. pose proof (hpos i Hi). unfold ss. field. lra. }
  split; [split; [|split]|].
  - intros i Hi. specialize (J i Hi). specialize (J' i Hi). unfold joint in *. rewrite !Es by lia.
    transitivity (w * (6 * (ss (fun i0 : nat => f' (k i0)) (S i) - ss (fun i0 : nat => f' (k i0)) i)) + 6 * (ss (fun i0 : nat => f (k i0)) (S i) - ss (fun i0 : nat => f (k i0)) i)); [rewrite <- J, <- J'; ring|ring].
  - unfold same_cubic in *. transitivity (w * ((g' 1%nat - g' 0%nat) * hh 1) + (g 1%nat - g 0%nat) * hh 1); [ring|rewrite S0, S0'; ring].
  - unfold same_cubic in *. transitivity (w * ((g' (S (n - 2)) - g' (n - 2)%nat) * hh (S (n - 2))) + (g (S (n - 2)) - g (n - 2)%nat) * hh (S (n - 2))); [ring|rewrite S1, S1'; ring].
  - intros i x Hx. rewrite (P i x Hx), (P' i x Hx). pose proof (hpos i (proj1 Hx)). unfold pc. rewrite Es by apply Hx. field. lra.
Qed.

Lemma fits_cubic a b c d : fits (fun x => a + b * x + c * x ^ 2 + d * x ^ 3) (fun i => 2 * c + 6 * d * k i).
Proof.
  split; [split; [|split]|].
  - intros i Hi. pose proof (hpos i ltac:(lia)) as P. pose proof (hpos (S i) Hi) as P'. unfold joint, ss.
    replace (k (S (S i))) with (k i + hh i + hh (S i)) by (unfold hh; ring). replace (k (S i)) with (k i + hh i) by (unfold hh; ring).
    field. lra.
  - unfold same_cubic, hh. ring.
  - unfold same_cubic, hh. ring.
  - intros i x Hx. pose proof (hpos i (proj1 Hx)) as P. unfold pc, ss. replace (k (S i)) with (k i + hh i) by (unfold hh; ring). field. lra.
Qed.

Lemma fits_plus j : (2 <= j <= n - 2)%nat -> fits (fun x => plus3 (x - k j)) (fun i => 6 * plus1 (k i - k j)).
Proof.
  intros Hj.
  assert (Lo : forall i, (i <= j)%nat -> plus3 (k i - k j) = 0 /\ plus1 (k i - k j) = 0).
  { intros i Hi. apply plus_neg. pose proof (kle i j ltac:(lia)). lra. }
  assert (Hi' : forall i, (j <= i <= n)%nat -> plus3 (k i - k j) = (k i - k j) ^ 3 /\ plus1 (k i - k j) = k i - k j).
  { intros i Hi. apply plus_pos. pose proof (kle j i ltac:(lia)). lra. }
  pose proof (fun i H => proj1 (Lo i H)) as L3. pose proof (fun i H => proj2 (Lo i H)) as L1.
  pose proof (fun i H => proj1 (Hi' i H)) as U3. pose proof (fun i H => proj2 (Hi' i H)) as U1. cbv beta in L3, L1, U3, U1.
  split; [split; [|split]|].
  - intros i Hi. pose proof (hpos i ltac:(lia)) as P. pose proof (hpos (S i) Hi) as P'. unfold joint, ss.
    destruct (le_lt_dec (S (S i)) j) as [L|L].
    + rewrite !L3, !L1 by lia. field. lra.
    + destruct (Nat.eq_dec j (S i)) as [E|NE].
      * rewrite (proj1 (Lo i ltac:(lia))), (proj2 (Lo i ltac:(lia))), (proj1 (Lo (S i) ltac:(lia))), (proj2 (Lo (S i) ltac:(lia))),
          (proj1 (Hi' (S (S i)) ltac:(lia))), (proj2 (Hi' (S (S i)) ltac:(lia))). rewrite E. fold (hh (S i)). field. lra.
      * rewrite !U3, !U1 by lia.
        replace (k (S (S i))) with (k i + hh i + hh (S i)) by (unfold hh; ring). replace (k (S i)) with (k i + hh i) by (unfold hh; ring).
        field. lra.
  - unfold same_cubic. rewrite !L1 by lia. ring.
  - unfold same_cubic. rewrite !U1 by lia. unfold hh. ring.
  - intros i x (Hi & H1 & H2). pose proof (hpos i Hi) as P. unfold pc, ss. destruct (le_lt_dec (S i) j) as [L|L].
    + rewrite (proj1 (Lo i ltac:(lia))), (proj2 (Lo i ltac:(lia))), (proj1 (Lo (S i) L)), (proj2 (Lo (S i) L)).
      rewrite (proj1 (plus_neg (x - k j) ltac:(pose proof (kle (S i) j ltac:(lia)); destruct H2; [lia|lra]))). field. lra.
    + rewrite (proj1 (Hi' i ltac:(lia))), (proj2 (Hi' i ltac:(lia))), (proj1 (Hi' (S i) ltac:(lia))), (proj2 (Hi' (S i) ltac:(lia))).
      rewrite (proj1 (plus_pos (x - k j) ltac:(pose proof (kle j i ltac:(lia)); destruct H1; [lia|lra]))).
      replace (k (S i)) with (k i + hh i) by (unfold hh; ring). field. lra.
Qed.

Definition sumf (f : nat -> R) (l : list nat) : R := fold_right Rplus 0 (map f l).

Lemma fits_sum a b c d w l : (forall j, In j l -> (2 <= j <= n - 2)%nat) ->
  fits (fun x => a + b * x + c * x ^ 2 + d * x ^ 3 + sumf (fun j => w j * plus3 (x - k j)) l)
       (fun i => 2 * c + 6 * d * k i + sumf (fun j => w j * (6 * plus1 (k i - k j))) l).
Proof.
  induction l as [|j l IH]; intros Hl.
  - eapply fits_ext; [apply (fits_cubic a b c d)|intros; cbn; ring|intros; cbn; ring].
  - eapply fits_ext; [apply (fits_add _ _ _ _ (w j) (IH (fun i Hi => Hl i (or_intror Hi))) (fits_plus j (Hl j (or_introl eq_refl))))| |];
      intros; unfold sumf; cbn [map fold_right]; ring.
Qed.

(** ** the solution of the system is a spline *)
Lemma sumf_ext f g l : (forall j, In j l -> f j = g j) -> sumf f l = sumf g l.
Proof. intros H. unfold sumf. f_equal. apply map_ext_in, H. Qed.
Lemma sumf_app f l l' : sumf f (l ++ l') = sumf f l + sumf f l'.
Proof. unfold sumf. induction l as [|a l IH]; cbn; [ring|]. rewrite IH. ring. Qed.
Lemma sumf_zero f l : (forall j, In j l -> f j = 0) -> sumf f l = 0.
Proof. intros H. unfold sumf. induction l as [|a l IH]; cbn; [reflexivity|]. rewrite H by now left. rewrite IH by (intros; apply H; now right). ring. Qed.

Lemma pc_sum v M x : system v M -> forall i, (i < n)%nat -> pc v M i x = pc v M 0 x + sumf (fun j => jump M j * (x - k j) ^ 3) (seq 1 i).
Proof.
  intros (J & _ & _). induction i as [|i IH]; intros Hi; [cbn; ring|].
  rewrite (pc_jump v M i x Hi (J i Hi)), IH by lia. rewrite seq_S, sumf_app. cbn [Nat.add]. unfold sumf at 3. cbn [map fold_right]. ring.
Qed.

Lemma same_jump M j : (S j < n)%nat -> same_cubic M j -> jump M (S j) = 0.
Proof.
  intros Hj Sc. pose proof (hpos j ltac:(lia)) as P. pose proof (hpos (S j) Hj) as P'. red in Sc. unfold jump.
  apply Rmult_eq_reg_r with (6 * hh (S j) * hh j); [|apply Rmult_integral_contrapositive_currified; lra].
  transitivity ((M (S (S j)) - M (S j)) * hh j - (M (S j) - M j) * hh (S j)); [field; lra|lra].
Qed.

Lemma pc_spline v M i x : system v M -> in_piece i x ->
  pc v M i x = pc v M 0 x + sumf (fun j => jump M j * plus3 (x - k j)) (seq 2 (n - 3)).
Proof.
  intros Sy (Hi & H1 & H2). rewrite (pc_sum v M x Sy i Hi). f_equal. destruct Sy as (J & S0 & S1).
  transitivity (sumf (fun j => jump M j * plus3 (x - k j)) (seq 1 (n - 1))).
  - replace (n - 1)%nat with (i + (n - 1 - i))%nat by lia. rewrite seq_app, sumf_app.
    rewrite (sumf_zero _ (seq (1 + i) (n - 1 - i))), Rplus_0_r.
    + apply sumf_ext. intros j Hj. apply in_seq in Hj. rewrite (proj1 (plus_pos (x - k j) ltac:(pose proof (kle j i ltac:(lia)); destruct H1; [lia|lra]))). reflexivity.
    + intros j Hj. apply in_seq in Hj. rewrite (proj1 (plus_neg (x - k j) ltac:(pose proof (kle (S i) j ltac:(lia)); destruct H2; [lia|lra]))). ring.
  - replace (n - 1)%nat with (1 + (n - 3) + 1)%nat by lia. rewrite !seq_app, !sumf_app. cbn [seq Nat.add]. unfold sumf at 1 3. cbn [map fold_right].
    rewrite (same_jump M 0 ltac:(lia) S0). replace (S (1 + (n - 3)))%nat with (S (n - 2)) by lia. replace (S (S (n - 3)))%nat with (S (n - 2)) by lia. rewrite (same_jump M (n - 2) ltac:(lia) S1). ring.
Qed.

Lemma which_piece x : exists i, in_piece i x.
Proof.
  assert (H : forall i, (i < n)%nat -> k i <= x \/ i = 0%nat -> exists j, in_piece j x).
  { intros i Hi. remember (n - 1 - i)%nat as e. revert i Hi Heqe. induction e as [|e IH]; intros i Hi He H.
    - exists i. split; [exact Hi|]. split; [tauto|left; lia].
    - destruct (Rle_dec x (k (S i))) as [L|L].
      + exists i. split; [exact Hi|]. split; [tauto|right; exact L].
      + apply (IH (S i)); [lia|lia|left; lra]. }
  apply (H 0%nat); [lia|right; reflexivity].
Qed.

End Abstract.

(** ** the model *)
Lemma end_row_back h h' m1 m2 d : 0 < h -> 0 < h' -> (h + 2 * h') * m1 + (h' - h) * m2 = d * h' / (h + h') ->
  h * (m1 - h / h' * (m2 - m1)) + 2 * (h + h') * m1 + h' * m2 = d.
Proof.
  intros H H' E. assert (D : d = ((h + 2 * h') * m1 + (h' - h) * m2) * (h + h') / h') by (rewrite E; field; lra).
  rewrite D. field. lra.
Qed.

Section Lists.
Variables ks vs : list R.
Hypothesis I : increasing ks.
Hypothesis L : (4 <= length ks)%nat.
Let k i := nth i ks 0.
Let v i := nth i vs 0.
Let n := (length ks - 1)%nat.

Lemma list_inc i : (i < n)%nat -> k i < k (S i).
Proof. intros H. apply I. unfold n in H. lia. Qed.

Let P i (H : (i < n)%nat) : 0 < hh k i := hpos k n list_inc i H.

Lemma equation_dominant i : (1 <= i < n)%nat -> dominant (equation ks vs i).
Proof.
  intros Hi. pose proof (P (i - 1) ltac:(lia)) as P1. pose proof (P i ltac:(lia)) as P2. unfold equation, cells, width. fold n. rt. fold (k (S i)) (k i) (k (S (i - 1))) (k (i - 1)).
  fold (hh k i). fold (hh k (i - 1)). set (h := hh k (i - 1)) in *. set (h' := hh k i) in *. unfold dominant.
  destruct (Nat.eqb_spec i 1); [|destruct (Nat.eqb_spec i (n - 1))]; cbn [r_a r_b r_c r_d].
  - rewrite Rabs_R0, Rplus_0_l. apply Rabs_def1; lra.
  - rewrite Rabs_R0, Rplus_0_r. apply Rabs_def1; lra.
  - rewrite !Rabs_pos_eq by lra. lra.
Qed.

Lemma inner_row i : (S i < n)%nat ->
  r_a (equation ks vs (S i)) * (match i with O => 0 | S j => nth j (inner ks vs) 0 end) + r_b (equation ks vs (S i)) * nth i (inner ks vs) 0
  + r_c (equation ks vs (S i)) * nth (S i) (inner ks vs) 0 = r_d (equation ks vs (S i)).
Proof.
  intros Hi. unfold inner, cells. fold n. rt.
  assert (F : Forall dominant (map (equation ks vs) (seq 1 (n - 1)))).
  { apply Forall_forall. intros r Hr. apply in_map_iff in Hr. destruct Hr as (j & <- & Hj). apply in_seq in Hj. apply equation_dominant. lia. }
  pose proof (solve_ok _ 0 0 ltac:(rewrite Rabs_R0; lra) F i (equation ks vs (S i))) as E. cbv zeta in E.
  rewrite Rmult_0_l, Rminus_0_r in E. apply E.
  rewrite nth_error_map. rewrite (nth_error_nth' _ 0%nat) by (rewrite seq_length; lia). rewrite seq_nth by lia. reflexivity.
Qed.

Lemma curvature_inner j : (1 <= j < n)%nat -> curvature ks vs j = nth (j - 1) (inner ks vs) 0.
Proof.
  intros H. unfold curvature, cells. fold n. rt. destruct (Nat.eqb_spec j 0); [lia|]. destruct (Nat.eqb_spec j n); [lia|]. reflexivity.
Qed.
Lemma curvature_0 : curvature ks vs 0 = curvature ks vs 1 - hh k 0 / hh k 1 * (curvature ks vs 2 - curvature ks vs 1).
Proof. rewrite (curvature_inner 1), (curvature_inner 2) by (unfold n; lia). reflexivity. Qed.
Lemma curvature_n : curvature ks vs n = curvature ks vs (n - 1) + hh k (n - 1) / hh k (n - 2) * (curvature ks vs (n - 1) - curvature ks vs (n - 2)).
Proof.
  rewrite (curvature_inner (n - 1)), (curvature_inner (n - 2)) by (unfold n; lia). unfold curvature, cells. fold n. rt. destruct (Nat.eqb_spec n 0) as [E|]; [unfold n in E; lia|].
  rewrite Nat.eqb_refl. reflexivity.
Qed.

Lemma curvature_system : system k n v (curvature ks vs).
Proof.
  assert (Ln : (3 <= n)%nat) by (unfold n; lia).
  split; [|split].
  - intros i Hi. pose proof (inner_row i Hi) as E. red.
    pose proof (P i ltac:(lia)) as P1. pose proof (P (S i) ltac:(lia)) as P2.
    unfold equation, cells, slope, width in E. fold n in E. rt. cbn [Nat.sub] in E. rewrite Nat.sub_0_r in E.
    fold (k i) (k (S i)) (k (S (S i))) (v i) (v (S i)) (v (S (S i))) in E. fold (hh k i) in E. fold (hh k (S i)) in E. fold (ss k v i) in E. fold (ss k v (S i)) in E.
    destruct (Nat.eqb_spec (S i) 1) as [E1|E1].
    + assert (i = 0%nat) by lia. subst i. cbn [r_a r_b r_c r_d] in E. rewrite curvature_0.
      apply end_row_back; [exact P1|exact P2|]. rewrite !curvature_inner by lia. cbn [Nat.sub]. lra.
    + destruct i as [|i]; [lia|]. destruct (Nat.eqb_spec (S (S i)) (n - 1)) as [E2|E2]; cbn [r_a r_b r_c r_d] in E.
      * replace (S (S (S i))) with n by lia. rewrite curvature_n. replace (n - 1)%nat with (S (S i)) by lia. replace (n - 2)%nat with (S i) by lia.
        rewrite !(curvature_inner (S i)), !(curvature_inner (S (S i))) by lia. cbn [Nat.sub]. rewrite Nat.sub_0_r.
        pose proof (end_row_back (hh k (S (S i))) (hh k (S i)) (nth (S i) (inner ks vs) 0) (nth i (inner ks vs) 0) (6 * (ss k v (S (S i)) - ss k v (S i))) P2 P1) as B.
        rewrite <- B; [ring|]. rewrite (Rplus_comm (hh k (S (S i))) (hh k (S i))). lra.
      * rewrite !curvature_inner by lia. cbn [Nat.sub]. rewrite !Nat.sub_0_r. lra.
  - red. rewrite curvature_0. pose proof (P 1 ltac:(lia)). field. lra.
  - red. replace (S (S (n - 2))) with n by lia. rewrite curvature_n. replace (S (n - 2)) with (n - 1)%nat by lia. pose proof (P (n - 2) ltac:(lia)). field. lra.
Qed.

Lemma piece_pc i x : (i < n)%nat -> piece ks vs i x = pc k v (curvature ks vs) i x.
Proof.
  intros Hi. unfold piece, pc, slope, width. rt. fold (k i) (k (S i)) (v i) (v (S i)). fold (hh k i). fold (ss k v i). unfold Rdiv. ring.
Qed.

Lemma interval_piece x : in_piece k n (interval ks x) x.
Proof.
  assert (H : forall l : list R, (2 <= length l)%nat -> (S (interval l x) < length l)%nat /\ (interval l x = 0%nat \/ nth (interval l x) l 0 <= x) /\
    (S (interval l x) = (length l - 1)%nat \/ x <= nth (S (interval l x)) l 0)).
  { induction l as [|a [|b [|c l]] IH]; intros Hl; try (cbn in Hl; lia).
    - cbn. split; [lia|]. split; [now left|now left].
    - change (interval (a :: b :: c :: l) x) with (if Rltb x b then 0%nat else S (interval (b :: c :: l) x)).
      destruct (Rltb x b) eqn:E.
      + apply Rltb_true in E. split; [cbn; lia|]. split; [now left|right; cbn; lra].
      + apply Rltb_false in E. destruct (IH ltac:(cbn; lia)) as (H1 & H2 & H3). set (j := interval (b :: c :: l) x) in *.
        split; [cbn [length] in *; lia|]. split.
        * right. cbn [nth]. destruct H2 as [->|H2]; [cbn; lra|exact H2].
        * destruct H3 as [H3|H3]; [left; cbn [length] in *; lia|right; exact H3]. }
  destruct (H ks ltac:(lia)) as (H1 & H2 & H3). split; [unfold n; lia|]. split; [exact H2|]. destruct H3; [left; unfold n; lia|now right].
Qed.

(** the value in every piece that contains the point *)
Lemma splev_pc x i : in_piece k n i x -> cubic_splev ks vs x = pc k v (curvature ks vs) i x.
Proof.
  intros Hi. unfold cubic_splev. pose proof (interval_piece x) as Hj. rewrite piece_pc by apply Hj.
  assert (Ln : (3 <= n)%nat) by (unfold n; lia).
  rewrite (pc_spline k n Ln list_inc _ _ _ _ curvature_system Hi), (pc_spline k n Ln list_inc _ _ _ _ curvature_system Hj). reflexivity.
Qed.
End Lists.
