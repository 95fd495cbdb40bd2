(** Bounds on PI, to more digits than a double has. *)
From Coq Require Import ZArith Lia Reals QArith Qreals Lra Machin.
Open Scope R_scope.

(** terms of the arctangent series at 1/k *)
Definition qatan (k : positive) (n : nat) : Q := (1 # (k ^ (2 * Pos.of_succ_nat n - 1) * (2 * Pos.of_succ_nat n - 1))).
Definition qterm (n : nat) : Q := (2 * qatan 3 n + qatan 7 n)%Q.
Fixpoint qsum (n : nat) : Q :=
  match n with
  | O => qterm 0
  | S m => Qred (qsum m + (if Nat.odd n then - qterm n else qterm n))
  end.

Lemma Q2R_atan k n : Q2R (qatan k n) = Ratan_seq (/ IZR (Zpos k)) n.
Proof.
  unfold qatan, Q2R, Ratan_seq. cbn [Qnum Qden]. rewrite Rmult_1_l.
  assert (E : (2 * Pos.of_succ_nat n - 1)%positive = Pos.of_succ_nat (2 * n)).
  { apply Pos2Nat.inj. rewrite Pos2Nat.inj_sub, Pos2Nat.inj_mul, !SuccNat2Pos.id_succ by lia. lia. }
  rewrite E, Pos2Z.inj_mul, mult_IZR, Pos2Z.inj_pow.
  replace (Z.pos (Pos.of_succ_nat (2 * n))) with (Z.of_nat (2 * n + 1)).
  - rewrite <- pow_IZR. rewrite <- INR_IZR_INZ.
    rewrite Rinv_mult, <- pow_inv. reflexivity.
  - lia.
Qed.

Lemma Q2R_term n : Q2R (qterm n) = PI_2_3_7_tg n.
Proof.
  unfold qterm, PI_2_3_7_tg. rewrite Q2R_plus, Q2R_mult, !Q2R_atan.
  replace (Q2R 2) with 2 by (unfold Q2R; cbn; lra). reflexivity.
Qed.
Lemma Q2R_sum n : Q2R (qsum n) = sum_f_R0 (tg_alt PI_2_3_7_tg) n.
Proof.
  induction n as [|n IH].
  - cbn [qsum sum_f_R0]. rewrite Q2R_term. unfold tg_alt. cbn [pow]. lra.
  - cbn [qsum]. rewrite (Qeq_eqR _ _ (Qred_correct _)), Q2R_plus, IH. cbn [sum_f_R0]. f_equal.
    unfold tg_alt. destruct (Nat.odd (S n)) eqn:E.
    + rewrite Q2R_opp, Q2R_term. apply Nat.odd_spec in E. destruct E as [k E]. rewrite E at 2.
      rewrite Nat.add_1_r, pow_1_odd. ring.
    + rewrite Q2R_term. rewrite <- Nat.negb_even in E. apply Bool.negb_false_iff, Nat.even_spec in E.
      destruct E as [k E]. rewrite E at 2. rewrite pow_1_even. ring.
Qed.

(** M_PI of math.h is 884279719003555 / 2^48; the error is about 1.2246e-16 *)
Lemma PI_bounds : 884279719003555 / 281474976710656 + 12246 / 10 ^ 20 < PI
                  < 884279719003555 / 281474976710656 + 12247 / 10 ^ 20.
Proof.
  pose proof (PI_2_3_7_ineq 20) as [A B]. rewrite <- Q2R_sum in A, B.
  assert (L : Q2R ((884279719003555 # 281474976710656) + (12246 # 100000000000000000000)) < 4 * (PI / 4)).
  { eapply Rlt_le_trans; [|apply Rmult_le_compat_l; [lra|exact A]].
    replace 4 with (Q2R 4) by (unfold Q2R; cbn; lra). rewrite <- Q2R_mult. apply Qlt_Rlt. vm_compute. reflexivity. }
  assert (U : 4 * (PI / 4) < Q2R ((884279719003555 # 281474976710656) + (12247 # 100000000000000000000))).
  { eapply Rle_lt_trans; [apply Rmult_le_compat_l; [lra|exact B]|].
    replace 4 with (Q2R 4) by (unfold Q2R; cbn; lra). rewrite <- Q2R_mult. apply Qlt_Rlt. vm_compute. reflexivity. }
  rewrite Q2R_plus in L, U. unfold Q2R in L, U. cbn [Qnum Qden] in L, U. lra.
Qed.
