(** Rows between the tie rows in the result of the legacy functions. *)
From Coq Require Import ZArith List Lia Bool Reals Lra.
From Verif Require Import Spec Base Num Splits SplitsProofs Geo GeoProofs Interp PlProofs InterpProofs Legacy LegacyProofs LegacyInst LegacyTie SimpleModisReal.
Import ListNotations.
#[local] Existing Instance RT.
Open Scope R_scope.

Lemma lin_at_RT p0 p1 x d0 d1 : p0 <> p1 -> lin_at p0 p1 x d0 d1 = straight_line p0 d0 p1 d1 x.
Proof. intros H. unfold lin_at, straight_line. rt. field. lra. Qed.

Section Layout.
Variables (g m : nat) (delta o : R).
Hypothesis (Hg : (1 <= g)%nat) (Hm : (2 <= m)%nat).
Hypothesis Hfirst : hposn g o 0 < posn delta 0.
Hypothesis Hlast : posn delta (m - 1) < hposn g o (g * m - 1).

Lemma posn_Z i : (0 <= i)%Z -> posn delta (Z.to_nat i) = IZR i + delta.
Proof. intros H. unfold posn. now rewrite Z2Nat.id. Qed.

(** piecewise linear through the filled rows of a scan = piecewise linear through the tie rows, continued at both ends *)
Lemma pl_filled (v : nat -> R) vs j :
  length vs = (m + 2)%nat -> (forall i, (i < m)%nat -> nth (S i) vs 0 = v i) ->
  nth 0 vs 0 = lin_at (posn delta 0) (posn delta 1) (hposn g o 0) (v 0%nat) (v 1%nat) ->
  nth (m + 1) vs 0 = lin_at (posn delta (m - 2)) (posn delta (m - 1)) (hposn g o (g * m - 1)) (v (m - 2)%nat) (v (m - 1)%nat) ->
  (j < g * m)%nat ->
  pl_eval (P0 g m delta o) vs (hposn g o j) = pwl (Z.of_nat m) (fun i => v (Z.to_nat i)) (hposn g o j - delta).
Proof.
  intros L V V0 V1 Hj.
  assert (S0 : strict_inc (P0 g m delta o) = true) by (apply strict_inc_P0; auto).
  assert (LP : length (P0 g m delta o) = (m + 2)%nat) by (apply P0_length; auto).
  assert (B : hd 0 (P0 g m delta o) <= hposn g o j <= last (P0 g m delta o) 0).
  { rewrite last_P0. cbn [P0 hd]. split.
    - destruct j; [lra|left; apply (hposn_lt g m); lia].
    - destruct (Nat.eq_dec j (g * m - 1)) as [-> |]; [lra|left; apply (hposn_lt g m); lia]. }
  destruct (locate _ (hposn g o j) S0 ltac:(lia) B) as (i & Hi & Bi). rewrite LP in Hi.
  rewrite (pl_eval_seg i) by (auto; lia).
  set (x := hposn g o j) in *.
  destruct (Nat.eq_dec i 0) as [-> |I0]; [|destruct (Nat.eq_dec i m) as [-> |Im]].
  - rewrite V0, (V 0%nat), nth_P0 by lia. rewrite nth_P0 in Bi by lia. cbn [P0 nth] in *.
    rewrite (pwl_piece _ _ _ 0) by (first [lia|left; reflexivity|right; unfold posn in Bi; simpl in Bi; lra]).
    change (Z.to_nat 0) with 0%nat. change (Z.to_nat (0 + 1)) with 1%nat.
    rewrite lin_at_RT by (unfold posn; simpl; lra). unfold straight_line, seg. rt. unfold posn in *. cbn [Z.of_nat Pos.of_succ_nat] in *. field. lra.
  - assert (E1 : nth m (P0 g m delta o) 0 = posn delta (m - 1)) by (replace m with (S (m - 1)) at 1 by lia; apply nth_P0; lia).
    assert (E2 : nth (S m) (P0 g m delta o) 0 = hposn g o (g * m - 1)).
    { rewrite <- last_P0 with (delta := delta), last_nth, LP. f_equal. lia. }
    rewrite E1, E2 in *. replace (S m) with (m + 1)%nat by lia. rewrite V1.
    replace (nth m vs 0) with (v (m - 1)%nat) by (rewrite <- V by lia; f_equal; lia).
    rewrite (pwl_piece _ _ _ (Z.of_nat m - 2)).
    + replace (Z.of_nat m - 2 + 1)%Z with (Z.of_nat (m - 1)) by lia. replace (Z.of_nat m - 2)%Z with (Z.of_nat (m - 2)) by lia. rewrite !Nat2Z.id.
      assert (EP : posn delta (m - 1) = posn delta (m - 2) + 1).
      { unfold posn. replace (Z.of_nat (m - 1)) with (Z.of_nat (m - 2) + 1)%Z by lia. rewrite plus_IZR. ring. }
      rewrite lin_at_RT by lra. unfold straight_line, seg. rt. rewrite EP in *.
      replace (IZR (Z.of_nat (m - 2))) with (posn delta (m - 2) - delta) by (unfold posn; ring). field. lra.
    + lia.
    + right. rewrite minus_IZR. unfold posn in Bi. replace (Z.of_nat (m - 1)) with (Z.of_nat m - 1)%Z in Bi by lia. rewrite minus_IZR in Bi. lra.
    + left. reflexivity.
  - assert (E1 : nth i (P0 g m delta o) 0 = posn delta (i - 1)) by (replace i with (S (i - 1)) at 1 by lia; apply nth_P0; lia).
    rewrite (nth_P0 g m delta o i) in * by lia. rewrite E1 in *. rewrite (V i) by lia.
    replace (nth i vs 0) with (v (i - 1)%nat) by (rewrite <- V by lia; f_equal; lia).
    assert (EP : posn delta i = posn delta (i - 1) + 1).
    { unfold posn. replace (Z.of_nat i) with (Z.of_nat (i - 1) + 1)%Z by lia. rewrite plus_IZR. ring. }
    rewrite (pwl_piece _ _ _ (Z.of_nat (i - 1))).
    + replace (Z.of_nat (i - 1) + 1)%Z with (Z.of_nat i) by lia. rewrite !Nat2Z.id.
      unfold seg. rt. rewrite EP in *. replace (IZR (Z.of_nat (i - 1))) with (posn delta (i - 1) - delta) by (unfold posn; ring). field. lra.
    + lia.
    + right. unfold posn in Bi. lra.
    + right. rewrite EP in Bi. unfold posn in Bi. lra.
Qed.

(** a column of the extended rows *)
Variables (cols hcols : list R).
Hypothesis Hcols2 : (4 <= length cols)%nat.
Hypothesis Hcinc : strict_inc (ext_cols cols hcols) = true.
Lemma ext_row_lin p0 p1 x r0 r1 k : p0 <> p1 -> length r0 = length cols -> length r1 = length cols -> (k < length (ext_cols cols hcols))%nat ->
  nth k (ext_row cols hcols (map2 (lin_at p0 p1 x) r0 r1)) 0 = lin_at p0 p1 x (nth k (ext_row cols hcols r0) 0) (nth k (ext_row cols hcols r1) 0).
Proof.
  intros Hp L0 L1 Hk. unfold ext_row, ext_cols in *. rewrite map2_length, L0, L1, Nat.min_id.
  assert (N : forall i, (i < length cols)%nat -> nth i (map2 (lin_at p0 p1 x) r0 r1) 0 = lin_at p0 p1 x (nth i r0 0) (nth i r1 0)) by (intros; apply nth_map2; lia).
  assert (LIN : forall q0 q1 y a b c d, lin_at q0 q1 y (lin_at p0 p1 x a b) (lin_at p0 p1 x c d) = lin_at p0 p1 x (lin_at q0 q1 y a c) (lin_at q0 q1 y b d)).
  { intros. unfold lin_at. rt. ring. }
  rewrite !N by lia.
  assert (LM : length (map2 (lin_at p0 p1 x) r0 r1) = length cols) by (rewrite map2_length; lia).
  assert (TAIL : forall q, (q < length cols + length (if need_last cols hcols then [last hcols 0%R] else []))%nat ->
    forall u u0 u1, u = lin_at p0 p1 x u0 u1 ->
    nth q (map2 (lin_at p0 p1 x) r0 r1 ++ (if need_last cols hcols then [u] else [])) 0 =
    lin_at p0 p1 x (nth q (r0 ++ (if need_last cols hcols then [u0] else [])) 0) (nth q (r1 ++ (if need_last cols hcols then [u1] else [])) 0)).
  { intros q Hq u u0 u1 ->. destruct (Nat.lt_ge_cases q (length cols)) as [A|A].
    - rewrite !app_nth1 by lia. now apply N.
    - rewrite !app_nth2 by lia. rewrite LM, L0, L1. destruct (need_last cols hcols); cbn [length] in Hq; [|lia]. replace (q - length cols)%nat with 0%nat by lia. reflexivity. }
  rewrite !app_length in Hk. destruct (need_first cols hcols); cbn [app].
  - destruct k as [|k]; cbn [nth]; [apply LIN|]. cbn [length] in Hk. apply TAIL; [lia|apply LIN].
  - cbn [length] in Hk. apply TAIL; [lia|apply LIN].
Qed.

Variables spl1 spl2 : list R -> list R -> Z -> R -> R.
Hypothesis Hspl : interpolates spl2.
Hypothesis Hgm : (g * m <> m + 2)%nat.
Lemma sr_at_knot b j J k : shaped m (length cols) b -> (j < g * m)%nat -> (J < length hcols)%nat ->
  (k < length (ext_cols cols hcols))%nat -> nth J hcols 0 = nth k (ext_cols cols hcols) 0 ->
  at2 0 (sr g m delta o cols hcols spl2 b) j J =
  pwl (Z.of_nat m) (fun i => nth k (ext_row cols hcols (nth (Z.to_nat i) b [])) 0) (hposn g o j - delta).
Proof.
  intros [Lb Wb] Hj HJ Hk EJ. rewrite Forall_forall in Wb.
  assert (G : forall i, (i < m)%nat -> length (nth i b []) = length cols) by (intros i Hi; apply Wb, nth_In; lia).
  unfold at2, sr, scan_result.
  rewrite (nth_map' _ (seq 0 (g * m)) j 0%nat) by (now rewrite seq_length). rewrite seq_nth by exact Hj. cbn [Nat.add].
  rewrite (nth_map' _ hcols J 0) by exact HJ. rewrite map_map.
  assert (FR : Forall (fun r => length r = length cols) (fill1 g m delta o b)) by (apply (fill1_rows g m delta o) with (cols := cols); auto; [lia|now apply Forall_forall]).
  rewrite Forall_forall in FR.
  rewrite (map_ext_in _ (fun r => nth k (ext_row cols hcols r) 0)).
  2:{ intros r Hr. unfold axis_spline. cbn [Z.eqb Pos.eqb]. rewrite EJ. apply Hspl; auto; try lia.
      - now apply strict_inc_increasing.
      - apply ext_row_length. now apply FR.
      - unfold ext_cols. rewrite !app_length. lia. }
  assert (LF : length (fill1 g m delta o b) = (m + 2)%nat) by (apply fill1_length with (cols := cols); auto; lia).
  apply (pl_filled (fun i => nth k (ext_row cols hcols (nth i b [])) 0)); auto.
  - now rewrite map_length.
  - intros i Hi. rewrite (nth_map' _ _ (S i) []) by lia. unfold fill1. cbn [nth]. now rewrite app_nth1 by lia.
  - rewrite (nth_map' _ _ 0%nat []) by lia. unfold fill1. cbn [nth]. apply ext_row_lin; auto; try apply G; try lia.
    unfold posn. simpl. lra.
  - rewrite (nth_map' _ _ (m + 1)%nat []) by lia. unfold fill1. replace (m + 1)%nat with (S m) by lia. cbn [nth]. rewrite app_nth2, Lb, Nat.sub_diag by lia. cbn [nth].
    apply ext_row_lin; auto; try (apply G; lia). unfold posn. intros E. apply Rplus_eq_reg_r in E. apply eq_IZR in E. lia.
Qed.
End Layout.

(** the columns at which the spline passes through given values: tie columns and the two ends *)
Section Columns.
Variables (g W L : nat) (delta : R).
Hypothesis (Hg : (1 <= g)%nat) (HW : (4 <= W)%nat) (HL : (1 <= L)%nat).
Hypothesis H0 : hposn g 0 0 <= posn delta 0.
Hypothesis H1 : posn delta (W - 1) < hposn g 0 (L - 1).
Notation cols := (Pn delta W).
Notation hcols := (Hn g 0 L).
Lemma knot_column J : (J < L)%nat -> (exists c, (c < W)%nat /\ hposn g 0 J = posn delta c) \/ J = 0%nat \/ J = (L - 1)%nat ->
  exists k, (k < length (ext_cols cols hcols))%nat /\ nth J hcols 0 = nth k (ext_cols cols hcols) 0 /\
    forall r, length r = W -> nth k (ext_row cols hcols r) 0 = pwl (Z.of_nat W) (fun i => nth (Z.to_nat i) r 0) (hposn g 0 J - delta).
Proof.
  intros HJ C.
  assert (TIE : forall c, (c < W)%nat -> hposn g 0 J = posn delta c ->
    exists k, (k < length (ext_cols cols hcols))%nat /\ nth J hcols 0 = nth k (ext_cols cols hcols) 0 /\
    forall r, length r = W -> nth k (ext_row cols hcols r) 0 = pwl (Z.of_nat W) (fun i => nth (Z.to_nat i) r 0) (hposn g 0 J - delta)).
  { intros c Hc E. exists (c + (if need_first cols hcols then 1 else 0))%nat.
    assert (PW : forall r, pwl (Z.of_nat W) (fun i => nth (Z.to_nat i) r 0) (hposn g 0 J - delta) = nth c r 0).
    { intros r. rewrite E. unfold posn. replace (IZR (Z.of_nat c) + delta - delta) with (IZR (Z.of_nat c)) by ring.
      rewrite pwl_node by lia. now rewrite Nat2Z.id. }
    rewrite E in PW. unfold ext_cols, ext_row. rewrite !app_length, Pn_length, nth_Hn, E by exact HJ.
    destruct (need_first cols hcols); cbn [app length].
    - replace (c + 1)%nat with (S c) by lia. cbn [nth]. split; [lia|]. split; [rewrite app_nth1, nth_Pn by (rewrite ?Pn_length; lia); reflexivity|].
      intros r Hr. rewrite app_nth1 by lia. now rewrite PW.
    - rewrite Nat.add_0_r. split; [lia|]. split; [rewrite app_nth1, nth_Pn by (rewrite ?Pn_length; lia); reflexivity|].
      intros r Hr. rewrite app_nth1 by lia. now rewrite PW. }
  destruct C as [(c & Hc & E)|[-> | ->]]; [now apply (TIE c)| |].
  - destruct (Req_EM_T (hposn g 0 0) (posn delta 0)) as [E|E]; [apply (TIE 0%nat); [lia|exact E]|].
    exists 0%nat. unfold ext_cols, ext_row.
    assert (NF : need_first cols hcols = true).
    { unfold need_first. rewrite !hd_nth, nth_Pn, nth_Hn by lia. apply negb_true_iff, Reqb_false. lra. }
    rewrite NF. cbn [app length nth]. split; [lia|]. rewrite !hd_nth, !nth_Hn by lia. split; [reflexivity|].
    intros r Hr. rewrite !nth_Pn by lia. rewrite (pwl_piece _ _ _ 0).
    + rewrite lin_at_RT by (unfold posn; simpl; lra). unfold straight_line. change (Z.to_nat 0) with 0%nat. change (Z.to_nat (0 + 1)) with 1%nat.
      unfold posn. simpl (IZR (Z.of_nat _)). field. lra.
    + lia.
    + now left.
    + right. unfold posn in H0. simpl in H0. lra.
  - assert (NL : need_last cols hcols = true).
    { unfold need_last. rewrite !last_nth, Pn_length, Hn_length, nth_Pn, nth_Hn by lia. apply negb_true_iff, Reqb_false. lra. }
    exists (W + (if need_first cols hcols then 1 else 0))%nat. unfold ext_cols, ext_row. rewrite NL.
    rewrite !app_length, Pn_length.
    assert (VAL : forall r, length r = W -> lin_at (nth (W - 2) cols 0) (nth (W - 1) cols 0) (last hcols 0) (nth (length r - 2) r 0) (nth (length r - 1) r 0) =
       pwl (Z.of_nat W) (fun i => nth (Z.to_nat i) r 0) (hposn g 0 (L - 1) - delta)).
    { intros r Hr. rewrite last_nth, Hn_length, nth_Hn, !nth_Pn, Hr by lia.
      rewrite (pwl_piece _ _ _ (Z.of_nat W - 2)).
      - replace (Z.of_nat W - 2 + 1)%Z with (Z.of_nat (W - 1)) by lia. replace (Z.of_nat W - 2)%Z with (Z.of_nat (W - 2)) by lia. rewrite !Nat2Z.id.
        assert (EP : posn delta (W - 1) = posn delta (W - 2) + 1).
        { unfold posn. replace (Z.of_nat (W - 1)) with (Z.of_nat (W - 2) + 1)%Z by lia. rewrite plus_IZR. ring. }
        rewrite lin_at_RT by lra. unfold straight_line. rewrite EP in *.
        replace (IZR (Z.of_nat (W - 2))) with (posn delta (W - 2) - delta) by (unfold posn; ring). field. lra.
      - lia.
      - right. rewrite minus_IZR. unfold posn in H1. replace (Z.of_nat (W - 1)) with (Z.of_nat W - 1)%Z in H1 by lia. rewrite minus_IZR in H1. lra.
      - now left. }
    destruct (need_first cols hcols); cbn [app length].
    + split; [lia|]. replace (W + 1)%nat with (S W) by lia. cbn [nth]. split.
      * rewrite app_nth2, Pn_length, Nat.sub_diag by (rewrite Pn_length; lia). cbn [nth]. rewrite last_nth, Hn_length. f_equal.
      * intros r Hr. rewrite app_nth2, Hr, Nat.sub_diag by lia. cbn [nth]. rewrite <- (VAL r Hr). now rewrite Hr.
    + rewrite Nat.add_0_r. split; [lia|]. split.
      * rewrite app_nth2, Pn_length, Nat.sub_diag by (rewrite Pn_length; lia). cbn [nth]. rewrite last_nth, Hn_length. f_equal.
      * intros r Hr. rewrite app_nth2, Hr, Nat.sub_diag by lia. cbn [nth]. rewrite <- (VAL r Hr). now rewrite Hr.
Qed.
End Columns.
