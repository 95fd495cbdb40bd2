(** The columns between the tie columns in the result of the legacy functions, with splines of degree 3. *)
From Coq Require Import ZArith List Lia Bool Reals Lra Arith.
From Verif Require Import Spec Base Num Splits SplitsProofs Geo GeoProofs Interp PlProofs BorderProofs InterpProofs Legacy LegacyProofs LegacyInst LegacyTie SimpleModisReal LegacyRows.
From Verif Require Import PropsAnyOrder PropsGridLinear PropsBilinear Cubic CubicProofs PropsCubic.
Import ListNotations.
#[local] Existing Instance RT.
Open Scope R_scope.

(** ** The spline depends linearly on the data *)
Lemma spline3_lin ks u v a b : spline3 ks u -> spline3 ks v -> spline3 ks (fun x => a * u x + b * v x).
Proof.
  intros (a1 & b1 & c1 & d1 & w1 & E1) (a2 & b2 & c2 & d2 & w2 & E2).
  exists (a * a1 + b * a2), (a * b1 + b * b2), (a * c1 + b * c2), (a * d1 + b * d2), (fun j => a * w1 j + b * w2 j).
  intros x. rewrite E1, E2. clear E1 E2.
  assert (S : forall l, fold_right Rplus 0 (map (fun j => (a * w1 j + b * w2 j) * cube_from (nth j ks 0) x) l) =
     a * fold_right Rplus 0 (map (fun j => w1 j * cube_from (nth j ks 0) x) l) + b * fold_right Rplus 0 (map (fun j => w2 j * cube_from (nth j ks 0) x) l)).
  { induction l as [|j l IH]; cbn [map fold_right]; [ring|]. rewrite IH. ring. }
  rewrite S. unfold cubic_of. ring.
Qed.

Lemma splev_lin ks u v w a b x : increasing ks -> (4 <= length ks)%nat ->
  (forall i, (i < length ks)%nat -> nth i w 0 = a * nth i u 0 + b * nth i v 0) ->
  cubic_splev ks w x = a * cubic_splev ks u x + b * cubic_splev ks v x.
Proof.
  intros I L H. destruct (C99_spline ks w I L) as (_ & _ & U). destruct (C99_spline ks u I L) as (Su & Tu & _). destruct (C99_spline ks v I L) as (Sv & Tv & _).
  symmetry. apply (U (fun x => a * cubic_splev ks u x + b * cubic_splev ks v x)).
  - now apply spline3_lin.
  - intros i Hi. rewrite H, <- (Tu i Hi), <- (Tv i Hi) by exact Hi. reflexivity.
Qed.

Lemma lin_at_weights p0 p1 x : exists a b, forall u v, lin_at p0 p1 x u v = a * u + b * v.
Proof. exists ((x - p1) / (1 * (p0 - p1))), (1 - (x - p1) / (1 * (p0 - p1))). intros. unfold lin_at. rt. ring. Qed.

(** ** The rows of a scan *)
Section Rows.
Variables (g m : nat) (delta o : R).
Hypothesis (Hg : (1 <= g)%nat) (Hm : (2 <= m)%nat).
Hypothesis Hfirst : hposn g o 0 < posn delta 0.
Hypothesis Hlast : posn delta (m - 1) < hposn g o (g * m - 1).
Variables (cols hcols : list R).
Hypothesis Hcols2 : (4 <= length cols)%nat.
Hypothesis Hcinc : strict_inc (ext_cols cols hcols) = true.
Hypothesis Hgm : (g * m <> m + 2)%nat.
Variable other : list R -> list R -> Z -> R -> R.

Lemma sr_cubic b j J : shaped m (length cols) b -> (j < g * m)%nat -> (J < length hcols)%nat ->
  at2 0 (sr g m delta o cols hcols (spl2_with other) b) j J =
  pwl (Z.of_nat m) (fun i => cubic_bispev (ext_cols cols hcols) (ext_row cols hcols (nth (Z.to_nat i) b [])) (nth J hcols 0)) (hposn g o j - delta).
Proof.
  intros [Lb Wb] Hj HJ. rewrite Forall_forall in Wb.
  assert (G : forall i, (i < m)%nat -> length (nth i b []) = length cols) by (intros i Hi; apply Wb, nth_In; lia).
  assert (LE : (4 <= length (ext_cols cols hcols))%nat) by (unfold ext_cols; rewrite !app_length; lia).
  assert (I : increasing (ext_cols cols hcols)) by now apply strict_inc_increasing.
  unfold at2, sr, scan_result.
  rewrite (nth_map' _ (seq 0 (g * m)) j 0%nat) by (now rewrite seq_length). rewrite seq_nth by exact Hj. cbn [Nat.add].
  rewrite (nth_map' _ hcols J 0) by exact HJ. rewrite map_map.
  set (F := fun r => cubic_bispev (ext_cols cols hcols) (ext_row cols hcols r) (nth J hcols 0)).
  change (map _ (fill1 g m delta o b)) with (map F (fill1 g m delta o b)).
  assert (LF : length (fill1 g m delta o b) = (m + 2)%nat) by (apply fill1_length with (cols := cols); auto; lia).
  assert (FL : forall p0 p1 x r0 r1, p0 <> p1 -> length r0 = length cols -> length r1 = length cols ->
     F (map2 (lin_at p0 p1 x) r0 r1) = lin_at p0 p1 x (F r0) (F r1)).
  { intros p0 p1 x r0 r1 Hp L0 L1. destruct (lin_at_weights p0 p1 x) as (wa & wb & E). rewrite E. unfold F, cubic_bispev.
    apply splev_lin; auto. intros i Hi. rewrite <- E. apply (ext_row_lin g m Hg Hm); auto. }
  apply (pl_filled g m delta o Hg Hm Hfirst Hlast (fun i => F (nth i b []))); auto.
  - now rewrite map_length.
  - intros i Hi. rewrite (nth_map' _ _ (S i) []) by lia. unfold fill1. cbn [nth]. now rewrite app_nth1 by lia.
  - rewrite (nth_map' _ _ 0%nat []) by lia. unfold fill1. cbn [nth]. apply FL; try (apply G; lia). unfold posn. simpl. lra.
  - rewrite (nth_map' _ _ (m + 1)%nat []) by lia. unfold fill1. replace (m + 1)%nat with (S m) by lia. cbn [nth]. rewrite app_nth2, Lb, Nat.sub_diag by lia. cbn [nth].
    apply FL; try (apply G; lia). unfold posn. intros E. apply Rplus_eq_reg_r in E. apply eq_IZR in E. lia.
Qed.
End Rows.

(** ** The positions of the splines *)
Section Columns.
Variables (g W L : nat) (dc : R).
Hypothesis (Hg : (1 <= g)%nat) (HW : (4 <= W)%nat) (HL : (1 <= L)%nat).
Hypothesis H0 : hposn g 0 0 <= posn dc 0.
Hypothesis H1 : posn dc (W - 1) < hposn g 0 (L - 1).
Notation cols := (Pn dc W).
Notation hcols := (Hn g 0 L).
Notation KS := (ext_cols cols hcols).

Lemma nf_true : hposn g 0 0 < posn dc 0 -> need_first cols hcols = true.
Proof. intros H. unfold need_first. rewrite !hd_nth, nth_Pn, nth_Hn by lia. apply negb_true_iff, Reqb_false. lra. Qed.
Lemma nf_false : hposn g 0 0 = posn dc 0 -> need_first cols hcols = false.
Proof. intros H. unfold need_first. rewrite !hd_nth, nth_Pn, nth_Hn by lia. apply negb_false_iff. rewrite H. unfold Reqb. destruct (Req_EM_T _ _); congruence. Qed.
Lemma nl_true : need_last cols hcols = true.
Proof. unfold need_last. rewrite !last_nth, Pn_length, Hn_length, nth_Pn, nth_Hn by lia. apply negb_true_iff, Reqb_false. lra. Qed.

Definition off : nat := if need_first cols hcols then 1 else 0.
Lemma KS_length : length KS = (off + W + 1)%nat.
Proof. unfold ext_cols, off. rewrite nl_true, !app_length, Pn_length. destruct (need_first cols hcols); reflexivity. Qed.
Lemma KS_tie c : (c < W)%nat -> nth (off + c) KS 0 = posn dc c.
Proof.
  intros Hc. unfold ext_cols, off. destruct (need_first cols hcols); cbn [Nat.add app nth]; rewrite app_nth1, nth_Pn by (rewrite ?Pn_length; lia); reflexivity.
Qed.
Lemma KS_last : nth (off + W) KS 0 = hposn g 0 (L - 1).
Proof.
  unfold ext_cols, off. rewrite nl_true. destruct (need_first cols hcols); cbn [Nat.add app nth]; rewrite app_nth2, Pn_length, Nat.sub_diag by (rewrite Pn_length; lia);
    cbn [nth]; rewrite last_nth, Hn_length, nth_Hn by lia; reflexivity.
Qed.
Lemma KS_first : nth 0 KS 0 = hposn g 0 0.
Proof.
  unfold ext_cols. destruct (Req_EM_T (hposn g 0 0) (posn dc 0)) as [E|E].
  - rewrite nf_false by exact E. cbn [app]. rewrite app_nth1, nth_Pn by (rewrite ?Pn_length; lia). congruence.
  - rewrite nf_true by lra. cbn [app nth]. rewrite hd_nth, nth_Hn by lia. reflexivity.
Qed.
Lemma off_case : (off = 1%nat /\ hposn g 0 0 < posn dc 0) \/ (off = 0%nat /\ hposn g 0 0 = posn dc 0).
Proof.
  unfold off. destruct (Req_EM_T (hposn g 0 0) (posn dc 0)) as [E|E]; [right; rewrite nf_false by exact E|left; rewrite nf_true by lra]; auto. split; auto. lra.
Qed.
Lemma KS_inc : increasing KS.
Proof. apply strict_inc_increasing. apply ext_cols_inc; auto; lia. Qed.

Lemma posn_S c : posn dc (S c) = posn dc c + 1.
Proof. unfold posn. rewrite Nat2Z.inj_succ, succ_IZR. ring. Qed.

(** the data of the splines: tie values, continued linearly to both ends *)
Definition sample (v : Z -> R) : list R := map (fun x => pwl (Z.of_nat W) v (x - dc)) KS.
Lemma ext_row_sample r : length r = W -> ext_row cols hcols r = sample (fun i => nth (Z.to_nat i) r 0).
Proof.
  intros Hr. unfold sample, ext_row, ext_cols. rewrite !map_app. rewrite nl_true. f_equal; [|f_equal].
  - destruct (Req_EM_T (hposn g 0 0) (posn dc 0)) as [E|E]; [rewrite nf_false by exact E; reflexivity|].
    rewrite nf_true by lra. cbn [map]. f_equal. rewrite !hd_nth, !nth_Hn, !nth_Pn by lia.
    rewrite (pwl_piece _ _ _ 0) by (first [lia|left; reflexivity|right; unfold posn in H0; simpl in H0; lra]).
    rewrite lin_at_RT by (unfold posn; simpl; lra). unfold straight_line. change (Z.to_nat 0) with 0%nat. change (Z.to_nat (0 + 1)) with 1%nat.
    unfold posn. simpl (IZR (Z.of_nat _)). field. lra.
  - apply (nth_ext _ _ 0 0); [now rewrite map_length, Pn_length|]. intros c Hc. rewrite (nth_map' _ _ _ 0) by (rewrite Pn_length; lia).
    rewrite nth_Pn by lia. unfold posn. replace (IZR (Z.of_nat c) + dc - dc) with (IZR (Z.of_nat c)) by ring.
    rewrite pwl_node by lia. now rewrite Nat2Z.id.
  - cbn [map]. f_equal. rewrite last_nth, Hn_length, Pn_length, nth_Hn, !nth_Pn, Hr by lia.
    rewrite (pwl_piece _ _ _ (Z.of_nat W - 2)).
    + replace (Z.of_nat W - 2 + 1)%Z with (Z.of_nat (W - 1)) by lia. replace (Z.of_nat W - 2)%Z with (Z.of_nat (W - 2)) by lia. rewrite !Nat2Z.id.
      replace (W - 1)%nat with (S (W - 2)) in * by lia. rewrite posn_S in *.
      rewrite lin_at_RT by lra. unfold straight_line.
      replace (IZR (Z.of_nat (W - 2))) with (posn dc (W - 2) - dc) by (unfold posn; ring). field. lra.
    + lia.
    + right. rewrite minus_IZR. unfold posn in H1. replace (Z.of_nat (W - 1)) with (Z.of_nat W - 1)%Z in H1 by lia. rewrite minus_IZR in H1. lra.
    + now left.
Qed.

(** ** Distance from the straight lines *)
Hypothesis Hd1 : posn dc 0 - hposn g 0 0 <= 1.
Hypothesis Hd2 : hposn g 0 (L - 1) - posn dc (W - 1) <= 1.

(** the straight piece of cell i *)
Definition strip (i : nat) : nat := Nat.min (i - off) (W - 2).
Lemma cell i : (S i < length KS)%nat ->
  (strip i = 0%nat \/ posn dc (strip i) <= nth i KS 0) /\ (strip i = (W - 2)%nat \/ nth (S i) KS 0 <= posn dc (strip i) + 1) /\
  nth i KS 0 < nth (S i) KS 0 <= nth i KS 0 + 1 /\
  ((off <= i < off + W - 1)%nat -> nth (S i) KS 0 = nth i KS 0 + 1).
Proof.
  intros Hi. pose proof (step_pos KS i KS_inc Hi) as P. rewrite KS_length in Hi. unfold strip.
  destruct (Nat.lt_ge_cases i off) as [A|A]; [|destruct (Nat.lt_ge_cases i (off + W - 1)) as [B|B]].
  - assert (i = 0%nat /\ off = 1%nat) as [-> E] by (unfold off in *; destruct (need_first cols hcols); lia).
    replace (Nat.min (0 - off) (W - 2)) with 0%nat by lia. assert (E1 : nth 1 KS 0 = posn dc 0) by (rewrite <- (KS_tie 0) by lia; f_equal; lia). rewrite KS_first, E1 in P |- *.
    split; [now left|]. split; [right; lra|]. split; [lra|lia].
  - assert (E1 : nth i KS 0 = posn dc (i - off)) by (replace i with (off + (i - off))%nat at 1 by lia; apply KS_tie; lia).
    assert (E2 : nth (S i) KS 0 = posn dc (i - off) + 1) by (rewrite <- posn_S; replace (S i) with (off + S (i - off))%nat by lia; apply KS_tie; lia).
    replace (Nat.min (i - off) (W - 2)) with (i - off)%nat by lia. rewrite E1, E2. split; [right; lra|]. split; [right; lra|]. split; [lra|reflexivity].
  - assert (i = off + W - 1)%nat as -> by lia. replace (Nat.min _ _) with (W - 2)%nat by lia.
    assert (E1 : nth (off + W - 1) KS 0 = posn dc (W - 2) + 1).
    { rewrite <- posn_S. replace (off + W - 1)%nat with (off + (W - 1))%nat by lia. rewrite KS_tie by lia. f_equal. lia. }
    assert (E2 : nth (S (off + W - 1)) KS 0 = hposn g 0 (L - 1)) by (rewrite <- KS_last; f_equal; lia).
    assert (E3 : posn dc (W - 1) = posn dc (W - 2) + 1) by (rewrite <- posn_S; f_equal; lia).
    rewrite E1, E2 in P |- *. split; [right; lra|]. split; [now left|]. split; [lra|lia].
Qed.

Lemma strip_pwl v i x : (S i < length KS)%nat -> nth i KS 0 <= x <= nth (S i) KS 0 ->
  pwl (Z.of_nat W) v (x - dc) = v (Z.of_nat (strip i)) + (x - posn dc (strip i)) * (v (Z.of_nat (strip i) + 1)%Z - v (Z.of_nat (strip i))).
Proof.
  intros Hi Hx. destruct (cell i Hi) as (A & B & _). rewrite (pwl_piece _ _ _ (Z.of_nat (strip i))).
  - f_equal. f_equal. unfold posn. ring.
  - unfold strip. lia.
  - destruct A as [->|A]; [now left|right]. unfold posn in A. lra.
  - destruct B as [->|B]; [left; lia|right]. unfold posn in B. lra.
Qed.
Lemma nth_sample v i : (i < length KS)%nat -> nth i (sample v) 0 = pwl (Z.of_nat W) v (nth i KS 0 - dc).
Proof. intros Hi. unfold sample. now rewrite (nth_map' _ _ _ 0). Qed.

Lemma steepness_sample v i : (S i < length KS)%nat -> steepness KS (sample v) i = v (Z.of_nat (strip i) + 1)%Z - v (Z.of_nat (strip i)).
Proof.
  intros Hi. pose proof (step_pos KS i KS_inc Hi). unfold steepness, gap. rewrite !nth_sample by lia.
  rewrite !(strip_pwl v i) by (auto; lra). field. lra.
Qed.

Definition kinks (v : Z -> R) (D : R) : Prop := forall c, (0 <= c <= Z.of_nat W - 3)%Z -> Rabs (v (c + 2)%Z - 2 * v (c + 1)%Z + v c) <= D.

Lemma bend_sample v D : 0 <= D -> kinks v D -> bend KS (sample v) D.
Proof.
  intros HD Hk i Hi. rewrite !steepness_sample by lia. destruct (cell i ltac:(lia)) as (_ & _ & G0 & E0). destruct (cell (S i) ltac:(lia)) as (_ & _ & G1 & E1).
  rewrite KS_length in Hi. destruct (Nat.eq_dec (strip (S i)) (strip i)) as [->|N].
  - unfold Rminus. rewrite Rplus_opp_r, Rabs_R0. apply Rmult_le_pos; [exact HD|]. unfold gap. lra.
  - assert (strip (S i) = S (strip i) /\ (strip i + 3 <= W)%nat) as [ES B] by (unfold strip in *; lia).
    assert (RI : (off <= i /\ S i < off + W - 1)%nat) by (unfold strip in *; lia).
    unfold gap. rewrite E1, E0 by lia. replace (D * ((nth i KS 0 + 1 - nth i KS 0 + (nth i KS 0 + 1 + 1 - (nth i KS 0 + 1))) / 2)) with D by field.
    rewrite ES. replace (Z.of_nat (S (strip i))) with (Z.of_nat (strip i) + 1)%Z by lia. replace (Z.of_nat (strip i) + 1 + 1)%Z with (Z.of_nat (strip i) + 2)%Z by lia.
    match goal with |- Rabs ?e <= _ => replace e with (v (Z.of_nat (strip i) + 2)%Z - 2 * v (Z.of_nat (strip i) + 1)%Z + v (Z.of_nat (strip i))) by ring end.
    apply Hk. lia.
Qed.

Lemma inside_cell x : hposn g 0 0 <= x <= hposn g 0 (L - 1) -> exists i, (S i < length KS)%nat /\ nth i KS 0 <= x <= nth (S i) KS 0.
Proof.
  intros Hx. assert (S0 : strict_inc KS = true) by (apply ext_cols_inc; auto; lia). pose proof KS_length as LK.
  assert (B : hd 0 KS <= x <= last KS 0).
  { rewrite hd_nth, last_nth, LK, KS_first. replace (off + W + 1 - 1)%nat with (off + W)%nat by lia. now rewrite KS_last. }
  destruct (locate KS x S0 ltac:(lia) B) as (i & Hi & Bi). eauto.
Qed.

(** between the second and the last but one tie column, and in general *)
Lemma spline_near v D x : 0 <= D -> kinks v D -> hposn g 0 0 <= x <= hposn g 0 (L - 1) ->
  Rabs (cubic_splev KS (sample v) x - pwl (Z.of_nat W) v (x - dc)) <= 9 / 8 * D /\
  (posn dc 1 <= x <= posn dc (W - 2) -> Rabs (cubic_splev KS (sample v) x - pwl (Z.of_nat W) v (x - dc)) <= 3 / 8 * D).
Proof.
  intros HD Hk Hx. pose proof KS_length as LK.
  assert (T : forall i, (S i < length KS)%nat -> nth i KS 0 <= x <= nth (S i) KS 0 ->
     Rabs (cubic_splev KS (sample v) x - pwl (Z.of_nat W) v (x - dc)) <= 3 / 8 * D * gap KS i ^ 2 * end_factor KS i).
  { intros i Hi Hxi. pose proof (C101_lines KS (sample v) D i x KS_inc ltac:(lia) HD (bend_sample v D HD Hk) Hi Hxi) as C.
    replace (straight_line (nth i KS 0) (nth i (sample v) 0) (nth (S i) KS 0) (nth (S i) (sample v) 0) x) with (pwl (Z.of_nat W) v (x - dc)) in C; [exact C|].
    pose proof (step_pos KS i KS_inc Hi). rewrite !nth_sample by lia. unfold straight_line. rewrite !(strip_pwl v i) by (auto; lra). field. lra. }
  assert (GI : forall i, (S i < length KS)%nat -> 0 < gap KS i <= 1) by (intros i Hi; destruct (cell i Hi) as (_ & _ & A & _); unfold gap; lra).
  split.
  - destruct (inside_cell x Hx) as (i & Hi & Hxi). eapply Rle_trans; [now apply (T i)|].
    assert (E : 0 <= end_factor KS i <= 3).
    { unfold end_factor. rewrite LK. destruct (Nat.eqb_spec i 0); [|destruct (Nat.eqb_spec i (off + W + 1 - 2))]; try lra.
      - assert (G1 : gap KS 1 = 1).
        { destruct (cell 1 ltac:(lia)) as (_ & _ & _ & E). unfold gap. rewrite E; [ring|]. unfold off. destruct (need_first cols hcols); lia. }
        pose proof (GI 0%nat ltac:(lia)). rewrite G1. lra.
      - assert (G1 : gap KS (off + W + 1 - 3) = 1).
        { destruct (cell (off + W + 1 - 3) ltac:(lia)) as (_ & _ & _ & E). unfold gap. rewrite E; [ring|]. lia. }
        pose proof (GI (off + W + 1 - 2)%nat ltac:(lia)). rewrite G1. lra. }
    pose proof (GI i Hi) as Gi. assert (Q : 0 <= gap KS i ^ 2 <= 1) by (split; [apply pow2_ge_0|]; simpl; nra).
    assert (Q2 : 0 <= gap KS i ^ 2 * end_factor KS i <= 3) by (split; [apply Rmult_le_pos; lra|]; assert (gap KS i ^ 2 * end_factor KS i <= 1 * 3) by (apply Rmult_le_compat; lra); lra).
    assert (3 / 8 * D * (gap KS i ^ 2 * end_factor KS i) <= 3 / 8 * D * 3) by (apply Rmult_le_compat_l; lra). lra.
  - intros Hin. destruct (inside_cell x Hx) as (i & Hi & Hxi).
    (* a regular cell *)
    assert (exists c, (1 <= c < W - 2)%nat /\ posn dc c <= x <= posn dc c + 1) as (c & Hc & Hxc).
    { destruct (Nat.lt_ge_cases i (off + 1)) as [A|A].
      - exists 1%nat. split; [lia|]. assert (nth (S i) KS 0 <= posn dc 1).
        { rewrite <- (KS_tie 1) by lia. destruct (Nat.eq_dec (S i) (off + 1)) as [->|]; [lra|]. left. apply KS_inc; lia. }
        rewrite <- (posn_S 1). pose proof (posn_S 1). lra.
      - destruct (Nat.lt_ge_cases i (off + W - 2)) as [B|B].
        + exists (i - off)%nat. split; [lia|]. rewrite <- posn_S. rewrite <- !KS_tie by lia. replace (off + (i - off))%nat with i by lia. replace (off + S (i - off))%nat with (S i) by lia. exact Hxi.
        + exists (W - 3)%nat. split; [lia|]. rewrite <- posn_S. replace (S (W - 3)) with (W - 2)%nat by lia.
          assert (posn dc (W - 2) <= nth i KS 0).
          { rewrite <- (KS_tie (W - 2)) by lia. destruct (Nat.eq_dec i (off + (W - 2))) as [->|]; [lra|]. left. apply KS_inc; lia. }
          assert (posn dc (W - 2) = posn dc (W - 3) + 1) by (rewrite <- posn_S; f_equal; lia). lra. }
    clear i Hi Hxi. assert (Hi : (S (off + c) < length KS)%nat) by lia.
    assert (E2 : nth (S (off + c)) KS 0 = posn dc c + 1) by (rewrite <- posn_S; rewrite <- KS_tie by lia; f_equal; lia).
    assert (E1 : nth (off + c) KS 0 = posn dc c) by (apply KS_tie; lia).
    pose proof (T (off + c)%nat Hi ltac:(rewrite E1, E2; exact Hxc)) as B. unfold gap in B. rewrite E1, E2 in B.
    unfold end_factor in B. rewrite LK in B. destruct (Nat.eqb_spec (off + c) 0); [lia|]. destruct (Nat.eqb_spec (off + c) (off + W + 1 - 2)); [lia|].
    eapply Rle_trans; [exact B|]. right. ring.
Qed.
End Columns.

(** ** Rows: errors are not enlarged between the tie rows and little beyond them *)
Lemma pwl_near n u v x E : (2 <= n)%Z -> 0 <= E -> (forall c, (0 <= c < n)%Z -> Rabs (u c - v c) <= E) -> - (2 / 5) <= x <= IZR n - 1 + 2 / 5 ->
  Rabs (pwl n u x - pwl n v x) <= 9 / 5 * E /\ (0 <= x <= IZR n - 1 -> Rabs (pwl n u x - pwl n v x) <= E).
Proof.
  intros Hn HE H Hx. pose proof (Rfloor_spec x) as F.
  set (c := Z.max 0 (Z.min (Rfloor x) (n - 2))).
  assert (Hc : (0 <= c <= n - 2)%Z) by (unfold c; lia).
  assert (A : c = 0%Z \/ IZR c <= x).
  { destruct (Z.eq_dec c 0); [now left|right]. apply Rle_trans with (IZR (Rfloor x)); [apply IZR_le; unfold c in *; lia|lra]. }
  assert (B : c = (n - 2)%Z \/ x <= IZR c + 1).
  { destruct (Z.eq_dec c (n - 2)); [now left|right]. apply Rle_trans with (IZR (Rfloor x) + 1); [lra|]. apply Rplus_le_compat_r, IZR_le. unfold c in *. lia. }
  assert (T : - (2 / 5) <= x - IZR c <= 7 / 5).
  { split; [destruct A as [->|A]; lra|]. destruct B as [->|B]; [rewrite minus_IZR|]; lra. }
  rewrite !(pwl_piece n _ x c) by assumption. set (t := x - IZR c) in *.
  pose proof (H c ltac:(lia)) as P. pose proof (H (c + 1)%Z ltac:(lia)) as Q.
  replace (u c + t * (u (c + 1)%Z - u c) - (v c + t * (v (c + 1)%Z - v c))) with ((1 - t) * (u c - v c) + t * (u (c + 1)%Z - v (c + 1)%Z)) by ring.
  apply Rabs_le_inv in P, Q. set (p := u c - v c) in *. set (q := u (c + 1)%Z - v (c + 1)%Z) in *.
  assert (P' : Rabs ((1 - t) * p) <= Rabs (1 - t) * E) by (rewrite Rabs_mult; apply Rmult_le_compat_l; [apply Rabs_pos|apply Rabs_le; lra]).
  assert (Q' : Rabs (t * q) <= Rabs t * E) by (rewrite Rabs_mult; apply Rmult_le_compat_l; [apply Rabs_pos|apply Rabs_le; lra]).
  apply Rabs_le_inv in P', Q'. split; [|intros Hx']; apply Rabs_le.
  - assert (S : Rabs (1 - t) + Rabs t <= 9 / 5) by (unfold Rabs; repeat destruct (Rcase_abs _); lra).
    assert ((Rabs (1 - t) + Rabs t) * E <= 9 / 5 * E) by (apply Rmult_le_compat_r; lra). lra.
  - assert (T' : 0 <= t <= 1).
    { unfold t. split; [destruct A as [->|A]; lra|]. destruct B as [->|B]; [rewrite minus_IZR|]; lra. }
    rewrite !Rabs_pos_eq in P', Q' by lra. lra.
Qed.
