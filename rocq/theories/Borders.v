(** Interpolator.fill_borders for any arithmetic: what the border filling computes when every chunk holds
    the same number of tie rows and the comparisons that select the tie rows of a chunk go as intended. *)
From Coq Require Import ZArith List Lia Bool Arith.
From Verif Require Import Base Num Splits Interp PlProofs InterpProofs.
Import ListNotations.

Section Borders.
Context {T : Type} {N : NumOps T}.
Local Notation o := (nz 0 : T).

Definition gfirst (cols hcols : list T) : bool := negb (neqb (hd o cols) (hd o hcols)).
Definition glast (cols hcols : list T) : bool := negb (neqb (last cols o) (last hcols o)).
Definition grow (cols hcols r : list T) : list T :=
  (if gfirst cols hcols then [lin_at (nth 0 cols o) (nth 1 cols o) (hd o hcols) (nth 0 r o) (nth 1 r o)] else [])
  ++ r ++
  (if glast cols hcols then [lin_at (nth (length cols - 2) cols o) (nth (length cols - 1) cols o) (last hcols o)
                (nth (length r - 2) r o) (nth (length r - 1) r o)] else []).
Definition gcols (cols hcols : list T) : list T :=
  (if gfirst cols hcols then [hd o hcols] else []) ++ cols ++ (if glast cols hcols then [last hcols o] else []).

Lemma gget_col data j : Forall (fun r : list T => (Z.to_nat j < length r)%nat) data -> (0 <= j)%Z ->
  get_col data j = Ok (map (fun r : list T => nth (Z.to_nat j) r o) data).
Proof.
  intros H Hj. apply mapM_Ok_map. intros r Hr. rewrite Forall_forall in H.
  specialize (H r Hr). apply nth_res_Ok. lia.
Qed.
Lemma gget_col_end data j : (1 <= j)%nat -> Forall (fun r : list T => (j <= length r)%nat) data ->
  get_col_end data (Z.of_nat j) = Ok (map (fun r : list T => nth (length r - j) r o) data).
Proof.
  intros Hj H. apply mapM_Ok_map. intros r Hr. rewrite Forall_forall in H.
  specialize (H r Hr). rewrite (nth_res_Ok r _ o) by lia. f_equal. f_equal. lia.
Qed.
Lemma glast_res (l : list T) : l <> [] -> last_res l = Ok (last l o).
Proof.
  intros H. destruct l as [|a l']; [congruence|].
  unfold last_res. rewrite (nth_res_Ok _ _ o) by (cbn [length]; lia). rewrite last_nth. f_equal. f_equal. cbn [length]. lia.
Qed.

Lemma gextrapolate_cols (st : istate T) data :
  (2 <= length (col_indices st))%nat -> hcol_indices st <> [] -> Forall (fun r => (2 <= length r)%nat) data ->
  extrapolate_cols st data (gfirst (col_indices st) (hcol_indices st)) (glast (col_indices st) (hcol_indices st))
  = Ok (map (grow (col_indices st) (hcol_indices st)) data).
Proof.
  intros Hc Hh Hd. unfold extrapolate_cols.
  set (cols := col_indices st) in *. set (hcols := hcol_indices st) in *.
  assert (Hf : (let pos := first2 cols in
       bind (get_col data 0) (fun c0 => bind (get_col data 1) (fun c1 =>
         bind (nth_res hcols 0) (fun h => linear_extrapolate pos [c0; c1] h)))) =
       Ok (map (fun r : list T => lin_at (nth 0 cols o) (nth 1 cols o) (hd o hcols) (nth 0 r o) (nth 1 r o)) data)).
  { cbv zeta. rewrite gget_col; [|eapply Forall_impl; [|exact Hd]; simpl; intros; lia|lia]. cbn [bind].
    rewrite gget_col; [|eapply Forall_impl; [|exact Hd]; simpl; intros; lia|lia]. cbn [bind].
    rewrite (nth_res_Ok hcols 0 o); [|destruct hcols; [congruence|simpl; lia]]. cbn [bind].
    rewrite (first2_eq cols o) by exact Hc. unfold linear_extrapolate.
    rewrite map2_map_same. f_equal. change (Z.to_nat 0) with 0%nat. rewrite hd_nth. reflexivity. }
  assert (Hl : (let pos := last2 cols in
       bind (get_col_end data 2) (fun c0 => bind (get_col_end data 1) (fun c1 =>
         bind (last_res hcols) (fun h => linear_extrapolate pos [c0; c1] h)))) =
       Ok (map (fun r : list T => lin_at (nth (length cols - 2) cols o) (nth (length cols - 1) cols o) (last hcols o)
                (nth (length r - 2) r o) (nth (length r - 1) r o)) data)).
  { cbv zeta. change 2%Z with (Z.of_nat 2). change 1%Z with (Z.of_nat 1).
    rewrite gget_col_end; [|lia|exact Hd]. cbn [bind].
    rewrite gget_col_end; [|lia|eapply Forall_impl; [|exact Hd]; simpl; intros; lia]. cbn [bind].
    rewrite glast_res by exact Hh. cbn [bind].
    rewrite (last2_eq cols o) by exact Hc. unfold linear_extrapolate.
    rewrite map2_map_same. reflexivity. }
  cbv zeta in Hf, Hl. unfold grow.
  destruct (gfirst cols hcols), (glast cols hcols); rewrite ?Hf, ?Hl; cbn [bind]; f_equal.
  - rewrite map2_map_l.
    transitivity (map2 (fun r l => r ++ [l])
      (map (fun a : list T => lin_at (nth 0 cols o) (nth 1 cols o) (hd o hcols) (nth 0 a o) (nth 1 a o) :: a) data)
      (map (fun r : list T => lin_at (nth (length cols - 2) cols o) (nth (length cols - 1) cols o) (last hcols o)
                (nth (length r - 2) r o) (nth (length r - 1) r o)) data)); [reflexivity|].
    rewrite map2_map_same. reflexivity.
  - rewrite map2_map_l. apply map_ext. intros r. now rewrite app_nil_r.
  - assert (G : forall (h : list T -> T) d, map2 (fun r l => r ++ [l]) d (map h d) = map (fun r => r ++ [h r]) d).
    { intros h d. induction d; simpl; [reflexivity|]. now rewrite IHd. }
    rewrite G. reflexivity.
  - cbn [app]. rewrite <- (map_id data) at 1. apply map_ext. intros r. now rewrite app_nil_r.
Qed.

Lemma gfill_col (st : istate T) :
  (2 <= length (col_indices st))%nat -> hcol_indices st <> [] ->
  Forall (Forall (fun r => (2 <= length r)%nat)) (tie_data st) ->
  fill_col_borders st = Ok (mkI (row_indices st) (gcols (col_indices st) (hcol_indices st))
     (hrow_indices st) (hcol_indices st) (chunk_size st)
     (map (map (grow (col_indices st) (hcol_indices st))) (tie_data st))
     (kx_ st) (ky_ st) (new_data st)).
Proof.
  intros Hc Hh Hd. unfold fill_col_borders.
  rewrite (nth_res_Ok (col_indices st) 0 o) by lia. cbn [bind].
  rewrite (nth_res_Ok (hcol_indices st) 0 o); [|destruct (hcol_indices st); [congruence|simpl; lia]]. cbn [bind].
  rewrite glast_res by (intros E; rewrite E in Hc; simpl in Hc; lia). cbn [bind].
  rewrite glast_res by exact Hh. cbn [bind].
  change (Z.to_nat 0) with 0%nat. rewrite <- !hd_nth.
  change (negb (neqb (hd o (col_indices st)) (hd o (hcol_indices st)))) with (gfirst (col_indices st) (hcol_indices st)).
  change (negb (neqb (last (col_indices st) o) (last (hcol_indices st) o))) with (glast (col_indices st) (hcol_indices st)).
  rewrite (mapM_Ok_map _ (map (grow (col_indices st) (hcol_indices st)))).
  2:{ intros d Hd'. rewrite Forall_forall in Hd. apply gextrapolate_cols; auto. }
  cbn [bind]. f_equal. f_equal. unfold gcols.
  destruct (gfirst _ _), (glast _ _); cbn [app]; rewrite ?app_nil_r; reflexivity.
Qed.

(** ** rows *)
Section Rows.
Variables (g m k : nat) (P H : list T).
Hypothesis Hg : (1 <= g)%nat.
Hypothesis Hm : (2 <= m)%nat.
Hypothesis Hk : (1 <= k)%nat.
Hypothesis LP : length P = (k * m)%nat.
Hypothesis LH : length H = (g * (k * m))%nat.
Local Notation factor := (nz (Z.of_nat (g * (k * m))) / nz (Z.of_nat (k * m)))%num.
Hypothesis Win : forall c, (c < k)%nat ->
  window P (nz (Z.of_nat (g * m) * Z.of_nat c) / factor)%num (nz (Z.of_nat (g * m) * Z.of_nat c + Z.of_nat (g * m)) / factor)%num
  = seq (c * m) m.

Definition gblock (c : nat) (b : list (list T)) : list (list T) :=
  map2 (lin_at (nth (c * m) P o) (nth (c * m + 1) P o) (nth (g * m * c) H o)) (nth 0 b []) (nth 1 b [])
  :: b ++ [map2 (lin_at (nth (c * m + m - 2) P o) (nth (c * m + m - 1) P o) (nth (g * m * c + g * m - 1) H o))
                (nth (m - 2) b []) (nth (m - 1) b [])].
Definition gpos (c : nat) : list T :=
  nth (g * m * c) H o :: map (fun i => nth i P o) (seq (c * m) m) ++ [nth (g * m * c + g * m - 1) H o].
Definition gfilled (d : list (list T)) : list (list T) :=
  concat (map (fun c => gblock c (firstn m (skipn (c * m) d))) (seq 0 k)).

Lemma gextrapolate_rows c b : (c < k)%nat -> length b = m ->
  extrapolate_rows b (map (fun i => nth i P o) (seq (c * m) m)) (nth (g * m * c) H o) (nth (g * m * c + g * m - 1) H o) = Ok (gblock c b).
Proof.
  intros Hc Hb. unfold extrapolate_rows.
  destruct b as [|b0 [|b1 b']] eqn:Eb; [simpl in Hb; lia|simpl in Hb; lia|].
  rewrite <- Eb in *.
  rewrite (nth_res_Ok b 0 []) by lia. cbn [bind].
  rewrite (nth_res_Ok b 1 []) by lia. cbn [bind].
  set (tp := map (fun i => nth i P o) (seq (c * m) m)).
  assert (Ls : length tp = m) by (unfold tp; now rewrite map_length, seq_length).
  rewrite (first2_eq _ o) by lia. cbn [linear_extrapolate bind].
  rewrite (nth_res_Ok b (Z.of_nat (length b) - 2) []) by lia. cbn [bind].
  rewrite (nth_res_Ok b (Z.of_nat (length b) - 1) []) by lia. cbn [bind].
  rewrite (last2_eq _ o) by lia. cbn [linear_extrapolate bind]. unfold gblock.
  assert (G : forall i, (i < m)%nat -> nth i tp o = nth (c * m + i) P o).
  { intros i Hi. unfold tp. rewrite (nth_map' _ (seq (c * m) m) i 0%nat) by (now rewrite seq_length). now rewrite seq_nth. }
  rewrite Ls, !G by lia.
  replace (Z.to_nat (Z.of_nat (length b) - 2)) with (m - 2)%nat by lia.
  replace (Z.to_nat (Z.of_nat (length b) - 1)) with (m - 1)%nat by lia.
  change (Z.to_nat 0) with 0%nat. change (Z.to_nat 1) with 1%nat.
  rewrite Nat.add_0_r.
  replace (c * m + (m - 2))%nat with (c * m + m - 2)%nat by lia.
  replace (c * m + (m - 1))%nat with (c * m + m - 1)%nat by lia. reflexivity.
Qed.

Variables (cols hcols : list T) (kx ky : Z) (nd : list (mat T)).
Definition gst (ties : list (mat T)) : istate T := mkI P cols H hcols (Z.of_nat (g * m)) ties kx ky nd.

Lemma gfill_chunk c ties : (c < k)%nat -> Forall (fun d => length d = (k * m)%nat) ties ->
  fill_chunk (gst ties) (Z.of_nat (g * m)) factor (Z.of_nat (g * m) * Z.of_nat c)
  = Ok (map (fun d => gblock c (firstn m (skipn (c * m) d))) ties, gpos c).
Proof using All.
  intros Hc Hd. unfold fill_chunk.
  change (row_indices (gst ties)) with P. change (tie_data (gst ties)) with ties. change (hrow_indices (gst ties)) with H.
  rewrite (Win c Hc).
  assert (H0 : nth_res H (Z.of_nat (g * m) * Z.of_nat c) = Ok (nth (g * m * c) H o)).
  { rewrite (nth_res_Ok _ _ o) by (rewrite LH; nia). f_equal. f_equal. nia. }
  assert (H1 : nth_res H (Z.of_nat (g * m) * Z.of_nat c + Z.of_nat (g * m) - 1) = Ok (nth (g * m * c + g * m - 1) H o)).
  { rewrite (nth_res_Ok _ _ o) by (rewrite LH; nia). f_equal. f_equal. nia. }
  rewrite H0, H1. cbn [bind].
  rewrite (mapM_Ok_map _ (fun d => gblock c (firstn m (skipn (c * m) d)))).
  - reflexivity.
  - intros d Hd'. rewrite Forall_forall in Hd. specialize (Hd d Hd').
    rewrite mapM_nth_seq by nia. cbn [bind].
    destruct (seq (c * m) m) eqn:Es.
    { apply (f_equal (@length nat)) in Es. rewrite seq_length in Es. simpl in Es. lia. }
    rewrite <- Es. apply gextrapolate_rows; [exact Hc|]. rewrite firstn_length, skipn_length. rewrite Nat.min_l; [reflexivity|]. nia.
Qed.

Lemma gfill_row ties : Forall (fun d => length d = (k * m)%nat) ties ->
  fill_row_borders (gst ties) =
  Ok (mkI (concat (map gpos (seq 0 k))) cols H hcols (Z.of_nat (g * m)) (map gfilled ties) kx ky nd).
Proof using All.
  intros Hd. unfold fill_row_borders.
  change (hrow_indices (gst ties)) with H. change (row_indices (gst ties)) with P.
  change (chunk_size (gst ties)) with (Z.of_nat (g * m)). change (tie_data (gst ties)) with ties.
  destruct (Z.eqb_spec (Z.of_nat (g * m)) 0); [nia|].
  rewrite LH, LP.
  destruct P as [|p0 pt] eqn:EP; [simpl in LP; nia|]. rewrite <- EP in *.
  cbn [bind].
  rewrite (py_range_chunks g m Hg Hm (k * m) k); [| nia |].
  2:{ apply (Nat.div_unique _ _ _ (m - 1)); nia. }
  cbn [bind]. rewrite mapM_map.
  rewrite (mapM_Ok_map _ (fun c => (map (fun d => gblock c (firstn m (skipn (c * m) d))) ties, gpos c))).
  2:{ intros c Hc. apply in_seq in Hc. apply gfill_chunk; [lia|exact Hd]. }
  cbn [bind].
  rewrite (mapM_seq_nth' gfilled ties).
  - cbn [bind]. f_equal. f_equal. rewrite map_map. reflexivity.
  - intros i d Hi. rewrite map_map. cbn [fst].
    rewrite (map_ext _ (fun c => gblock c (firstn m (skipn (c * m) d)))).
    + unfold vstack_blocks. change (match gfilled d with [] => Err ValueError | l => Ok l end = Ok (gfilled d)).
      destruct (gfilled d) eqn:E; [|reflexivity].
      exfalso. unfold gfilled in E. destruct k; [lia|]. simpl in E. discriminate.
    + intros c. apply (nth_map_in (fun d => gblock c (firstn m (skipn (c * m) d)))). exact Hi.
Qed.

(** rows, then columns *)
Lemma gfill ties : (2 <= length cols)%nat -> hcols <> [] ->
  Forall (fun d => length d = (k * m)%nat /\ Forall (fun r => length r = length cols) d) ties ->
  fill_borders [DimY; DimX] (gst ties) =
  (Ok tt, mkI (concat (map gpos (seq 0 k))) (gcols cols hcols) H hcols (Z.of_nat (g * m))
              (map (map (grow cols hcols)) (map gfilled ties)) kx ky nd).
Proof using All.
  intros Hc Hh HS. unfold fill_borders. cbn [resolve bind run_dims run_dim].
  rewrite gfill_row by (eapply Forall_impl; [|exact HS]; intros d Hd; apply Hd).
  rewrite gfill_col; cbn [row_indices col_indices hrow_indices hcol_indices chunk_size tie_data kx_ ky_ new_data];
    [reflexivity|exact Hc|exact Hh|].
  apply Forall_map. rewrite Forall_forall in *. intros d Hd. destruct (HS d Hd) as [L W].
  apply Forall_forall. intros r Hr. unfold gfilled in Hr. apply in_concat in Hr. destruct Hr as (b & Hb & Hr).
  apply in_map_iff in Hb. destruct Hb as (c & <- & Hc'). apply in_seq in Hc'.
  set (b := firstn m (skipn (c * m) d)) in *.
  assert (Lb : length b = m) by (unfold b; rewrite firstn_length, skipn_length; apply Nat.min_l; nia).
  assert (Wb : forall r', In r' b -> length r' = length cols).
  { intros r' Hr'. rewrite Forall_forall in W. apply W. rewrite <- (firstn_skipn (c * m) d). apply in_or_app. right.
    rewrite <- (firstn_skipn m (skipn (c * m) d)). apply in_or_app. now left. }
  assert (Wn : forall i, (i < m)%nat -> length (nth i b []) = length cols) by (intros i Hi; apply Wb, nth_In; now rewrite Lb).
  unfold gblock in Hr. destruct Hr as [<- | Hr].
  - rewrite map2_length, !Wn by lia. lia.
  - apply in_app_or in Hr. destruct Hr as [Hr | [<-|[]]].
    + rewrite Wb by exact Hr. lia.
    + rewrite map2_length, !Wn by lia. lia.
Qed.
End Rows.
End Borders.
