(** Proofs about Interpolator.fill_borders and interpolate over the reals, for tie rows and
    target rows in arithmetic progression (the layout of the MODIS functions). *)
From Coq Require Import ZArith List Lia Bool Reals Lra.
From Verif Require Import Base Num Splits SplitsProofs Interp PlProofs.
Import ListNotations.
#[local] Existing Instance RT.
Open Scope R_scope.

(** ** lists *)
Lemma map2_length {A B C} (f : A -> B -> C) l1 l2 : length (map2 f l1 l2) = Nat.min (length l1) (length l2).
Proof. revert l2; induction l1 as [|a l1 IH]; intros [|b l2]; simpl; auto. Qed.

Lemma map2_app {A B C} (f : A -> B -> C) l1 l1' l2 l2' :
  length l1 = length l2 -> map2 f (l1 ++ l1') (l2 ++ l2') = map2 f l1 l2 ++ map2 f l1' l2'.
Proof.
  revert l2; induction l1 as [|a l1 IH]; intros [|b l2] H; simpl in *; try discriminate; [reflexivity|].
  rewrite IH by lia. reflexivity.
Qed.

Lemma nth_map2 {A B C} (f : A -> B -> C) l1 l2 i da db dc :
  (i < length l1)%nat -> (i < length l2)%nat ->
  nth i (map2 f l1 l2) dc = f (nth i l1 da) (nth i l2 db).
Proof.
  revert l2 i; induction l1 as [|a l1 IH]; intros [|b l2] i H1 H2; simpl in *; try lia.
  destruct i as [|i]; [reflexivity|]. apply IH; lia.
Qed.

Lemma map2_ext {A B C} (f g : A -> B -> C) l1 l2 : (forall a b, f a b = g a b) -> map2 f l1 l2 = map2 g l1 l2.
Proof. intros H; revert l2; induction l1; intros [|b l2]; simpl; auto. now rewrite H, IHl1. Qed.

Lemma filter_false {A} (f : A -> bool) l : (forall a, In a l -> f a = false) -> filter f l = [].
Proof.
  induction l as [|a l IH]; intros H; [reflexivity|]. simpl. rewrite (H a) by now left.
  apply IH. intros b Hb. apply H. now right.
Qed.
Lemma filter_true {A} (f : A -> bool) l : (forall a, In a l -> f a = true) -> filter f l = l.
Proof.
  induction l as [|a l IH]; intros H; [reflexivity|]. simpl. rewrite (H a) by now left.
  f_equal. apply IH. intros b Hb. apply H. now right.
Qed.

Lemma filter_seq_interval (f : nat -> bool) n a k :
  (a + k <= n)%nat ->
  (forall i, (i < n)%nat -> f i = ((a <=? i)%nat && (i <? a + k)%nat)) ->
  filter f (seq 0 n) = seq a k.
Proof.
  intros H Hf. replace n with (a + (k + (n - a - k)))%nat by lia.
  rewrite !seq_app, !filter_app. simpl Nat.add.
  rewrite (filter_false f (seq 0 a)), (filter_true f (seq a k)), (filter_false f (seq (a + k) _)).
  - simpl. now rewrite app_nil_r.
  - intros i Hi. apply in_seq in Hi. rewrite Hf by lia.
    destruct (Nat.leb_spec a i), (Nat.ltb_spec i (a + k)); simpl; try reflexivity; lia.
  - intros i Hi. apply in_seq in Hi. rewrite Hf by lia.
    destruct (Nat.leb_spec a i), (Nat.ltb_spec i (a + k)); simpl; try reflexivity; lia.
  - intros i Hi. apply in_seq in Hi. rewrite Hf by lia.
    destruct (Nat.leb_spec a i), (Nat.ltb_spec i (a + k)); simpl; try reflexivity; lia.
Qed.

Lemma firstn_S_nth {A} (l : list A) k d : (k < length l)%nat -> firstn (S k) l = firstn k l ++ [nth k l d].
Proof.
  revert l; induction k as [|k IH]; intros [|a l] H; simpl in *; try lia; [reflexivity|].
  f_equal. apply IH. lia.
Qed.

Lemma map_nth_seq {A} (l : list A) d a k :
  (a + k <= length l)%nat -> map (fun i => nth i l d) (seq a k) = firstn k (skipn a l).
Proof.
  revert a; induction k as [|k IH]; intros a H; [reflexivity|].
  cbn [seq map]. rewrite IH by lia.
  destruct (skipn a l) as [|x t] eqn:E.
  - apply (f_equal (@length A)) in E. rewrite skipn_length in E. simpl in E. lia.
  - cbn [firstn]. f_equal.
    + rewrite <- (firstn_skipn a l) at 1. rewrite app_nth2; rewrite firstn_length_le by lia; [|lia].
      rewrite Nat.sub_diag, E. reflexivity.
    + replace (S a) with (1 + a)%nat by lia. rewrite <- skipn_skipn', E. reflexivity.
Qed.

Lemma mapM_nth_seq {A} (l : list A) a k :
  (a + k <= length l)%nat -> mapM (fun i => nth_res l (Z.of_nat i)) (seq a k) = Ok (firstn k (skipn a l)).
Proof.
  intros H. destruct l as [|d0 l0] eqn:El.
  - simpl in H. replace k with 0%nat by lia. destruct a; reflexivity.
  - rewrite <- El in *. clear El. rewrite (mapM_Ok_map _ (fun i => nth i l d0)).
    + now rewrite map_nth_seq by exact H.
    + intros i Hi. apply in_seq in Hi. rewrite (nth_res_Ok l _ d0) by lia. now rewrite Nat2Z.id.
Qed.

Lemma seq_map_shift a k : seq a k = map (fun i => (a + i)%nat) (seq 0 k).
Proof.
  revert a; induction k as [|k IH]; intros a; [reflexivity|]. cbn [seq map].
  rewrite Nat.add_0_r. f_equal. rewrite (IH (S a)), (IH 1%nat), map_map. apply map_ext. intros; lia.
Qed.

Lemma first2_eq {A} (l : list A) d : (2 <= length l)%nat -> first2 l = [nth 0 l d; nth 1 l d].
Proof. destruct l as [|a [|b l]]; simpl; intros; try lia; reflexivity. Qed.

Lemma last2_eq {A} (l : list A) d : (2 <= length l)%nat ->
  last2 l = [nth (length l - 2) l d; nth (length l - 1) l d].
Proof.
  intros H. unfold last2.
  rewrite <- (firstn_all2 (n := 2) (skipn (length l - 2) l)) by (rewrite skipn_length; lia).
  rewrite <- (map_nth_seq l d) by lia. cbn [seq map]. repeat f_equal. lia.
Qed.

Lemma lin_at_shift p0 p1 x d0 d1 t : lin_at (p0 + t) (p1 + t) (x + t) d0 d1 = lin_at p0 p1 x d0 d1.
Proof.
  unfold lin_at. rt.
  replace (x + t - (p1 + t)) with (x - p1) by ring.
  replace (p0 + t - (p1 + t)) with (p0 - p1) by ring. reflexivity.
Qed.

(** ** the columns *)

(** one row with the border columns added (as a specification) *)
Definition need_first (cols hcols : list R) : bool := negb (Reqb (hd 0 cols) (hd 0 hcols)).
Definition need_last (cols hcols : list R) : bool := negb (Reqb (last cols 0) (last hcols 0)).

Definition ext_row (cols hcols : list R) (r : list R) : list R :=
  (if need_first cols hcols
   then [lin_at (nth 0 cols 0) (nth 1 cols 0) (hd 0 hcols) (nth 0 r 0) (nth 1 r 0)] else [])
  ++ r ++
  (if need_last cols hcols
   then [lin_at (nth (length cols - 2) cols 0) (nth (length cols - 1) cols 0) (last hcols 0)
                (nth (length r - 2) r 0) (nth (length r - 1) r 0)] else []).

Definition ext_cols (cols hcols : list R) : list R :=
  (if need_first cols hcols then [hd 0 hcols] else [])
  ++ cols ++ (if need_last cols hcols then [last hcols 0] else []).

Lemma get_col_eq data j : Forall (fun r => (Z.to_nat j < length r)%nat) data -> (0 <= j)%Z ->
  get_col data j = Ok (map (fun r : list R => nth (Z.to_nat j) r 0) data).
Proof.
  intros H Hj. apply mapM_Ok_map. intros r Hr. rewrite Forall_forall in H.
  specialize (H r Hr). apply nth_res_Ok. lia.
Qed.
Lemma get_col_end_eq data j : (1 <= j)%nat -> Forall (fun r => (j <= length r)%nat) data ->
  get_col_end data (Z.of_nat j) = Ok (map (fun r : list R => nth (length r - j) r 0) data).
Proof.
  intros Hj H. apply mapM_Ok_map. intros r Hr. rewrite Forall_forall in H.
  specialize (H r Hr). rewrite (nth_res_Ok r _ 0) by lia. f_equal. f_equal. lia.
Qed.

Lemma last_res_eq (l : list R) : l <> [] -> last_res l = Ok (last l 0).
Proof.
  intros H. destruct l as [|a l']; [congruence|].
  unfold last_res. rewrite (nth_res_Ok _ _ 0) by (cbn [length]; lia). rewrite last_nth. f_equal. f_equal. cbn [length]. lia.
Qed.

Lemma map2_map_same {A B C D} (f : B -> C -> D) (g : A -> B) (h : A -> C) l :
  map2 f (map g l) (map h l) = map (fun a => f (g a) (h a)) l.
Proof. induction l; simpl; [reflexivity|]. now rewrite IHl. Qed.
Lemma map2_map_l {A B D} (f : B -> A -> D) (g : A -> B) l :
  map2 f (map g l) l = map (fun a => f (g a) a) l.
Proof. induction l; simpl; [reflexivity|]. now rewrite IHl. Qed.

Lemma extrapolate_cols_eq (st : istate R) data :
  (2 <= length (col_indices st))%nat -> hcol_indices st <> [] ->
  Forall (fun r => (2 <= length r)%nat) data ->
  extrapolate_cols st data (need_first (col_indices st) (hcol_indices st))
                           (need_last (col_indices st) (hcol_indices st))
  = Ok (map (ext_row (col_indices st) (hcol_indices st)) data).
Proof.
  intros Hc Hh Hd. unfold extrapolate_cols.
  set (cols := col_indices st) in *. set (hcols := hcol_indices st) in *.
  assert (Hf : (let pos := first2 cols in
       bind (get_col data 0) (fun c0 => bind (get_col data 1) (fun c1 =>
         bind (nth_res hcols 0) (fun h => linear_extrapolate pos [c0; c1] h)))) =
       Ok (map (fun r : list R => lin_at (nth 0 cols 0) (nth 1 cols 0) (hd 0 hcols) (nth 0 r 0) (nth 1 r 0)) data)).
  { cbv zeta. rewrite get_col_eq; [|eapply Forall_impl; [|exact Hd]; simpl; intros; lia|lia]. cbn [bind].
    rewrite get_col_eq; [|eapply Forall_impl; [|exact Hd]; simpl; intros; lia|lia]. cbn [bind].
    rewrite (nth_res_Ok hcols 0 0); [|destruct hcols; [congruence|simpl; lia]]. cbn [bind].
    rewrite (first2_eq cols 0) by exact Hc. unfold linear_extrapolate.
    rewrite map2_map_same. f_equal. change (Z.to_nat 0) with 0%nat. rewrite hd_nth. reflexivity. }
  assert (Hl : (let pos := last2 cols in
       bind (get_col_end data 2) (fun c0 => bind (get_col_end data 1) (fun c1 =>
         bind (last_res hcols) (fun h => linear_extrapolate pos [c0; c1] h)))) =
       Ok (map (fun r : list R => lin_at (nth (length cols - 2) cols 0) (nth (length cols - 1) cols 0) (last hcols 0)
                (nth (length r - 2) r 0) (nth (length r - 1) r 0)) data)).
  { cbv zeta. change 2%Z with (Z.of_nat 2). change 1%Z with (Z.of_nat 1).
    rewrite get_col_end_eq; [|lia|exact Hd]. cbn [bind].
    rewrite get_col_end_eq; [|lia|eapply Forall_impl; [|exact Hd]; simpl; intros; lia]. cbn [bind].
    rewrite last_res_eq by exact Hh. cbn [bind].
    rewrite (last2_eq cols 0) by exact Hc. unfold linear_extrapolate.
    rewrite map2_map_same. reflexivity. }
  cbv zeta in Hf, Hl. unfold ext_row.
  destruct (need_first cols hcols), (need_last cols hcols); rewrite ?Hf, ?Hl; cbn [bind]; f_equal.
  - rewrite map2_map_l.
    transitivity (map2 (fun r l => r ++ [l])
      (map (fun a : list R => lin_at (nth 0 cols 0) (nth 1 cols 0) (hd 0 hcols) (nth 0 a 0) (nth 1 a 0) :: a) data)
      (map (fun r : list R => lin_at (nth (length cols - 2) cols 0) (nth (length cols - 1) cols 0) (last hcols 0)
                (nth (length r - 2) r 0) (nth (length r - 1) r 0)) data)); [reflexivity|].
    rewrite map2_map_same. reflexivity.
  - rewrite map2_map_l. apply map_ext. intros r. now rewrite app_nil_r.
  - assert (G : forall (h : list R -> R) d, map2 (fun r l => r ++ [l]) d (map h d) = map (fun r => r ++ [h r]) d).
    { intros h d. induction d; simpl; [reflexivity|]. now rewrite IHd. }
    rewrite G. reflexivity.
  - cbn [app]. rewrite <- (map_id data) at 1. apply map_ext. intros r. now rewrite app_nil_r.
Qed.

Lemma fill_col_borders_eq (st : istate R) :
  (2 <= length (col_indices st))%nat -> hcol_indices st <> [] ->
  Forall (Forall (fun r => (2 <= length r)%nat)) (tie_data st) ->
  fill_col_borders st = Ok (mkI (row_indices st) (ext_cols (col_indices st) (hcol_indices st))
     (hrow_indices st) (hcol_indices st) (chunk_size st)
     (map (map (ext_row (col_indices st) (hcol_indices st))) (tie_data st))
     (kx_ st) (ky_ st) (new_data st)).
Proof.
  intros Hc Hh Hd. unfold fill_col_borders.
  rewrite (nth_res_Ok (col_indices st) 0 0) by lia. cbn [bind].
  rewrite (nth_res_Ok (hcol_indices st) 0 0); [|destruct (hcol_indices st); [congruence|simpl; lia]]. cbn [bind].
  rewrite last_res_eq by (intros E; rewrite E in Hc; simpl in Hc; lia). cbn [bind].
  rewrite last_res_eq by exact Hh. cbn [bind].
  change (Z.to_nat 0) with 0%nat. rewrite <- !hd_nth.
  change (negb (neqb (hd 0 (col_indices st)) (hd 0 (hcol_indices st)))) with (need_first (col_indices st) (hcol_indices st)).
  change (negb (neqb (last (col_indices st) 0) (last (hcol_indices st) 0))) with (need_last (col_indices st) (hcol_indices st)).
  rewrite (mapM_Ok_map _ (map (ext_row (col_indices st) (hcol_indices st)))).
  2:{ intros d Hd'. rewrite Forall_forall in Hd. apply extrapolate_cols_eq; auto. }
  cbn [bind]. f_equal. f_equal. unfold ext_cols.
  destruct (need_first _ _), (need_last _ _); cbn [app]; rewrite ?app_nil_r; reflexivity.
Qed.

Lemma range0_map_of_nat k : range0 (Z.of_nat k) = map Z.of_nat (seq 0 k).
Proof.
  unfold range0. rewrite Nat2Z.id.
  assert (G : forall a, zrange (Z.of_nat a) k = map Z.of_nat (seq a k)).
  { induction k as [|k IH]; intros a; [reflexivity|]. cbn [zrange seq map]. f_equal.
    replace (Z.of_nat a + 1)%Z with (Z.of_nat (S a)) by lia. apply IH. }
  apply (G 0%nat).
Qed.

(** ** the rows *)
Section Blocks.
Variables (g m : nat) (delta o : R).
Hypothesis (Hg : (1 <= g)%nat) (Hm : (2 <= m)%nat).
Hypothesis Hdelta : 0 <= delta < 1.

Definition posn (k : nat) : R := IZR (Z.of_nat k) + delta.
Definition hposn (j : nat) : R := (IZR (Z.of_nat j) - o) / IZR (Z.of_nat g).
Definition Pn (n : nat) : list R := map posn (seq 0 n).
Definition Hn (n : nat) : list R := map hposn (seq 0 n).

Lemma IZR_g_pos : 0 < IZR (Z.of_nat g).
Proof. apply IZR_lt. lia. Qed.

Lemma posn_shift a k : posn (a + k) = posn k + IZR (Z.of_nat a).
Proof. unfold posn. rewrite Nat2Z.inj_add, plus_IZR. ring. Qed.

Lemma hposn_shift a j : hposn (a * g + j) = hposn j + IZR (Z.of_nat a).
Proof.
  unfold hposn. rewrite Nat2Z.inj_add, Nat2Z.inj_mul, plus_IZR, mult_IZR.
  field. pose proof IZR_g_pos. lra.
Qed.

Lemma posn_lt i j : (i < j)%nat -> posn i < posn j.
Proof. intros. unfold posn. apply Rplus_lt_compat_r. apply IZR_lt. lia. Qed.
Lemma hposn_lt i j : (i < j)%nat -> hposn i < hposn j.
Proof.
  intros. unfold hposn. apply Rmult_lt_compat_r; [apply Rinv_0_lt_compat, IZR_g_pos|].
  apply Rplus_lt_compat_r. apply IZR_lt. lia.
Qed.

Lemma nth_Pn n i : (i < n)%nat -> nth i (Pn n) 0 = posn i.
Proof. intros. unfold Pn. rewrite (nth_map' posn (seq 0 n) i 0%nat) by (now rewrite seq_length). now rewrite seq_nth. Qed.
Lemma nth_Hn n i : (i < n)%nat -> nth i (Hn n) 0 = hposn i.
Proof. intros. unfold Hn. rewrite (nth_map' hposn (seq 0 n) i 0%nat) by (now rewrite seq_length). now rewrite seq_nth. Qed.
Lemma Pn_length n : length (Pn n) = n.
Proof. unfold Pn. now rewrite map_length, seq_length. Qed.
Lemma Hn_length n : length (Hn n) = n.
Proof. unfold Hn. now rewrite map_length, seq_length. Qed.

Lemma window_Pn n c lo hi :
  (c * m <= n)%nat -> lo = IZR (Z.of_nat (c * m)) -> hi = IZR (Z.of_nat (c * m + m)) ->
  window (Pn n) lo hi = seq (c * m) (Nat.min m (n - c * m)).
Proof.
  intros Hc -> ->. unfold window. rewrite Pn_length. apply filter_seq_interval; [lia|].
  intros i Hi. rt. rewrite nth_Pn by exact Hi. unfold posn.
  assert (E1 : Rleb (IZR (Z.of_nat (c * m))) (IZR (Z.of_nat i) + delta) = (c * m <=? i)%nat).
  { destruct (Nat.leb_spec (c * m) i).
    - apply Rleb_true. assert (IZR (Z.of_nat (c * m)) <= IZR (Z.of_nat i)) by (apply IZR_le; lia). lra.
    - apply Rleb_false. assert (IZR (Z.of_nat i) + 1 <= IZR (Z.of_nat (c * m))); [|lra].
      rewrite <- plus_IZR. apply IZR_le. lia. }
  assert (E2 : Rltb (IZR (Z.of_nat i) + delta) (IZR (Z.of_nat (c * m + m))) = (i <? c * m + m)%nat).
  { destruct (Nat.ltb_spec i (c * m + m)).
    - apply Rltb_true. assert (IZR (Z.of_nat i) + 1 <= IZR (Z.of_nat (c * m + m))); [|lra].
      rewrite <- plus_IZR. apply IZR_le. lia.
    - apply Rltb_false. assert (IZR (Z.of_nat (c * m + m)) <= IZR (Z.of_nat i)) by (apply IZR_le; lia). lra. }
  rewrite E1, E2.
  destruct (Nat.leb_spec (c * m) i); simpl; [|reflexivity].
  destruct (Nat.ltb_spec i (c * m + m)), (Nat.ltb_spec i (c * m + Nat.min m (n - c * m))); auto; lia.
Qed.

(** one block of [m] tie rows with its border rows *)
Definition fill1 (b : list (list R)) : list (list R) :=
  map2 (lin_at (posn 0) (posn 1) (hposn 0)) (nth 0 b []) (nth 1 b [])
  :: b ++ [map2 (lin_at (posn (m - 2)) (posn (m - 1)) (hposn (g * m - 1))) (nth (m - 2) b []) (nth (m - 1) b [])].

(** row positions of the first block *)
Definition P0 : list R := hposn 0 :: Pn m ++ [hposn (g * m - 1)].
Definition shift (t : R) (l : list R) : list R := map (fun x => x + t) l.

Lemma extrapolate_rows_eq b t :
  length b = m ->
  extrapolate_rows b (shift t (Pn m)) (hposn 0 + t) (hposn (g * m - 1) + t) = Ok (fill1 b).
Proof.
  intros Hb. unfold extrapolate_rows.
  destruct b as [|b0 [|b1 b']] eqn:Eb; [simpl in Hb; lia|simpl in Hb; lia|].
  rewrite <- Eb in *.
  rewrite (nth_res_Ok b 0 []) by lia. cbn [bind].
  rewrite (nth_res_Ok b 1 []) by lia. cbn [bind].
  assert (Ls : length (shift t (Pn m)) = m) by (unfold shift; now rewrite map_length, Pn_length).
  rewrite (first2_eq _ 0) by lia. cbn [linear_extrapolate bind].
  rewrite (nth_res_Ok b (Z.of_nat (length b) - 2) []) by lia. cbn [bind].
  rewrite (nth_res_Ok b (Z.of_nat (length b) - 1) []) by lia. cbn [bind].
  rewrite (last2_eq _ 0) by lia. cbn [linear_extrapolate bind]. unfold fill1.
  assert (G : forall i, (i < m)%nat -> nth i (shift t (Pn m)) 0 = posn i + t).
  { intros i Hi. unfold shift. rewrite (nth_map' _ (Pn m) i 0) by (now rewrite Pn_length). now rewrite nth_Pn. }
  rewrite Ls, !G by lia.
  replace (Z.to_nat (Z.of_nat (length b) - 2)) with (m - 2)%nat by lia.
  replace (Z.to_nat (Z.of_nat (length b) - 1)) with (m - 1)%nat by lia.
  change (Z.to_nat 0) with 0%nat. change (Z.to_nat 1) with 1%nat.
  f_equal. f_equal; [|f_equal; f_equal]; apply map2_ext; intros; apply lin_at_shift.
Qed.

Section State.
Variables (cols hcols : list R) (ky : Z) (nd : list (mat R)).

Definition st0 (n : nat) (ties : list (mat R)) : istate R :=
  mkI (Pn n) cols (Hn (g * n)) hcols (Z.of_nat (g * m)) ties 1 ky nd.

Lemma chunk_bounds n c : (1 <= n)%nat ->
  let factor := IZR (Z.of_nat (g * n)) / IZR (Z.of_nat n) in
  IZR (Z.of_nat (g * m) * Z.of_nat c) / factor = IZR (Z.of_nat (c * m)) /\
  IZR (Z.of_nat (g * m) * Z.of_nat c + Z.of_nat (g * m)) / factor = IZR (Z.of_nat (c * m + m)).
Proof.
  intros Hn1 factor. assert (0 < IZR (Z.of_nat n)) by (apply IZR_lt; lia). pose proof IZR_g_pos.
  assert (F : factor = IZR (Z.of_nat g)).
  { unfold factor. rewrite Nat2Z.inj_mul, mult_IZR. field. lra. }
  rewrite F. rewrite !Nat2Z.inj_add, !Nat2Z.inj_mul, !plus_IZR, !mult_IZR.
  split; field; lra.
Qed.

Lemma fill_chunk_whole n c ties :
  (1 <= n)%nat -> ((c + 1) * m <= n)%nat -> Forall (fun d => length d = n) ties ->
  fill_chunk (st0 n ties) (Z.of_nat (g * m)) (IZR (Z.of_nat (g * n)) / IZR (Z.of_nat n))
             (Z.of_nat (g * m) * Z.of_nat c)
  = Ok (map (fun d => fill1 (firstn m (skipn (c * m) d))) ties, shift (IZR (Z.of_nat (c * m))) P0).
Proof.
  intros Hn1 Hc Hd. unfold fill_chunk.
  destruct (chunk_bounds n c Hn1) as [B1 B2]. cbv zeta in B1, B2.
  change (row_indices (st0 n ties)) with (Pn n). change (tie_data (st0 n ties)) with ties.
  change (hrow_indices (st0 n ties)) with (Hn (g * n)).
  rt. rewrite (window_Pn n c) by (auto; lia).
  replace (Nat.min m (n - c * m)) with m by nia.
  set (t := IZR (Z.of_nat (c * m))).
  assert (TP : map (fun i => nth i (Pn n) 0) (seq (c * m) m) = shift t (Pn m)).
  { unfold shift, Pn at 2. rewrite map_map, (seq_map_shift (c * m) m), map_map.
    apply map_ext_in. intros i Hi. apply in_seq in Hi. rewrite nth_Pn by nia. apply posn_shift. }
  rewrite TP.
  assert (H0 : nth_res (Hn (g * n)) (Z.of_nat (g * m) * Z.of_nat c) = Ok (hposn 0 + t)).
  { rewrite (nth_res_Ok _ _ 0) by (rewrite Hn_length; nia). f_equal.
    rewrite nth_Hn by nia. unfold t. rewrite <- (hposn_shift (c * m) 0). f_equal. nia. }
  assert (H1 : nth_res (Hn (g * n)) (Z.of_nat (g * m) * Z.of_nat c + Z.of_nat (g * m) - 1)
               = Ok (hposn (g * m - 1) + t)).
  { rewrite (nth_res_Ok _ _ 0) by (rewrite Hn_length; nia). f_equal.
    rewrite nth_Hn by nia. unfold t. rewrite <- (hposn_shift (c * m) (g * m - 1)). f_equal. nia. }
  rewrite H0, H1. cbn [bind].
  rewrite (mapM_Ok_map _ (fun d => fill1 (firstn m (skipn (c * m) d)))).
  - cbn [bind]. f_equal. f_equal. unfold P0, shift. cbn [map]. rewrite map_app. reflexivity.
  - intros d Hd'. rewrite Forall_forall in Hd. specialize (Hd d Hd').
    rewrite mapM_nth_seq by nia. cbn [bind].
    destruct (seq (c * m) m) eqn:Es.
    { apply (f_equal (@length nat)) in Es. rewrite seq_length in Es. simpl in Es. lia. }
    apply extrapolate_rows_eq. rewrite firstn_length, skipn_length. rewrite Nat.min_l; [reflexivity|]. nia.
Qed.

(** a trailing incomplete block *)
Lemma fill_chunk_partial n c ties :
  (1 <= n)%nat -> (c * m < n)%nat -> (n < (c + 1) * m)%nat -> Forall (fun d => length d = n) ties ->
  fill_chunk (st0 n ties) (Z.of_nat (g * m)) (IZR (Z.of_nat (g * n)) / IZR (Z.of_nat n))
             (Z.of_nat (g * m) * Z.of_nat c)
  = Err IndexError.
Proof.
  intros Hn1 Hc Hc2 Hd. unfold fill_chunk.
  destruct (chunk_bounds n c Hn1) as [B1 B2]. cbv zeta in B1, B2.
  change (row_indices (st0 n ties)) with (Pn n). change (tie_data (st0 n ties)) with ties.
  change (hrow_indices (st0 n ties)) with (Hn (g * n)).
  rt. rewrite (window_Pn n c) by (auto; lia).
  replace (Nat.min m (n - c * m)) with (n - c * m)%nat by nia.
  assert (H1 : nth_res (Hn (g * n)) (Z.of_nat (g * m) * Z.of_nat c + Z.of_nat (g * m) - 1) = Err IndexError).
  { apply nth_res_Err. rewrite Hn_length. nia. }
  assert (H0 : exists h, nth_res (Hn (g * n)) (Z.of_nat (g * m) * Z.of_nat c) = Ok h).
  { eexists. apply (nth_res_Ok _ _ 0). rewrite Hn_length. nia. }
  destruct H0 as [h H0]. rewrite H0, H1. cbn [bind].
  destruct ties as [|d ties]; [reflexivity|].
  cbn [mapM]. rewrite Forall_forall in Hd.
  rewrite mapM_nth_seq by (rewrite (Hd d) by (now left); nia). cbn [bind].
  destruct (seq (c * m) (n - c * m)) eqn:Es; [|reflexivity].
  apply (f_equal (@length nat)) in Es. rewrite seq_length in Es. simpl in Es. nia.
Qed.

Lemma py_range_chunks n k : (1 <= n)%nat -> k = ((n + m - 1) / m)%nat ->
  py_range 0 (Z.of_nat (g * n)) (Z.of_nat (g * m)) =
  Ok (map (fun c => (Z.of_nat (g * m) * Z.of_nat c)%Z) (seq 0 k)).
Proof.
  intros Hn1 ->. unfold py_range. destruct (Z.eqb_spec (Z.of_nat (g * m)) 0); [nia|].
  f_equal.
  replace ((Z.of_nat (g * n) - 0 + Z.of_nat (g * m) - 1) / Z.of_nat (g * m))%Z
    with (Z.of_nat ((n + m - 1) / m)).
  - rewrite range0_map_of_nat, map_map. apply map_ext. intros; lia.
  - pose proof (Nat.div_mod (n + m - 1) m ltac:(lia)) as E.
    pose proof (Nat.mod_upper_bound (n + m - 1) m ltac:(lia)) as U.
    set (q := ((n + m - 1) / m)%nat) in *. set (r := ((n + m - 1) mod m)%nat) in *.
    apply Z.div_unique with (r := (Z.of_nat (g * r) + Z.of_nat g - 1)%Z); [nia|].
    assert (Z.of_nat (g * n) + Z.of_nat (g * m) - 1 = Z.of_nat g * Z.of_nat (n + m - 1) + Z.of_nat g - 1)%Z by nia.
    rewrite E in H. nia.
Qed.

Definition filled (k : nat) (d : mat R) : mat R :=
  concat (map (fun c => fill1 (firstn m (skipn (c * m) d))) (seq 0 k)).
Definition Pfilled (k : nat) : list R := concat (map (fun c => shift (IZR (Z.of_nat (c * m))) P0) (seq 0 k)).

Lemma filled_ne k d : (1 <= k)%nat -> filled k d <> [].
Proof. intros Hk. unfold filled. destruct k; [lia|]. simpl. discriminate. Qed.

Lemma mapM_map {A B C} (f : B -> res C) (h : A -> B) l : mapM f (map h l) = mapM (fun a => f (h a)) l.
Proof. induction l; simpl; [reflexivity|]. now rewrite IHl. Qed.

Lemma nth_map_in {A B} (f : A -> B) l n d (x : A) : nth_error l n = Some x -> nth n (map f l) d = f x.
Proof. revert n; induction l; intros [|n] H; simpl in *; try discriminate; [congruence|auto]. Qed.

Lemma mapM_seq_nth' {A B} (f : A -> B) (l : list A) (h : nat -> res B) :
  (forall i a, nth_error l i = Some a -> h i = Ok (f a)) -> mapM h (seq 0 (length l)) = Ok (map f l).
Proof.
  intros H. rewrite (mapM_seq_nth (fun a => Ok (f a)) l h).
  - apply mapM_Ok_map. reflexivity.
  - intros i a Ha. now apply H.
Qed.

Lemma fill_row_borders_whole k ties :
  (1 <= k)%nat -> Forall (fun d => length d = (k * m)%nat) ties ->
  fill_row_borders (st0 (k * m) ties) =
  Ok (mkI (Pfilled k) cols (Hn (g * (k * m))) hcols (Z.of_nat (g * m)) (map (filled k) ties) 1 ky nd).
Proof.
  intros Hk Hd. unfold fill_row_borders.
  change (hrow_indices (st0 (k * m) ties)) with (Hn (g * (k * m))).
  change (row_indices (st0 (k * m) ties)) with (Pn (k * m)).
  change (chunk_size (st0 (k * m) ties)) with (Z.of_nat (g * m)).
  change (tie_data (st0 (k * m) ties)) with ties.
  destruct (Z.eqb_spec (Z.of_nat (g * m)) 0); [nia|].
  rewrite Hn_length, Pn_length.
  destruct (Pn (k * m)) as [|p0 pt] eqn:EP.
  { apply (f_equal (@length R)) in EP. rewrite Pn_length in EP. simpl in EP. nia. }
  cbn [bind].
  rewrite (py_range_chunks (k * m) k); [| nia |].
  2:{ apply (Nat.div_unique _ _ _ (m - 1)); nia. }
  cbn [bind]. rewrite mapM_map.
  rewrite (mapM_Ok_map _ (fun c => (map (fun d => fill1 (firstn m (skipn (c * m) d))) ties,
                                    shift (IZR (Z.of_nat (c * m))) P0))).
  2:{ intros c Hc. apply in_seq in Hc. rt. apply fill_chunk_whole; [nia|nia|exact Hd]. }
  cbn [bind].
  rewrite (mapM_seq_nth' (filled k) ties).
  - cbn [bind]. f_equal. f_equal. unfold Pfilled. rewrite map_map. reflexivity.
  - intros i d Hi. rewrite map_map. cbn [fst].
    rewrite (map_ext _ (fun c => fill1 (firstn m (skipn (c * m) d)))).
    + unfold vstack_blocks. change (match filled k d with [] => Err ValueError | l => Ok l end = Ok (filled k d)). destruct (filled k d) eqn:E; [|reflexivity].
      exfalso. now apply (filled_ne k d Hk).
    + intros c. apply (nth_map_in (fun d => fill1 (firstn m (skipn (c * m) d)))). exact Hi.
Qed.

Lemma mapM_err_at {A B} (f : A -> res B) (h : A -> B) l1 x l2 e :
  (forall a, In a l1 -> f a = Ok (h a)) -> f x = Err e -> mapM f (l1 ++ x :: l2) = Err e.
Proof.
  intros H Hx. rewrite mapM_app, (mapM_Ok_map _ h) by exact H. cbn [bind mapM]. rewrite Hx. reflexivity.
Qed.

Lemma fill_row_borders_partial n ties :
  (1 <= n)%nat -> (n mod m <> 0)%nat -> Forall (fun d => length d = n) ties ->
  fill_row_borders (st0 n ties) = Err IndexError.
Proof.
  intros Hn1 Hmod Hd. unfold fill_row_borders.
  change (hrow_indices (st0 n ties)) with (Hn (g * n)).
  change (row_indices (st0 n ties)) with (Pn n).
  change (chunk_size (st0 n ties)) with (Z.of_nat (g * m)).
  change (tie_data (st0 n ties)) with ties.
  destruct (Z.eqb_spec (Z.of_nat (g * m)) 0); [nia|].
  rewrite Hn_length, Pn_length.
  destruct (Pn n) as [|p0 pt] eqn:EP.
  { apply (f_equal (@length R)) in EP. rewrite Pn_length in EP. simpl in EP. lia. }
  cbn [bind].
  pose proof (Nat.div_mod n m ltac:(lia)) as E. pose proof (Nat.mod_upper_bound n m ltac:(lia)) as U.
  set (q := (n / m)%nat) in *. set (r := (n mod m)%nat) in *.
  rewrite (py_range_chunks n (S q)); [| lia |].
  2:{ apply (Nat.div_unique _ _ _ (r - 1)); nia. }
  cbn [bind]. rewrite mapM_map.
  replace (S q) with (q + 1)%nat by lia. rewrite seq_app. cbn [seq Nat.add].
  rewrite (mapM_err_at _ (fun c => (map (fun d => fill1 (firstn m (skipn (c * m) d))) ties,
                                    shift (IZR (Z.of_nat (c * m))) P0)) _ q [] IndexError); [reflexivity| |].
  - intros c Hc. apply in_seq in Hc. rt. apply fill_chunk_whole; [lia|nia|exact Hd].
  - rt. apply fill_chunk_partial; [lia|nia|nia|exact Hd].
Qed.

Lemma fill_row_borders_empty ties : fill_row_borders (st0 0 ties) = Err ZeroDivisionError.
Proof. reflexivity. Qed.

(** ** interpolation of the filled blocks *)
Hypothesis Hfirst : hposn 0 < posn 0.
Hypothesis Hlast : posn (m - 1) < hposn (g * m - 1).

Lemma Pn_ne : Pn m <> [].
Proof. intros E. apply (f_equal (@length R)) in E. rewrite Pn_length in E. simpl in E. lia. Qed.

Lemma P0_length : length P0 = (m + 2)%nat.
Proof. unfold P0. cbn [length]. rewrite app_length, Pn_length. simpl. lia. Qed.

Lemma nth_P0 i : (i < m)%nat -> nth (S i) P0 0 = posn i.
Proof. intros H. unfold P0. cbn [nth]. rewrite app_nth1 by (now rewrite Pn_length). now apply nth_Pn. Qed.

Lemma last_P0 : last P0 0 = hposn (g * m - 1).
Proof. unfold P0. rewrite app_comm_cons. apply last_last. Qed.

Lemma strict_inc_Pn n : strict_inc (Pn n) = true.
Proof.
  apply strict_inc_step. rewrite Pn_length. intros i Hi. rewrite !nth_Pn by lia. apply posn_lt. lia.
Qed.

Lemma strict_inc_Hn n : strict_inc (Hn n) = true.
Proof.
  apply strict_inc_step. rewrite Hn_length. intros i Hi. rewrite !nth_Hn by lia. apply hposn_lt. lia.
Qed.

Lemma strict_inc_P0 : strict_inc P0 = true.
Proof.
  unfold P0. change (hposn 0 :: Pn m ++ [hposn (g * m - 1)]) with ([hposn 0] ++ (Pn m ++ [hposn (g * m - 1)])).
  apply strict_inc_app; [reflexivity| |].
  - apply strict_inc_app; [apply strict_inc_Pn|reflexivity|]. intros _ _.
    rewrite last_nth, Pn_length, nth_Pn by lia. exact Hlast.
  - intros _ _. cbn [last]. rewrite hd_nth, app_nth1 by (rewrite Pn_length; lia). rewrite nth_Pn by lia. exact Hfirst.
Qed.

Definition Pfrom (a k : nat) : list R :=
  concat (map (fun c => shift (IZR (Z.of_nat (c * m))) P0) (seq a k)).

Lemma shift_last t l : l <> [] -> last (shift t l) 0 = last l 0 + t.
Proof.
  intros H. unfold shift. rewrite !last_nth, map_length. apply (nth_map' (fun x => x + t)).
  destruct l; [congruence|cbn [length]; lia].
Qed.
Lemma shift_hd t l : l <> [] -> hd 0 (shift t l) = hd 0 l + t.
Proof. destruct l; [congruence|reflexivity]. Qed.
Lemma P0_ne : P0 <> [].
Proof. discriminate. Qed.

Lemma Pfrom_S a k : Pfrom a (S k) = shift (IZR (Z.of_nat (a * m))) P0 ++ Pfrom (S a) k.
Proof. reflexivity. Qed.

Lemma strict_inc_Pfrom k : forall a, strict_inc (Pfrom a k) = true.
Proof.
  induction k as [|k IH]; intros a; [reflexivity|]. rewrite Pfrom_S. apply strict_inc_app.
  - unfold shift. rewrite strict_inc_shift. apply strict_inc_P0.
  - apply IH.
  - intros _ Hne. rewrite shift_last, last_P0 by apply P0_ne.
    destruct k as [|k]; [exfalso; now apply Hne|]. rewrite Pfrom_S.
    replace (hd 0 (shift (IZR (Z.of_nat (S a * m))) P0 ++ Pfrom (S (S a)) k))
      with (hd 0 (shift (IZR (Z.of_nat (S a * m))) P0)) by reflexivity.
    rewrite shift_hd by apply P0_ne. cbn [hd P0].
    rewrite <- !hposn_shift. apply hposn_lt. nia.
Qed.

Lemma Pfrom_app a j k : Pfrom a (j + k) = Pfrom a j ++ Pfrom (a + j) k.
Proof. unfold Pfrom. now rewrite seq_app, map_app, concat_app. Qed.

Lemma Pfrom_length a k : length (Pfrom a k) = (k * (m + 2))%nat.
Proof.
  unfold Pfrom. rewrite (concat_length_const _ (m + 2)).
  - now rewrite map_length, seq_length.
  - apply Forall_map, Forall_forall. intros c _. unfold shift. rewrite map_length. apply P0_length.
Qed.

(** values [v c] of block [c] at a position of block [c] *)
Lemma pl_eval_block k c j (v : nat -> list R) :
  (c < k)%nat -> (j < g * m)%nat -> (forall c, length (v c) = (m + 2)%nat) ->
  pl_eval (Pfrom 0 k) (concat (map v (seq 0 k))) (hposn j + IZR (Z.of_nat (c * m)))
  = pl_eval P0 (v c) (hposn j).
Proof.
  intros Hc Hj Hv.
  replace k with (c + (1 + (k - c - 1)))%nat by lia.
  rewrite !Pfrom_app, !seq_app, !map_app, !concat_app.
  assert (L : forall a n, length (concat (map v (seq a n))) = (n * (m + 2))%nat).
  { intros a n. rewrite (concat_length_const _ (m + 2)); [now rewrite map_length, seq_length|].
    apply Forall_map, Forall_forall. intros; apply Hv. }
  assert (E1 : Pfrom (0 + c) 1 = shift (IZR (Z.of_nat (c * m))) P0).
  { rewrite Pfrom_S. change (Pfrom (S (0 + c)) 0) with (@nil R). apply app_nil_r. }
  rewrite pl_eval_middle.
  - rewrite E1. cbn [seq map concat Nat.add]. rewrite app_nil_r.
    unfold shift. apply pl_eval_shift. apply P0_ne.
  - rewrite <- !Pfrom_app. apply strict_inc_Pfrom.
  - now rewrite L, Pfrom_length.
  - now rewrite L, Pfrom_length.
  - now rewrite L, Pfrom_length.
  - apply strict_inc_Pfrom.
  - rewrite Pfrom_length. lia.
  - rewrite E1, shift_hd, shift_last, last_P0 by apply P0_ne. cbn [hd P0].
    assert (hposn 0 <= hposn j) by (destruct j; [lra|left; apply hposn_lt; lia]).
    assert (hposn j <= hposn (g * m - 1)).
    { destruct (Nat.eq_dec j (g * m - 1)) as [->|]; [lra|left; apply hposn_lt; lia]. }
    lra.
Qed.

Lemma Hn_blocks k : Hn (g * (k * m)) =
  concat (map (fun c => map (fun j => hposn j + IZR (Z.of_nat (c * m))) (seq 0 (g * m))) (seq 0 k)).
Proof.
  replace (g * (k * m))%nat with (k * (g * m))%nat by nia. unfold Hn.
  assert (G : forall a, map hposn (seq (a * (g * m)) (k * (g * m))) =
     concat (map (fun c => map (fun j => hposn j + IZR (Z.of_nat (c * m))) (seq 0 (g * m))) (seq a k))).
  { induction k as [|k IH]; intros a; [reflexivity|].
    cbn [Nat.mul]. rewrite seq_app, map_app. cbn [seq map concat]. f_equal.
    - rewrite seq_map_shift, map_map. apply map_ext. intros j. rewrite <- hposn_shift. f_equal. nia.
    - rewrite <- IH. f_equal. f_equal. nia. }
  apply (G 0%nat).
Qed.

Variable spl1 spl2 : list R -> list R -> Z -> R -> R.
Hypothesis Hgm : (g * m <> m + 2)%nat.

(** what the interpolation makes of one scan: [b] has [m] rows *)
Definition scan_result (b : mat R) : mat R :=
  let ys := ext_cols cols hcols in
  let z := map (ext_row cols hcols) (fill1 b) in
  map (fun j => map (fun y => pl_eval P0 (map (fun r => axis_spline spl2 ys r ky y) z) (hposn j)) hcols)
      (seq 0 (g * m)).

Definition blocks_of (k : nat) (d : mat R) : list (mat R) :=
  map (fun c => firstn m (skipn (c * m) d)) (seq 0 k).

Lemma array_equal_length (l1 l2 : list R) : array_equal l1 l2 = true -> length l1 = length l2.
Proof.
  revert l2; induction l1 as [|a l1 IH]; intros [|b l2] H; simpl in *; try discriminate; auto.
  apply andb_true_iff in H. f_equal. now apply IH.
Qed.

Hypothesis Hcols2 : (2 <= length cols)%nat.
Hypothesis Hhcols : hcols <> [].
Hypothesis Hcinc : strict_inc (ext_cols cols hcols) = true.
Hypothesis Hhinc : weak_inc hcols = true.
Hypothesis Hky : (1 <= ky <= 5)%Z /\ (ky < Z.of_nat (length (ext_cols cols hcols)))%Z.

Lemma ext_row_length r : length r = length cols -> length (ext_row cols hcols r) = length (ext_cols cols hcols).
Proof.
  intros H. unfold ext_row, ext_cols. rewrite !app_length, H.
  destruct (need_first cols hcols), (need_last cols hcols); reflexivity.
Qed.

Lemma fill1_length b : length b = m -> length (fill1 b) = (m + 2)%nat.
Proof. intros H. unfold fill1. cbn [length]. rewrite app_length, H. simpl. lia. Qed.

Lemma fill1_rows b w : length b = m -> Forall (fun r => length r = w) b -> Forall (fun r => length r = w) (fill1 b).
Proof.
  intros Hb H. rewrite Forall_forall in H.
  assert (G : forall i, (i < m)%nat -> length (nth i b []) = w) by (intros i Hi; apply H, nth_In; lia).
  unfold fill1. constructor.
  - rewrite map2_length, !G by lia. apply Nat.min_id.
  - apply Forall_app. split; [now apply Forall_forall|]. constructor; [|constructor].
    rewrite map2_length, !G by lia. apply Nat.min_id.
Qed.

Lemma block_shape k d c w : length d = (k * m)%nat -> Forall (fun r => length r = w) d -> (c < k)%nat ->
  length (firstn m (skipn (c * m) d)) = m /\ Forall (fun r : list R => length r = w) (firstn m (skipn (c * m) d)).
Proof.
  intros Hl Hd Hc. split.
  - rewrite firstn_length, skipn_length. rewrite Nat.min_l; [reflexivity|]. nia.
  - rewrite Forall_forall in *. intros r Hr. apply Hd.
    rewrite <- (firstn_skipn (c * m) d). apply in_or_app. right.
    rewrite <- (firstn_skipn m (skipn (c * m) d)). apply in_or_app. now left.
Qed.

Lemma interp_filled k nd' ties d :
  (1 <= k)%nat -> length d = (k * m)%nat -> Forall (fun r => length r = length cols) d ->
  interp_one spl1 spl2
    (mkI (Pfrom 0 k) (ext_cols cols hcols) (Hn (g * (k * m))) hcols (Z.of_nat (g * m)) ties 1 ky nd')
    (map (ext_row cols hcols) (filled k d))
  = Ok (concat (map scan_result (blocks_of k d))).
Proof.
  intros Hk Hd Hw. unfold interp_one. cbn [hrow_indices row_indices].
  destruct (array_equal (Hn (g * (k * m))) (Pfrom 0 k)) eqn:E.
  { apply array_equal_length in E. rewrite Hn_length, Pfrom_length in E. exfalso. apply Hgm. nia. }
  unfold interp2d_one. cbn [hrow_indices row_indices col_indices hcol_indices kx_ ky_].
  unfold rect_bivariate. rewrite strict_inc_Pfrom, Hcinc. cbn [negb].
  assert (Hbl : forall c, In c (seq 0 k) -> length (fill1 (firstn m (skipn (c * m) d))) = (m + 2)%nat).
  { intros c Hc. apply in_seq in Hc. apply fill1_length. apply (block_shape k d c _ Hd Hw). lia. }
  assert (L : length (map (ext_row cols hcols) (filled k d)) = (k * (m + 2))%nat).
  { rewrite map_length. unfold filled. rewrite (concat_length_const _ (m + 2)).
    - now rewrite map_length, seq_length.
    - apply Forall_map, Forall_forall. exact Hbl. }
  rewrite L, Pfrom_length, Nat.eqb_refl. cbn [negb].
  assert (RR : forallb (fun r => Nat.eqb (length (ext_cols cols hcols)) (length r))
                      (map (ext_row cols hcols) (filled k d)) = true).
  { apply forallb_forall. intros r Hr. apply in_map_iff in Hr. destruct Hr as [r0 [<- Hr]].
    apply Nat.eqb_eq. symmetry. apply ext_row_length.
    unfold filled in Hr. apply in_concat in Hr. destruct Hr as [blk [Hb Hr]].
    apply in_map_iff in Hb. destruct Hb as [c [<- Hc]]. apply in_seq in Hc.
    assert (Hc' : (c < k)%nat) by lia. destruct (block_shape k d c _ Hd Hw Hc') as [B1 B2].
    pose proof (fill1_rows _ _ B1 B2) as Hf. rewrite Forall_forall in Hf. now apply Hf. }
  rewrite RR. cbn [negb].
  destruct Hky as [[Hk1 Hk5] Hkl].
  replace ((1 <=? 1) && (1 <=? 5) && (1 <=? ky) && (ky <=? 5))%Z with true.
  2:{ symmetry. cbn. apply andb_true_iff. split; now apply Z.leb_le. }
  cbn [negb].
  replace ((1 <? Z.of_nat (k * (m + 2))) && (ky <? Z.of_nat (length (ext_cols cols hcols))))%Z with true.
  2:{ symmetry. apply andb_true_iff. split; apply Z.ltb_lt; [nia|exact Hkl]. }
  cbn [negb].
  rewrite (strict_inc_weak _ (strict_inc_Hn _)), Hhinc. cbn [negb andb]. f_equal.
  rewrite Hn_blocks, concat_map. f_equal. rewrite map_map. unfold blocks_of. rewrite map_map.
  apply map_ext_in. intros c Hc. rewrite map_map. unfold scan_result. apply map_ext_in. intros j Hj.
  apply in_seq in Hj. apply map_ext. intros y. unfold axis_spline at 1. cbn [Z.eqb Pos.eqb].
  unfold filled. rewrite concat_map, map_map, concat_map, map_map.
  set (v := fun x : nat => map (fun r : list R => axis_spline spl2 (ext_cols cols hcols) r ky y)
           (map (ext_row cols hcols) (fill1 (firstn m (skipn (x * m) d))))).
  (* pad the blocks outside the range so that they all have the right length *)
  set (v' := fun x : nat => if (x <? k)%nat then v x else repeat 0 (m + 2)).
  rewrite (map_ext_in v v').
  2:{ intros x Hx. apply in_seq in Hx. unfold v'. destruct (Nat.ltb_spec x k); [reflexivity|lia]. }
  apply in_seq in Hc.
  rewrite (pl_eval_block k c j v').
  - unfold v'. destruct (Nat.ltb_spec c k); [reflexivity|lia].
  - lia.
  - lia.
  - intros x. unfold v'. destruct (Nat.ltb_spec x k); [|apply repeat_length].
    unfold v. rewrite !map_length. apply Hbl. apply in_seq. lia.
Qed.

Lemma interp_loop_all st (f : mat R -> mat R) data nd' :
  (forall d, In d data -> interp_one spl1 spl2 st d = Ok (f d)) ->
  length nd' = length data ->
  interp_loop spl1 spl2 st data nd' = (Ok tt, map f data).
Proof.
  revert nd'; induction data as [|d data IH]; intros nd' H L.
  - destruct nd'; [reflexivity|discriminate].
  - cbn [interp_loop]. rewrite H by now left.
    rewrite IH; [reflexivity| |destruct nd'; simpl in *; [discriminate|lia]].
    intros d' Hd'. apply H. now right.
Qed.

Theorem fill_then_interpolate_blocks k ties :
  (1 <= k)%nat -> length nd = length ties ->
  Forall (fun d => length d = (k * m)%nat) ties ->
  Forall (Forall (fun r => length r = length cols)) ties ->
  match fill_borders [DimY; DimX] (st0 (k * m) ties) with
  | (Err e, _) => Err e
  | (Ok _, st') => fst (interpolate spl1 spl2 st')
  end = Ok (map (fun d => concat (map scan_result (blocks_of k d))) ties).
Proof.
  intros Hk Hnd Hd Hw. unfold fill_borders. cbn [resolve bind run_dims run_dim].
  rewrite fill_row_borders_whole by assumption.
  rewrite fill_col_borders_eq; cbn [col_indices hcol_indices tie_data row_indices hrow_indices chunk_size kx_ ky_ new_data];
    [|exact Hcols2|exact Hhcols|].
  2:{ apply Forall_map, Forall_forall. intros d Hi. rewrite Forall_forall in Hd, Hw.
      specialize (Hd d Hi). specialize (Hw d Hi). apply Forall_forall. intros r Hr.
      unfold filled in Hr. apply in_concat in Hr. destruct Hr as [blk [Hb Hr]].
      apply in_map_iff in Hb. destruct Hb as [c [<- Hc]]. apply in_seq in Hc.
      assert (Hc' : (c < k)%nat) by lia. destruct (block_shape k d c _ Hd Hw Hc') as [B1 B2].
      pose proof (fill1_rows _ _ B1 B2) as Hf. rewrite Forall_forall in Hf. rewrite (Hf r Hr). exact Hcols2. }
  unfold interpolate. cbn [tie_data new_data].
  match goal with |- context [interp_loop _ _ ?s ?dd ?n0] => set (st := s); set (data := dd) end.
  assert (G : interp_loop spl1 spl2 st data nd =
              (Ok tt, map (fun d => concat (map scan_result (blocks_of k d))) ties)).
  { unfold data. clear data. rewrite map_map.
    assert (Hi : forall d, In d ties -> interp_one spl1 spl2 st (map (ext_row cols hcols) (filled k d)) =
                 Ok (concat (map scan_result (blocks_of k d)))).
    { intros d Hi. rewrite Forall_forall in Hd, Hw. unfold st. apply interp_filled; auto. }
    clearbody st. revert nd Hnd Hi. clear Hd Hw. induction ties as [|d t IH]; intros n0 L Hi.
    - destruct n0; [reflexivity|discriminate].
    - cbn [map interp_loop]. rewrite Hi by now left. rewrite IH; [reflexivity| |].
      + destruct n0; simpl in *; [discriminate|lia].
      + intros d' Hd'. apply Hi. now right. }
  rewrite G. reflexivity.
Qed.

Theorem fill_then_interpolate_not_whole n ties :
  (n mod m <> 0)%nat -> Forall (fun d => length d = n) ties ->
  match fill_borders [DimY; DimX] (st0 n ties) with
  | (Err e, _) => Err e
  | (Ok _, st') => fst (interpolate spl1 spl2 st')
  end = Err IndexError.
Proof.
  intros Hn0 Hd. unfold fill_borders. cbn [resolve bind run_dims run_dim].
  rewrite fill_row_borders_partial; auto. destruct n; [|lia]. rewrite Nat.mod_0_l in Hn0; lia.
Qed.

Theorem fill_then_interpolate_empty ties :
  match fill_borders [DimY; DimX] (st0 0 ties) with
  | (Err e, _) => Err e
  | (Ok _, st') => fst (interpolate spl1 spl2 st')
  end = Err ZeroDivisionError.
Proof. reflexivity. Qed.

Lemma scan_result_shape b : length (scan_result b) = (g * m)%nat /\ Forall (fun r => length r = length hcols) (scan_result b).
Proof.
  unfold scan_result. split; [now rewrite map_length, seq_length|].
  apply Forall_map, Forall_forall. intros j _. now rewrite map_length.
Qed.

(** a target row that coincides with a tie row carries the row interpolation of that tie row *)
Lemma scan_result_at_tie b i j :
  length b = m -> (i < m)%nat -> (j < g * m)%nat -> hposn j = posn i ->
  nth j (scan_result b) [] =
  map (fun y => axis_spline spl2 (ext_cols cols hcols) (ext_row cols hcols (nth i b [])) ky y) hcols.
Proof.
  intros Hb Hi Hj E. unfold scan_result.
  rewrite (nth_map' _ _ j 0%nat) by (now rewrite seq_length). rewrite seq_nth by exact Hj. cbn [Nat.add].
  apply map_ext. intros y. rewrite E, <- (nth_P0 i Hi).
  rewrite pl_eval_knot.
  - rewrite map_map. rewrite (nth_map' _ _ (S i) []) by (rewrite fill1_length by exact Hb; lia).
    unfold fill1. cbn [nth]. rewrite app_nth1 by lia. reflexivity.
  - apply strict_inc_P0.
  - rewrite !map_length, fill1_length by exact Hb. now rewrite P0_length.
  - rewrite P0_length. lia.
  - rewrite P0_length. lia.
Qed.

End State.
End Blocks.

Lemma blocks_of_concat {A} m (ds : list (list (list A))) :
  Forall (fun d => length d = m) ds ->
  map (fun c => firstn m (skipn (c * m) (concat ds))) (seq 0 (length ds)) = ds.
Proof.
  intros H. induction H as [|d ds Hd H IH]; [reflexivity|].
  cbn [length seq map concat]. f_equal.
  - cbn [Nat.mul skipn]. subst m. apply firstn_app_exact.
  - rewrite <- seq_shift, map_map. transitivity (map (fun c => firstn m (skipn (c * m) (concat ds))) (seq 0 (length ds))); [|exact IH]. apply map_ext. intros c.
    f_equal. cbn [Nat.mul]. rewrite Nat.add_comm, <- skipn_skipn'. f_equal. subst m. apply skipn_app_exact.
Qed.
