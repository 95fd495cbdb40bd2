From Coq Require Import ZArith List Lia Bool Permutation.
From Verif Require Import Base Splits.
Import ListNotations.
Open Scope Z_scope.
Open Scope res_scope.

(** lines per part, as a closed formula *)
Definition part_scans (L s c : Z) : Z := if L / s <? c then 1 else (L / s) / c.
Definition part_lines (L s c : Z) : Z := part_scans L s c * s.

Lemma part_scans_pos L s c : 0 <= L -> 1 <= s -> 1 <= c -> 1 <= part_scans L s c.
Proof.
  intros HL Hs Hc. unfold part_scans. destruct (Z.ltb_spec (L / s) c); [lia|].
  assert (0 < L / s / c); [|lia]. apply Z.div_str_pos. lia.
Qed.

Lemma part_lines_pos L s c : 0 <= L -> 1 <= s -> 1 <= c -> s <= part_lines L s c.
Proof. intros. pose proof (part_scans_pos L s c). unfold part_lines. nia. Qed.

Lemma get_scene_splits_eq L s c :
  0 <= L -> 1 <= s -> 1 <= c ->
  get_scene_splits L s c =
  Ok (map (fun i => part_lines L s c + part_lines L s c * i)
          (range0 ((L - part_lines L s c + part_lines L s c - 1) / part_lines L s c))).
Proof.
  intros HL Hs Hc. pose proof (part_lines_pos L s c HL Hs Hc) as Hp.
  unfold get_scene_splits, py_floordiv, part_lines, part_scans in *.
  destruct (Z.eqb_spec s 0); [lia|]. cbn [bind].
  destruct (Z.ltb_spec (L / s) c); cbn [bind].
  - unfold py_range. destruct (Z.eqb_spec (1 * s) 0); [lia|reflexivity].
  - destruct (Z.eqb_spec c 0); [lia|]. cbn [bind].
    unfold py_range. destruct (Z.eqb_spec (L / s / c * s) 0); [lia|reflexivity].
Qed.

(** cutting at k, 2k, ..., below the length gives the pieces of k *)
Lemma split_from_pieces {A} (k : Z) n i (l : list A) :
  0 < k -> 0 <= i ->
  (i + Z.of_nat n) * k < Z.of_nat (length l) <= (i + Z.of_nat n + 1) * k ->
  split_from (i * k) (map (fun j => k + k * j) (zrange i n)) l
  = pieces (Z.to_nat k) (skipn (Z.to_nat (i * k)) l).
Proof.
  intros Hk. revert i. induction n as [|n IH]; intros i Hi HL.
  - cbn [zrange map split_from]. unfold slice.
    rewrite pieces_cons; [| lia |].
    + rewrite skipn_skipn'. rewrite !firstn_all2 by (rewrite skipn_length; nia).
      rewrite (skipn_all2 (n := (Z.to_nat k + Z.to_nat (i * k))%nat)) by nia. reflexivity.
    + intros E. apply (f_equal (@length A)) in E. rewrite skipn_length in E. simpl in E. nia.
  - cbn [zrange map split_from]. unfold slice at 1.
    rewrite pieces_cons; [| lia |].
    + replace (k + k * i - i * k) with k by lia. f_equal.
      replace (k + k * i) with ((i + 1) * k) by lia. rewrite IH by lia.
      rewrite skipn_skipn'. f_equal. f_equal. nia.
    + intros E. apply (f_equal (@length A)) in E. rewrite skipn_length in E. simpl in E. nia.
Qed.

Lemma vsplit_pieces {A} (l : list A) s c :
  l <> [] -> 1 <= s -> 1 <= c ->
  exists splits, get_scene_splits (Z.of_nat (length l)) s c = Ok splits /\
    vsplit l splits = pieces (Z.to_nat (part_lines (Z.of_nat (length l)) s c)) l.
Proof.
  intros Hl Hs Hc. set (L := Z.of_nat (length l)).
  assert (HL : 0 < L) by (destruct l; [congruence|unfold L; simpl; lia]).
  rewrite get_scene_splits_eq by lia. eexists; split; [reflexivity|].
  pose proof (part_lines_pos L s c ltac:(lia) Hs Hc) as Hp.
  set (k := part_lines L s c) in *.
  unfold vsplit, range0. replace 0 with (0 * k) at 1 by lia.
  set (m := (L - k + k - 1) / k).
  assert (Hm : m * k <= L - 1 < (m + 1) * k).
  { unfold m. replace (L - k + k - 1) with (L - 1) by lia.
    pose proof (Z.mul_div_le (L - 1) k ltac:(lia)). pose proof (Z.mul_succ_div_gt (L - 1) k ltac:(lia)). lia. }
  assert (0 <= m) by (unfold m; apply Z.div_pos; lia).
  rewrite (split_from_pieces k (Z.to_nat m) 0 l); try lia.
  - rewrite Z.mul_0_l. simpl skipn. reflexivity.
  - fold L. rewrite Z2Nat.id by lia. lia.
Qed.

Lemma vsplit_empty {A} s c : 1 <= s -> 1 <= c ->
  get_scene_splits 0 s c = Ok [] /\ vsplit (@nil A) [] = [[]].
Proof.
  intros. split; [|reflexivity]. rewrite get_scene_splits_eq by lia.
  pose proof (part_lines_pos 0 s c ltac:(lia) ltac:(lia) ltac:(lia)).
  f_equal. unfold range0.
  replace (Z.to_nat _) with 0%nat; [reflexivity|].
  set (k := part_lines 0 s c) in *. replace (0 - k + k - 1) with (-1) by lia.
  assert (-1 / k < 0) by (apply Z.div_lt_upper_bound; lia). lia.
Qed.

(** shape of [pieces] *)
Lemma pieces_shape {A} (k : nat) (l : list A) : (0 < k)%nat -> l <> [] ->
  exists front last, pieces k l = front ++ [last] /\
    Forall (fun p => length p = k) front /\ (0 < length last <= k)%nat.
Proof.
  intros Hk. remember (length l) as m eqn:Em. revert l Em.
  induction m as [m IH] using lt_wf_ind; intros l Em Hl.
  rewrite pieces_cons by auto.
  destruct (skipn k l) as [|b l'] eqn:E.
  - exists [], (firstn k l). split; [reflexivity|]. split; [constructor|].
    rewrite firstn_length. destruct l; [congruence|]. simpl. lia.
  - assert (Hlen : length (b :: l') = (length l - k)%nat) by (rewrite <- E; apply skipn_length).
    destruct (IH (length (b :: l'))) with (l := b :: l') as (front & last & E2 & F & B); auto.
    + simpl in *. lia.
    + discriminate.
    + exists (firstn k l :: front), last. rewrite E2. split; [reflexivity|]. split; [|exact B].
      constructor; [|exact F]. rewrite firstn_length. simpl in Hlen. lia.
Qed.

Lemma pieces_length {A} (k : nat) (l : list A) : (0 < k)%nat ->
  Z.of_nat (length (pieces k l)) = (Z.of_nat (length l) + Z.of_nat k - 1) / Z.of_nat k.
Proof.
  intros Hk. destruct l as [|a l].
  - simpl. symmetry. apply Z.div_small. lia.
  - destruct (pieces_shape k (a :: l) Hk) as (front & last & E & F & B); [discriminate|].
    assert (C : length (a :: l) = (length front * k + length last)%nat).
    { rewrite <- (concat_pieces k (a :: l) Hk), E, concat_app, app_length. simpl.
      rewrite app_nil_r. rewrite (concat_length_const front k F). lia. }
    rewrite E, C, app_length. simpl length.
    apply Z.div_unique with (r := Z.of_nat (length last) - 1); nia.
Qed.

(** ** the pool *)
Lemma pool_run_slots {I O} (f : I -> res O) tasks order : forall slots0 i,
  fold_left (fun slots k => match nth_error tasks k with
                            | Some t => fun i => if Nat.eqb i k then Some (f t) else slots i
                            | None => slots end) order slots0 i
  = if in_dec Nat.eq_dec i order
    then match nth_error tasks i with Some t => Some (f t) | None => slots0 i end
    else slots0 i.
Proof.
  induction order as [|k order IH]; intros slots0 i; cbn [fold_left].
  - destruct (in_dec Nat.eq_dec i []) as [[]|]; reflexivity.
  - rewrite IH. destruct (in_dec Nat.eq_dec i order) as [Hi|Hi].
    + destruct (in_dec Nat.eq_dec i (k :: order)) as [_|Hn]; [|exfalso; apply Hn; now right].
      destruct (nth_error tasks i) eqn:E; [reflexivity|].
      destruct (nth_error tasks k) eqn:Ek; [|reflexivity].
      destruct (Nat.eqb_spec i k); [congruence|reflexivity].
    + destruct (in_dec Nat.eq_dec i (k :: order)) as [H|H].
      * destruct H as [->|H]; [|contradiction].
        destruct (nth_error tasks i) eqn:E; [|reflexivity]. now rewrite Nat.eqb_refl.
      * destruct (nth_error tasks k) eqn:Ek; [|reflexivity].
        destruct (Nat.eqb_spec i k) as [->|]; [exfalso; apply H; now left|reflexivity].
Qed.

Lemma mapM_seq_nth {I O} (f : I -> res O) (tasks : list I) g :
  (forall i t, nth_error tasks i = Some t -> g i = f t) ->
  mapM g (seq 0 (length tasks)) = mapM f tasks.
Proof.
  intros H. revert g H. induction tasks as [|t tasks IH]; intros g H; [reflexivity|].
  cbn [length seq mapM]. rewrite (H 0%nat t eq_refl). destruct (f t); cbn [bind]; [|reflexivity].
  rewrite <- seq_shift.
  assert (E : mapM g (map S (seq 0 (length tasks))) = mapM (fun i => g (S i)) (seq 0 (length tasks))).
  { generalize (seq 0 (length tasks)). induction l as [|x l IHl]; [reflexivity|]. simpl. now rewrite IHl. }
  rewrite E, (IH (fun i => g (S i))); [reflexivity|]. intros i t' Hi. apply (H (S i) t' Hi).
Qed.

(** every complete order of completion gives the results in task order *)
Lemma pool_any_order {I O} (f : I -> res O) tasks order :
  Permutation order (seq 0 (length tasks)) ->
  pool_get (pool_run f tasks order) (length tasks) = mapM f tasks.
Proof.
  intros HP. unfold pool_get. apply mapM_seq_nth. intros i t Hi.
  unfold pool_run. rewrite pool_run_slots.
  destruct (in_dec Nat.eq_dec i order) as [_|Hn].
  - now rewrite Hi.
  - exfalso. apply Hn. apply (Permutation_in _ (Permutation_sym HP)). apply in_seq.
    assert (nth_error tasks i <> None) by congruence. apply nth_error_Some in H. lia.
Qed.
