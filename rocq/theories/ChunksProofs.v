(** Proofs about the chunked interpolators. *)
From Coq Require Import ZArith List Bool Arith Lia Permutation.
From Verif Require Import Base Num Geo Chunks.
Import ListNotations.
Open Scope nat_scope.

(** * Chunk slices *)
Definition in_slice (i : nat) (s : nat * nat) : bool := (fst s <=? i) && (i <? snd s).
Fixpoint in_slices (idx : list nat) (ss : list (nat * nat)) : bool :=
  match idx, ss with
  | [], [] => true
  | i :: idx', s :: ss' => in_slice i s && in_slices idx' ss'
  | _, _ => false
  end.

Lemma sum_nat_cons a l : sum_nat (a :: l) = a + sum_nat l.
Proof. reflexivity. Qed.

Lemma chunk_slice_S a chunk p :
  chunk_slice (S p) (a :: chunk) = (a + fst (chunk_slice p chunk), a + snd (chunk_slice p chunk)).
Proof. unfold chunk_slice. cbn [firstn nth fst snd]. rewrite sum_nat_cons. f_equal; lia. Qed.
Lemma chunk_slice_0 a chunk : chunk_slice 0 (a :: chunk) = (0, a).
Proof. reflexivity. Qed.

Definition covering (i : nat) (chunk : list nat) : nat :=
  length (filter (fun p => in_slice i (chunk_slice p chunk)) (seq 0 (length chunk))).

Lemma filter_map_length {A B} (f : B -> bool) (g : A -> B) l :
  length (filter f (map g l)) = length (filter (fun a => f (g a)) l).
Proof. induction l as [|a l IH]; cbn; [reflexivity|]. destruct (f (g a)); cbn; congruence. Qed.
Lemma filter_none {A} (f : A -> bool) l : (forall a, In a l -> f a = false) -> filter f l = [].
Proof.
  induction l as [|a l IH]; intros H; cbn; [reflexivity|].
  rewrite H by now left. apply IH. intros; apply H; now right.
Qed.

Lemma covering_cons i a chunk :
  covering i (a :: chunk) = if i <? a then 1 else covering (i - a) chunk.
Proof.
  unfold covering. cbn [length]. rewrite <- cons_seq, <- seq_shift. cbn [filter].
  rewrite chunk_slice_0.
  assert (E : in_slice i (0, a) = (i <? a)) by reflexivity. rewrite E.
  destruct (Nat.ltb_spec i a) as [H|H]; cbn [length]; rewrite filter_map_length.
  - rewrite filter_none; [reflexivity|]. intros p _. rewrite chunk_slice_S. unfold in_slice. cbn [fst snd].
    apply andb_false_iff. left. apply Nat.leb_gt. lia.
  - f_equal. apply filter_ext. intros p. rewrite chunk_slice_S. unfold in_slice. cbn [fst snd].
    f_equal.
    + destruct (Nat.leb_spec (a + fst (chunk_slice p chunk)) i), (Nat.leb_spec (fst (chunk_slice p chunk)) (i - a)); lia || reflexivity.
    + destruct (Nat.ltb_spec i (a + snd (chunk_slice p chunk))), (Nat.ltb_spec (i - a) (snd (chunk_slice p chunk))); lia || reflexivity.
Qed.

Lemma covering_spec i chunk : covering i chunk = if i <? sum_nat chunk then 1 else 0.
Proof.
  revert i. induction chunk as [|a chunk IH]; intros i; [reflexivity|].
  rewrite covering_cons, IH, sum_nat_cons.
  destruct (Nat.ltb_spec i a), (Nat.ltb_spec i (a + sum_nat chunk)), (Nat.ltb_spec (i - a) (sum_nat chunk)); lia || reflexivity.
Qed.

Lemma filter_app' {A} (f : A -> bool) l1 l2 : filter f (l1 ++ l2) = filter f l1 ++ filter f l2.
Proof. apply filter_app. Qed.

Lemma filter_flat_map_length {A B} (f : B -> bool) (g : A -> list B) (p : A -> bool) (n : nat) l :
  (forall a, In a l -> length (filter f (g a)) = if p a then n else 0) ->
  length (filter f (flat_map g l)) = length (filter p l) * n.
Proof.
  induction l as [|a l IH]; intros H; cbn; [reflexivity|].
  rewrite filter_app', app_length, H by now left. rewrite IH by (intros; apply H; now right).
  destruct (p a); cbn; lia.
Qed.

Lemma ndindex_length_in shape p : In p (ndindex shape) -> length p = length shape.
Proof.
  revert p. induction shape as [|n shape IH]; intros p; cbn.
  - intros [<-|[]]. reflexivity.
  - intros H. apply in_flat_map in H as (i & _ & H). apply in_map_iff in H as (q & <- & H). cbn. now rewrite (IH q H).
Qed.

Definition in_array (idx : list nat) (chunks : list (list nat)) : Prop :=
  Forall2 (fun i c => i < sum_nat c) idx chunks.

Lemma cell_cover idx chunks : length idx = length chunks ->
  length (filter (fun e => in_slices idx (snd e)) (enumerate_chunk_slices chunks)) =
  if forallb (fun p => fst p <? sum_nat (snd p)) (combine idx chunks) then 1 else 0.
Proof.
  unfold enumerate_chunk_slices. rewrite filter_map_length. cbn [snd].
  revert idx. induction chunks as [|c chunks IH]; intros idx L.
  - destruct idx; [reflexivity|discriminate].
  - destruct idx as [|i idx]; [discriminate|]. cbn [map ndindex combine forallb fst snd].
    set (m := if forallb (fun p => fst p <? sum_nat (snd p)) (combine idx chunks) then 1 else 0).
    rewrite (filter_flat_map_length _ _ (fun p => in_slice i (chunk_slice p c)) m).
    + fold (covering i c). rewrite covering_spec. unfold m. destruct (i <? sum_nat c), (forallb _ _); reflexivity.
    + intros p _. rewrite filter_map_length. cbn [zip_slices in_slices].
      destruct (in_slice i (chunk_slice p c)); cbn [andb].
      * apply IH. cbn in L. lia.
      * rewrite filter_none by reflexivity. reflexivity.
Qed.

Lemma In_ndindex shape p : In p (ndindex shape) <-> Forall2 (fun i n => i < n) p shape.
Proof.
  revert p. induction shape as [|n shape IH]; intros p; cbn.
  - split; [intros [<-|[]]; constructor|]. inversion 1; now left.
  - rewrite in_flat_map. split.
    + intros (i & Hi & H). apply in_map_iff in H as (q & <- & H). apply in_seq in Hi. constructor; [lia|now apply IH].
    + inversion 1 as [|i n' q sh Hi Hq]; subst. exists i. split; [apply in_seq; lia|]. apply in_map. now apply IH.
Qed.

Lemma NoDup_app' {A} (l1 l2 : list A) : NoDup l1 -> NoDup l2 -> (forall x, In x l1 -> ~ In x l2) -> NoDup (l1 ++ l2).
Proof.
  induction l1 as [|a l1 IH]; intros H1 H2 H; cbn; [exact H2|]. inversion H1 as [|? ? Ha Hl]; subst. constructor.
  - intros C. apply in_app_or in C as [C|C]; [contradiction|]. apply (H a (or_introl eq_refl) C).
  - apply IH; auto. intros x Hx. apply H. now right.
Qed.
Lemma NoDup_ndindex shape : NoDup (ndindex shape).
Proof.
  induction shape as [|n shape IH]; cbn; [constructor; [intros []|constructor]|].
  assert (G : forall l, NoDup l -> NoDup (flat_map (fun i => map (cons i) (ndindex shape)) l)).
  { induction l as [|a l IHl]; intros H; cbn; [constructor|]. inversion H as [|? ? Ha Hl]; subst.
    apply NoDup_app'; [|now apply IHl|].
    - apply FinFun.Injective_map_NoDup; [intros u v E; now injection E|exact IH].
    - intros x Hx Hy. apply in_map_iff in Hx as (u & <- & _). apply in_flat_map in Hy as (b & Hb & Hy).
      apply in_map_iff in Hy as (w & E & _). injection E as -> ->. contradiction. }
  apply G, seq_NoDup.
Qed.

(** the sizes are those of the chunks *)
Lemma zip_slices_sizes position chunks :
  Forall2 (fun p c => p < length c) position chunks ->
  Forall2 (fun s pc => snd s - fst s = nth (fst pc) (snd pc) 0 /\ fst s <= snd s)
          (zip_slices position chunks) (combine position chunks).
Proof.
  induction 1; cbn; constructor; auto. unfold chunk_slice. cbn [fst snd]. lia.
Qed.

(** * Lists cut at chunk boundaries *)
Lemma firstn_skipn_app {A} (a b k : nat) (l : list A) :
  firstn a (skipn k l) ++ firstn b (skipn (k + a) l) = firstn (a + b) (skipn k l).
Proof.
  rewrite (Nat.add_comm k a), <- skipn_skipn'.
  generalize (skipn k l). clear. intros l. revert l. induction a as [|a IH]; intros l; [reflexivity|].
  destruct l as [|x l]; cbn; [now rewrite firstn_nil|]. f_equal. apply IH.
Qed.

Definition cut {A} (l : list A) (s : nat * nat) : list A := firstn (snd s - fst s) (skipn (fst s) l).

Lemma cut_shift {A} (l : list A) a s : cut l (a + fst s, a + snd s) = cut (skipn a l) s.
Proof.
  unfold cut. cbn [fst snd]. rewrite skipn_skipn'. f_equal; [lia|]. f_equal. lia.
Qed.

Lemma concat_cuts {A} chunk : forall (l : list A), length l = sum_nat chunk ->
  concat (map (fun p => cut l (chunk_slice p chunk)) (seq 0 (length chunk))) = l.
Proof.
  induction chunk as [|a chunk IH]; intros l L.
  - destruct l; [reflexivity|discriminate].
  - cbn [length]. rewrite <- cons_seq, <- seq_shift. cbn [map concat]. rewrite chunk_slice_0, map_map.
    rewrite (map_ext _ (fun p => cut (skipn a l) (chunk_slice p chunk))).
    + rewrite IH by (rewrite skipn_length, L, sum_nat_cons; lia). unfold cut. cbn [fst snd skipn].
      rewrite Nat.sub_0_r. apply firstn_skipn.
    + intros p. rewrite chunk_slice_S. apply cut_shift.
Qed.

Lemma mapM_firstn {A B} (f : A -> res B) n l bs : mapM f l = Ok bs -> mapM f (firstn n l) = Ok (firstn n bs).
Proof.
  revert n bs. induction l as [|a l IH]; intros n bs H.
  - injection H as <-. destruct n; reflexivity.
  - cbn in H. apply bind_Ok in H as (b & Hb & H). apply bind_Ok in H as (bs' & Hbs & H). injection H as <-.
    destruct n as [|n]; [reflexivity|]. cbn. rewrite Hb. cbn. rewrite (IH n bs' Hbs). reflexivity.
Qed.
Lemma mapM_skipn {A B} (f : A -> res B) n l bs : mapM f l = Ok bs -> mapM f (skipn n l) = Ok (skipn n bs).
Proof.
  revert n bs. induction l as [|a l IH]; intros n bs H.
  - injection H as <-. destruct n; reflexivity.
  - pose proof H as H0. cbn in H. apply bind_Ok in H as (b & Hb & H). apply bind_Ok in H as (bs' & Hbs & H). injection H as <-.
    destruct n as [|n]; [exact H0|]. cbn. apply (IH n bs' Hbs).
Qed.
Lemma mapM_cut {A B} (f : A -> res B) l bs s : mapM f l = Ok bs -> mapM f (cut l s) = Ok (cut bs s).
Proof. intros H. unfold cut. now apply mapM_firstn, mapM_skipn. Qed.

Lemma mapM_In {A B} (f : A -> res B) l bs a : mapM f l = Ok bs -> In a l -> exists b, f a = Ok b.
Proof.
  revert bs. induction l as [|x l IH]; intros bs H Ha; [destruct Ha|].
  cbn in H. apply bind_Ok in H as (b & Hb & H). apply bind_Ok in H as (bs' & Hbs & H).
  destruct Ha as [->|Ha]; [eauto|]. eapply IH; eauto.
Qed.
Lemma mapM_all {A B} (f : A -> res B) l : (forall a, In a l -> exists b, f a = Ok b) -> exists bs, mapM f l = Ok bs.
Proof.
  induction l as [|x l IH]; intros H; [exists []; reflexivity|].
  destruct (H x (or_introl eq_refl)) as (b & Hb). destruct IH as (bs & Hbs); [intros; apply H; now right|].
  exists (b :: bs). cbn. now rewrite Hb, Hbs.
Qed.
Lemma mapM_Err {A B} (f : A -> res B) l e : mapM f l = Err e -> exists a, In a l /\ f a = Err e.
Proof.
  induction l as [|x l IH]; cbn; [discriminate|]. destruct (f x) as [b|e'] eqn:E; cbn.
  - destruct (mapM f l) eqn:E2; cbn; [discriminate|]. injection 1 as ->. destruct (IH eq_refl) as (a & Ha & H). eauto.
  - injection 1 as ->. eauto.
Qed.
Lemma mapM_nth {A B} (f : A -> res B) l bs i a b : mapM f l = Ok bs -> i < length l -> f (nth i l a) = Ok (nth i bs b).
Proof.
  revert bs i. induction l as [|x l IH]; intros bs i H Hi; cbn [length] in Hi; [lia|].
  cbn in H. apply bind_Ok in H as (b' & Hb & H). apply bind_Ok in H as (bs' & Hbs & H). injection H as <-.
  destruct i as [|i]; [exact Hb|]. cbn. apply IH; [exact Hbs|lia].
Qed.

(** horizontal concatenation of column slices of an array *)
Lemma combine_map_self {A B C D} (f : A -> B) (g : A -> C) (h : B * C -> D) l :
  map h (combine (map f l) (map g l)) = map (fun a => h (f a, g a)) l.
Proof. induction l; cbn; congruence. Qed.

Lemma hcat_maps {R V} (rows : list R) (fs : list (R -> list V)) :
  forall (acc : R -> list V),
  fold_left (fun acc b => map (fun p => fst p ++ snd p) (combine acc b)) (map (fun f => map f rows) fs) (map acc rows)
  = map (fun r => acc r ++ concat (map (fun f => f r) fs)) rows.
Proof.
  induction fs as [|f fs IH]; intros acc; cbn.
  - apply map_ext. intros r. now rewrite app_nil_r.
  - rewrite combine_map_self. cbn [fst snd]. rewrite (IH (fun a => acc a ++ f a)).
    apply map_ext. intros r. now rewrite app_assoc.
Qed.

Lemma repeat_map_const {A B} (b : B) (l : list A) : repeat b (length l) = map (fun _ => b) l.
Proof. induction l; cbn; congruence. Qed.

Lemma hcat_cuts {V} (rows : list (list V)) cx : Forall (fun r => length r = sum_nat cx) rows ->
  hcat (length rows) (map (fun j => map (fun r => cut r (chunk_slice j cx)) rows) (seq 0 (length cx))) = rows.
Proof.
  intros H. unfold hcat. rewrite repeat_map_const.
  rewrite <- (map_map (fun j => fun r : list V => cut r (chunk_slice j cx)) (fun f => map f rows)).
  rewrite hcat_maps. cbn [app]. rewrite <- (map_id rows) at 2. apply map_ext_in. intros r Hr.
  rewrite map_map. apply concat_cuts. rewrite Forall_forall in H. now apply H.
Qed.

(** * The interpolators *)
Section Proofs.
Context {T : Type} {N : NumOps T} {P D V I K : Type}.
Variable ev : kind -> I -> P -> D -> K -> T -> T -> option V.
Variable valid : kind -> I -> P -> D -> bool.
Variable tokenize : list (list nat) * P * D * (list T * list T) * K -> nat.
(** integers are compared correctly *)
Hypothesis nz_mono : forall a b, (a <= b)%Z -> nleb (nz a) (nz b) = true.

Notation single := (single P D I).
Notation lazy := (lazy P D I K).
Notation task := (task P D I K).
Notation run_task := (run_task ev).
Notation interpolate_numpy := (interpolate_numpy ev).
Notation compute := (compute ev).

Lemma arange_sorted s : sorted_le (arange s) = true.
Proof.
  unfold arange. generalize (Z.of_nat (fst s)) as a. generalize (snd s - fst s) as n.
  induction n as [|n IH]; intros a; [reflexivity|]. destruct n as [|n]; [reflexivity|].
  specialize (IH (a + 1)%Z). cbn [zrange map sorted_le] in *. rewrite nz_mono by lia. exact IH.
Qed.

Lemma interpolate_numpy_arange (s : single) sy sx kw :
  interpolate_numpy s (arange sy, arange sx) kw =
  eval_grid (ev (s_kind s) (s_init s) (s_points s) (s_values s) kw) (arange sy) (arange sx).
Proof.
  unfold Chunks.interpolate_numpy. destruct (s_kind s); [reflexivity|].
  rewrite !arange_sorted. cbn [andb negb]. now rewrite andb_false_r.
Qed.

Lemma eval_grid_err (f : T -> T -> option V) v h e : eval_grid f v h = Err e -> e = ValueError.
Proof.
  intros H. apply mapM_Err in H as (y & _ & H). apply mapM_Err in H as (x & _ & H).
  destruct (f y x); [discriminate|]. congruence.
Qed.

Lemma interpolate_numpy_err s fine kw e : interpolate_numpy s fine kw = Err e -> e = ValueError.
Proof.
  unfold Chunks.interpolate_numpy. destruct fine as [v h]. destruct (s_kind s); [apply eval_grid_err|].
  destruct (_ && _ && _); [congruence|apply eval_grid_err].
Qed.

Lemma run_task_err (t : task) e : run_task t = Err e -> e = ValueError.
Proof.
  unfold Chunks.run_task, interpolate_slices. destruct (t_slices t) as [|a [|b [|c l]]]; try congruence.
  apply interpolate_numpy_err.
Qed.

Lemma eval_grid_ok_iff (f : T -> T -> option V) v h :
  (exists m, eval_grid f v h = Ok m) <-> (forall y x, In y v -> In x h -> f y x <> None).
Proof.
  split.
  - intros (m & H) y x Hy Hx. destruct (mapM_In _ _ _ _ H Hy) as (r & Hr). destruct (mapM_In _ _ _ _ Hr Hx) as (b & Hb).
    destruct (f y x); congruence.
  - intros H. apply mapM_all. intros y Hy. apply mapM_all. intros x Hx. specialize (H y x Hy Hx).
    destruct (f y x); [eauto|congruence].
Qed.

Lemma eval_grid_shape (f : T -> T -> option V) v h m : eval_grid f v h = Ok m ->
  length m = length v /\ Forall (fun r => length r = length h) m.
Proof.
  intros H. split; [now apply mapM_length in H|]. unfold eval_grid in H.
  revert m H. induction v as [|y v IH]; intros m H; cbn in H.
  - injection H as <-. constructor.
  - apply bind_Ok in H as (r & Hr & H). apply bind_Ok in H as (m' & Hm & H). injection H as <-.
    constructor; [now apply mapM_length in Hr|now apply IH].
Qed.

Lemma mapM_map_Ok {A B C} (f g : A -> res B) (c : B -> C) (f' : A -> res C) l bs :
  mapM f l = Ok bs -> (forall a b, In a l -> f a = Ok b -> f' a = Ok (c b)) -> mapM f' l = Ok (map c bs).
Proof.
  revert bs. induction l as [|a l IH]; intros bs H G; cbn in H.
  - injection H as <-. reflexivity.
  - apply bind_Ok in H as (r & Hr & H). apply bind_Ok in H as (m' & Hm & H). injection H as <-.
    cbn. rewrite (G a r) by (auto; now left). cbn. rewrite (IH m' Hm) by (intros; apply G; auto; now right). reflexivity.
Qed.

Lemma eval_grid_cut (f : T -> T -> option V) v h m sy sx : eval_grid f v h = Ok m ->
  eval_grid f (cut v sy) (cut h sx) = Ok (map (fun r => cut r sx) (cut m sy)).
Proof.
  intros H. pose proof (mapM_cut _ _ _ sy H) as H1. unfold eval_grid.
  eapply mapM_map_Ok; [exact (fun _ => Err ValueError)|exact H1|]. intros y r _ Hr. now apply mapM_cut.
Qed.

Lemma zrange_firstn a n m : n <= m -> firstn n (zrange a m) = zrange a n.
Proof.
  revert a m. induction n as [|n IH]; intros a m H; [reflexivity|]. destruct m as [|m]; [lia|].
  cbn. f_equal. apply IH. lia.
Qed.
Lemma zrange_skipn a n m : n <= m -> skipn n (zrange a m) = zrange (a + Z.of_nat n) (m - n).
Proof.
  revert a m. induction n as [|n IH]; intros a m H.
  - cbn. rewrite Nat.sub_0_r. f_equal. lia.
  - destruct m as [|m]; [lia|]. cbn [zrange skipn]. rewrite IH by lia. cbn [Nat.sub]. f_equal. lia.
Qed.

Lemma arange_cut n s : fst s <= snd s -> snd s <= n -> @arange T N s = cut (arange (0, n)) s.
Proof.
  intros H1 H2. unfold arange, cut. cbn [fst snd]. rewrite Nat.sub_0_r, skipn_map, firstn_map. f_equal.
  rewrite zrange_skipn by lia. rewrite zrange_firstn by lia. f_equal.
Qed.

Lemma arange_length s : length (@arange T N s) = snd s - fst s.
Proof. unfold arange. now rewrite map_length, zrange_length. Qed.

Lemma sum_firstn_le p chunk : p < length chunk -> sum_nat (firstn p chunk) + nth p chunk 0 <= sum_nat chunk.
Proof.
  revert p. induction chunk as [|a chunk IH]; intros p H; cbn [length] in H; [lia|].
  destruct p as [|p]; cbn [firstn nth]; rewrite !sum_nat_cons; [cbn; lia|]. specialize (IH p ltac:(lia)). lia.
Qed.
Lemma chunk_slice_bounds p chunk : p < length chunk ->
  fst (chunk_slice p chunk) <= snd (chunk_slice p chunk) <= sum_nat chunk.
Proof. intros H. pose proof (sum_firstn_le p chunk H). unfold chunk_slice. cbn. lia. Qed.

(** ** one block *)
Definition full (s : single) (kw : K) (ny nx : nat) : res (list (list V)) :=
  interpolate_numpy s (arange (0, ny), arange (0, nx)) kw.

Definition block_task (s : single) (kw : K) (cy cx : list nat) (i j : nat) : task :=
  {| t_self := s; t_kw := kw; t_slices := [chunk_slice i cy; chunk_slice j cx] |}.

Lemma block_of_full s kw cy cx i j m : i < length cy -> j < length cx ->
  full s kw (sum_nat cy) (sum_nat cx) = Ok m ->
  run_task (block_task s kw cy cx i j) = Ok (map (fun r => cut r (chunk_slice j cx)) (cut m (chunk_slice i cy))).
Proof.
  intros Hi Hj H. unfold full in H. rewrite interpolate_numpy_arange in H.
  unfold Chunks.run_task, block_task, interpolate_slices. cbn [t_self t_kw t_slices]. rewrite interpolate_numpy_arange.
  pose proof (chunk_slice_bounds i cy Hi). pose proof (chunk_slice_bounds j cx Hj).
  rewrite (arange_cut (sum_nat cy) (chunk_slice i cy)), (arange_cut (sum_nat cx) (chunk_slice j cx)) by lia. now apply eval_grid_cut.
Qed.

Lemma in_some_slice k chunk : k < sum_nat chunk ->
  exists p, p < length chunk /\ fst (chunk_slice p chunk) <= k < snd (chunk_slice p chunk).
Proof.
  intros H. pose proof (covering_spec k chunk) as C. destruct (Nat.ltb_spec k (sum_nat chunk)); [|lia].
  unfold covering in C. destruct (filter _ _) as [|p l] eqn:E; [discriminate|].
  assert (G : In p (p :: l)) by now left. rewrite <- E in G. apply filter_In in G as [G1 G2].
  apply in_seq in G1. unfold in_slice in G2. apply andb_true_iff in G2 as [G2 G3].
  apply Nat.leb_le in G2. apply Nat.ltb_lt in G3. exists p. lia.
Qed.

Lemma In_arange s t : In t (@arange T N s) <-> exists k, fst s <= k < snd s /\ t = nz (Z.of_nat k).
Proof.
  unfold arange. rewrite in_map_iff. split.
  - intros (z & <- & H). apply In_zrange in H. exists (Z.to_nat z). split; [lia|]. f_equal. lia.
  - intros (k & H & ->). exists (Z.of_nat k). split; [reflexivity|]. apply In_zrange. lia.
Qed.

Lemma full_of_blocks s kw cy cx :
  (forall i j, i < length cy -> j < length cx -> exists b, run_task (block_task s kw cy cx i j) = Ok b) ->
  exists m, full s kw (sum_nat cy) (sum_nat cx) = Ok m.
Proof.
  intros H. unfold full. rewrite interpolate_numpy_arange. apply eval_grid_ok_iff.
  intros y x Hy Hx. apply In_arange in Hy as (ky & Hy & ->). apply In_arange in Hx as (kx & Hx & ->). cbn [fst snd] in *.
  destruct (in_some_slice ky cy ltac:(lia)) as (i & Hi & Bi). destruct (in_some_slice kx cx ltac:(lia)) as (j & Hj & Bj).
  destruct (H i j Hi Hj) as (b & Hb). unfold Chunks.run_task, block_task, interpolate_slices in Hb. cbn [t_self t_kw t_slices] in Hb.
  rewrite interpolate_numpy_arange in Hb.
  apply (proj1 (eval_grid_ok_iff _ _ _) (ex_intro _ b Hb)); apply In_arange; eauto.
Qed.

(** ** dictionaries *)
Lemma key_eqb_eq a b : key_eqb a b = true <-> a = b.
Proof.
  unfold key_eqb. destruct a as [a1 a2], b as [b1 b2]. cbn [fst snd].
  rewrite andb_true_iff, Nat.eqb_eq. destruct (list_eq_dec Nat.eq_dec a2 b2); split; intros H.
  - destruct H; congruence.
  - split; [congruence|reflexivity].
  - destruct H; discriminate.
  - injection H; congruence.
Qed.

Lemma assoc_in {A} (l : list (key * A)) k a : assoc k l = Some a -> In (k, a) l.
Proof.
  unfold assoc. destruct (find _ l) as [[k' a']|] eqn:E; [|discriminate]. cbn. intros H; injection H as ->.
  apply find_some in E as [E1 E2]. cbn in E2. apply key_eqb_eq in E2. congruence.
Qed.
Lemma assoc_some {A} (l : list (key * A)) k a : NoDup (map fst l) -> In (k, a) l -> assoc k l = Some a.
Proof.
  intros Hn H. destruct (assoc k l) as [b|] eqn:E.
  - apply assoc_in in E. f_equal. clear -Hn H E. induction l as [|[k' c] l IH]; [destruct H|].
    cbn in Hn. inversion Hn as [|? ? Hk Hl]; subst. destruct H as [H|H], E as [E|E].
    + congruence.
    + injection H as -> ->. exfalso. apply Hk. change k with (fst (k, b)). now apply in_map.
    + injection E as -> ->. exfalso. apply Hk. change k with (fst (k, a)). now apply in_map.
    + auto.
  - exfalso. unfold assoc in E. destruct (find _ l) as [p|] eqn:F; [discriminate|].
    apply find_none with (x := (k, a)) in F; [|exact H]. cbn in F. assert (key_eqb k k = true) by now apply key_eqb_eq. congruence.
Qed.
Lemma assoc_none {A} (l : list (key * A)) k : assoc k l = None <-> ~ In k (map fst l).
Proof.
  unfold assoc. split.
  - destruct (find _ l) as [p|] eqn:F; [discriminate|]. intros _ H. apply in_map_iff in H as (p & <- & H).
    apply find_none with (x := p) in F; [|exact H]. assert (key_eqb (fst p) (fst p) = true) by now apply key_eqb_eq. congruence.
  - intros H. destruct (find _ l) as [p|] eqn:F; [|reflexivity]. exfalso. apply H.
    apply find_some in F as [F1 F2]. apply key_eqb_eq in F2. rewrite <- F2. now apply in_map.
Qed.

(** running the tasks *)
Lemma run_tasks_ok order st : run_tasks ev order = Ok st ->
  map fst st = map fst order /\ (forall k t, In (k, t) order -> exists b, run_task t = Ok b /\ In (k, b) st).
Proof.
  revert st. induction order as [|[k t] order IH]; intros st H; cbn in H.
  - injection H as <-. split; [reflexivity|intros ? ? []].
  - apply bind_Ok in H as ([k' b] & Hb & H). apply bind_Ok in Hb as (b' & Hb & E). injection E as <- <-.
    apply bind_Ok in H as (st' & Hs & H). injection H as <-. destruct (IH st' Hs) as [I1 I2]. split.
    + cbn. now rewrite I1.
    + intros k0 t0 [E|H0]; [injection E as <- <-; exists b'; split; [exact Hb|now left]|].
      destruct (I2 k0 t0 H0) as (b0 & B1 & B2). exists b0. split; [exact B1|now right].
Qed.
Lemma run_tasks_all order : (forall k t, In (k, t) order -> exists b, run_task t = Ok b) ->
  exists st, run_tasks ev order = Ok st.
Proof.
  intros H. apply mapM_all. intros [k t] Hk. destruct (H k t Hk) as (b & Hb). exists (k, b). cbn. now rewrite Hb.
Qed.
Lemma run_tasks_err order e : run_tasks ev order = Err e -> e = ValueError.
Proof.
  intros H. apply mapM_Err in H as ([k t] & _ & H). cbn in H. destruct (run_task t) as [b|e'] eqn:E; [discriminate|].
  cbn in H. injection H as ->. now apply run_task_err in E.
Qed.

(** ** graphs *)
Definition graph_of (name : nat) (s : single) (kw : K) (cy cx : list nat) : list (key * task) :=
  map (fun ps => ((name, fst ps), {| t_self := s; t_kw := kw; t_slices := snd ps |})) (enumerate_chunk_slices [cy; cx]).

Lemma In_graph_of name s kw cy cx k t : In (k, t) (graph_of name s kw cy cx) <->
  exists i j, i < length cy /\ j < length cx /\ k = (name, [i; j]) /\ t = block_task s kw cy cx i j.
Proof.
  unfold graph_of, enumerate_chunk_slices. rewrite map_map, in_map_iff. cbn [fst snd map]. split.
  - intros (p & E & H). apply In_ndindex in H. inversion H as [|i n q sh Hi Hq]; subst.
    inversion Hq as [|j n' q' sh' Hj Hr]; subst. inversion Hr; subst. cbn [zip_slices] in E.
    exists i, j. injection E as <- <-. auto.
  - intros (i & j & Hi & Hj & -> & ->). exists [i; j]. split; [reflexivity|]. apply In_ndindex. repeat constructor; auto.
Qed.

Lemma keys_graph_of name s kw cy cx : map fst (graph_of name s kw cy cx) = map (fun p => (name, p)) (ndindex [length cy; length cx]).
Proof. unfold graph_of, enumerate_chunk_slices. rewrite !map_map. reflexivity. Qed.
Lemma NoDup_keys_graph_of name s kw cy cx : NoDup (map fst (graph_of name s kw cy cx)).
Proof.
  rewrite keys_graph_of. apply FinFun.Injective_map_NoDup; [|apply NoDup_ndindex]. intros a b E. now injection E.
Qed.

(** an array built by [interpolate_dask] *)
Lemma interpolate_dask_inv (s : single) fine chunks kw l :
  interpolate_dask tokenize s fine chunks kw = Ok l ->
  exists cy cx, chunks = [cy; cx] /\ sum_nat cy = length (fst fine) /\ sum_nat cx = length (snd fine) /\
    l = {| l_name := tokenize (chunks, s_points s, s_values s, fine, kw); l_chunks := [cy; cx];
           l_graph := graph_of (tokenize (chunks, s_points s, s_values s, fine, kw)) s kw cy cx |}.
Proof.
  unfold interpolate_dask, normalize_chunks. destruct chunks as [|cy [|cx [|c3 chunks]]]; cbn [length Nat.eqb andb bind]; try discriminate.
  cbn [combine forallb fst snd]. rewrite andb_true_r.
  destruct ((sum_nat cy =? length (fst fine)) && (sum_nat cx =? length (snd fine))) eqn:E; cbn [bind]; [|discriminate].
  apply andb_true_iff in E as [E1 E2]. apply Nat.eqb_eq in E1, E2. intros H. injection H as <-.
  exists cy, cx. auto.
Qed.

(** ** assembling *)
Lemma assemble_full st name s kw cy cx (g : list (key * task)) m :
  (forall i j, i < length cy -> j < length cx ->
     exists b, run_task (block_task s kw cy cx i j) = Ok b /\ assoc (name, [i; j]) st = Some b) ->
  full s kw (sum_nat cy) (sum_nat cx) = Ok m ->
  assemble st {| l_name := name; l_chunks := [cy; cx]; l_graph := g |} = Ok m.
Proof.
  intros Hst Hm. unfold assemble. cbn [l_chunks l_name].
  assert (Sh : length m = sum_nat cy /\ Forall (fun r => length r = sum_nat cx) m).
  { unfold full in Hm. rewrite interpolate_numpy_arange in Hm. apply eval_grid_shape in Hm.
    rewrite !arange_length in Hm. cbn [fst snd] in Hm. now rewrite !Nat.sub_0_r in Hm. }
  destruct Sh as [S1 S2].
  rewrite (mapM_Ok_map _ (fun i => cut m (chunk_slice i cy))).
  - cbn [bind]. f_equal. now apply concat_cuts.
  - intros i Hi. apply in_seq in Hi.
    rewrite (mapM_Ok_map _ (fun j => map (fun r => cut r (chunk_slice j cx)) (cut m (chunk_slice i cy)))).
    + cbn [bind]. f_equal.
      assert (L : length (cut m (chunk_slice i cy)) = nth i cy 0).
      { unfold cut. rewrite firstn_length, skipn_length, S1. pose proof (sum_firstn_le i cy ltac:(lia)).
        unfold chunk_slice. cbn [fst snd]. lia. }
      rewrite <- L. apply hcat_cuts. rewrite Forall_forall in *. intros r Hr. apply S2.
      unfold cut in Hr. clear -Hr. revert Hr. generalize (snd (chunk_slice i cy) - fst (chunk_slice i cy)) as n.
      generalize (fst (chunk_slice i cy)) as k. intros k n Hr.
      rewrite <- (firstn_skipn k m). apply in_or_app. right. rewrite <- (firstn_skipn n (skipn k m)). apply in_or_app. now left.
    + intros j Hj. apply in_seq in Hj. destruct (Hst i j) as (b & Hb & Ha); try lia.
      unfold get_block. rewrite Ha. f_equal.
      rewrite (block_of_full s kw cy cx i j m) in Hb by (lia || assumption). congruence.
Qed.

(** what an array computes to, on its own *)
Lemma compute_one s fine chunks kw l order :
  interpolate_dask tokenize s fine chunks kw = Ok l -> Permutation order (l_graph l) ->
  compute order [l] = rmap (fun m => [m]) (full s kw (length (fst fine)) (length (snd fine))).
Proof.
  intros H Hp. apply interpolate_dask_inv in H as (cy & cx & -> & E1 & E2 & ->). cbn [l_graph] in Hp. rewrite <- E1, <- E2.
  set (name := tokenize _) in *. unfold Chunks.compute.
  assert (Hin : forall k t, In (k, t) order <-> In (k, t) (graph_of name s kw cy cx)).
  { intros k t. split; apply Permutation_in; [|apply Permutation_sym]; exact Hp. }
  destruct (full s kw (sum_nat cy) (sum_nat cx)) as [m|e] eqn:F.
  - destruct (run_tasks_all order) as (st & Hst).
    { intros k t Hk. apply Hin, In_graph_of in Hk as (i & j & Hi & Hj & -> & ->). rewrite (block_of_full s kw cy cx i j m); eauto. }
    rewrite Hst. cbn [bind mapM]. destruct (run_tasks_ok _ _ Hst) as [K1 K2].
    rewrite (assemble_full st name s kw cy cx _ m).
    + reflexivity.
    + intros i j Hi Hj. destruct (K2 (name, [i; j]) (block_task s kw cy cx i j)) as (b & B1 & B2).
      { apply Hin, In_graph_of. eauto 7. }
      exists b. split; [exact B1|]. apply assoc_some; [|exact B2]. rewrite K1.
      eapply Permutation_NoDup; [apply Permutation_map, Permutation_sym; exact Hp|apply NoDup_keys_graph_of].
    + exact F.
  - assert (e = ValueError) by (eapply interpolate_numpy_err; exact F). subst e.
    destruct (run_tasks ev order) as [st|e] eqn:R.
    + exfalso. destruct (run_tasks_ok _ _ R) as [_ K2].
      destruct (full_of_blocks s kw cy cx) as (m & Hm); [|congruence].
      intros i j Hi Hj. destruct (K2 (name, [i; j]) (block_task s kw cy cx i j)) as (b & B1 & _).
      { apply Hin, In_graph_of. eauto 7. }
      eauto.
    + cbn. f_equal. now apply run_tasks_err in R.
Qed.

(** ** several arrays computed together *)
Lemma In_dict_update {A} (g1 g2 : list (key * A)) k a : In (k, a) (dict_update g1 g2) <->
  In (k, a) g2 \/ (In (k, a) g1 /\ ~ In k (map fst g2)).
Proof.
  unfold dict_update. rewrite in_app_iff, filter_In. cbn [fst]. split.
  - intros [[H1 H2]|H]; [right|now left]. split; [exact H1|]. destruct (assoc k g2) eqn:E; [discriminate|]. now apply assoc_none in E.
  - intros [H|[H1 H2]]; [now right|left]. split; [exact H1|]. apply assoc_none in H2. now rewrite H2.
Qed.
Lemma NoDup_filter_keys {A} (f : key * A -> bool) g : NoDup (map fst g) -> NoDup (map fst (filter f g)).
Proof.
  induction g as [|p g IH]; cbn; intros H; [exact H|]. inversion H as [|? ? H1 H2]; subst.
  destruct (f p); cbn; [|auto]. constructor; [|auto]. intros C. apply H1. apply in_map_iff in C as (q & E & Hq).
  apply filter_In in Hq as [Hq _]. rewrite <- E. now apply in_map.
Qed.
Lemma NoDup_dict_update {A} (g1 g2 : list (key * A)) : NoDup (map fst g1) -> NoDup (map fst g2) -> NoDup (map fst (dict_update g1 g2)).
Proof.
  intros H1 H2. unfold dict_update. rewrite map_app. apply NoDup_app'; [now apply NoDup_filter_keys|exact H2|].
  intros k Hk Hk2. apply in_map_iff in Hk as (p & <- & Hp). apply filter_In in Hp as [_ Hp].
  destruct (assoc (fst p) g2) eqn:E; [discriminate|]. apply assoc_none in E. contradiction.
Qed.

(** the graphs agree on common keys *)
Definition coherent (gs : list (list (key * task))) : Prop :=
  forall g1 g2 k t1 t2, In g1 gs -> In g2 gs -> In (k, t1) g1 -> In (k, t2) g2 -> run_task t1 = run_task t2.

Lemma merge_spec ls : forall acc,
  NoDup (map fst acc) -> (forall l, In l ls -> NoDup (map fst (l_graph l))) ->
  NoDup (map fst (fold_left (fun g (l : lazy) => dict_update g (l_graph l)) ls acc)) /\
  (forall k t, In (k, t) (fold_left (fun g (l : lazy) => dict_update g (l_graph l)) ls acc) ->
     In (k, t) acc \/ exists l, In l ls /\ In (k, t) (l_graph l)) /\
  (forall k, (In k (map fst acc) \/ exists l, In l ls /\ In k (map fst (l_graph l))) ->
     In k (map fst (fold_left (fun g (l : lazy) => dict_update g (l_graph l)) ls acc))).
Proof.
  induction ls as [|l ls IH]; intros acc Ha Hl; cbn [fold_left].
  - split; [exact Ha|]. split; [auto|]. intros k [H|(l & [] & _)]. exact H.
  - destruct (IH (dict_update acc (l_graph l))) as (I1 & I2 & I3).
    { apply NoDup_dict_update; [exact Ha|apply Hl; now left]. }
    { intros l' Hl'. apply Hl. now right. }
    split; [exact I1|]. split.
    + intros k t H. destruct (I2 k t H) as [G|(l' & G1 & G2)].
      * apply In_dict_update in G as [G|[G _]]; [right; exists l; split; [now left|exact G]|now left].
      * right. exists l'. split; [now right|exact G2].
    + intros k H. apply I3.
      assert (Hd : forall A (g1 g2 : list (key * A)) k, In k (map fst g1) \/ In k (map fst g2) -> In k (map fst (dict_update g1 g2))).
      { intros A g1 g2 k0 [G|G].
        - destruct (assoc k0 g2) as [a|] eqn:E.
          + apply assoc_in in E. apply in_map_iff. exists (k0, a). split; [reflexivity|]. apply In_dict_update. now left.
          + apply assoc_none in E. apply in_map_iff in G as ([k1 a] & <- & G). apply in_map_iff. exists (k1, a).
            split; [reflexivity|]. apply In_dict_update. right. auto.
        - apply in_map_iff in G as ([k1 a] & <- & G). apply in_map_iff. exists (k1, a). split; [reflexivity|]. apply In_dict_update. now left. }
      destruct H as [H|(l' & [<-|H1] & H2)].
      * left. apply Hd. now left.
      * left. apply Hd. now right.
      * right. eauto.
Qed.

(** an array together with what it was made from *)
Record made := { m_single : single; m_fine : list T * list T; m_chunks : list (list nat); m_kw : K; m_lazy : lazy;
                 m_eq : interpolate_dask tokenize m_single m_fine m_chunks m_kw = Ok m_lazy }.
Definition m_full (a : made) : res (list (list V)) :=
  full (m_single a) (m_kw a) (length (fst (m_fine a))) (length (snd (m_fine a))).

Lemma made_graph a : exists cy cx, m_chunks a = [cy; cx] /\ sum_nat cy = length (fst (m_fine a)) /\ sum_nat cx = length (snd (m_fine a)) /\
  m_lazy a = {| l_name := l_name (m_lazy a); l_chunks := [cy; cx]; l_graph := graph_of (l_name (m_lazy a)) (m_single a) (m_kw a) cy cx |} /\
  l_name (m_lazy a) = tokenize (m_chunks a, s_points (m_single a), s_values (m_single a), m_fine a, m_kw a).
Proof.
  destruct (interpolate_dask_inv _ _ _ _ _ (m_eq a)) as (cy & cx & E & E1 & E2 & E3).
  exists cy, cx. rewrite E3. cbn [l_name]. rewrite E. auto.
Qed.

Theorem compute_together ls order :
  coherent (map (fun a => l_graph (m_lazy a)) ls) ->
  Permutation order (merge_graphs (map m_lazy ls)) ->
  compute order (map m_lazy ls) = mapM m_full ls.
Proof.
  intros Hc Hp.
  destruct (merge_spec (map m_lazy ls) []) as (M1 & M2 & M3).
  { constructor. }
  { intros l Hl. apply in_map_iff in Hl as (a & <- & _). destruct (made_graph a) as (cy & cx & _ & _ & _ & E & _).
    rewrite E. apply NoDup_keys_graph_of. }
  fold (merge_graphs (map m_lazy ls)) in M1, M2, M3.
  assert (Hin : forall k t, In (k, t) order <-> In (k, t) (merge_graphs (map m_lazy ls))).
  { intros k t. split; apply Permutation_in; [|apply Permutation_sym]; exact Hp. }
  assert (Hno : NoDup (map fst order)).
  { eapply Permutation_NoDup; [apply Permutation_map, Permutation_sym; exact Hp|exact M1]. }
  (* every task of the order stems from one of the arrays *)
  assert (Hfrom : forall k t, In (k, t) order -> exists a, In a ls /\ In (k, t) (l_graph (m_lazy a))).
  { intros k t H. apply Hin in H. destruct (M2 k t H) as [[]|(l & H1 & H2)]. apply in_map_iff in H1 as (a & <- & H1). eauto. }
  (* every block of every array is computed, with the right value *)
  assert (Hget : forall st, run_tasks ev order = Ok st -> forall a k t, In a ls -> In (k, t) (l_graph (m_lazy a)) ->
     exists b, run_task t = Ok b /\ assoc k st = Some b).
  { intros st Hst a k t Ha Hk. destruct (run_tasks_ok _ _ Hst) as [K1 K2].
    assert (In k (map fst (merge_graphs (map m_lazy ls)))) as G.
    { apply M3. right. exists (m_lazy a). split; [now apply in_map|]. change k with (fst (k, t)). now apply in_map. }
    apply in_map_iff in G as ([k' t'] & E & G). cbn in E. subst k'. apply Hin in G.
    destruct (K2 k t' G) as (b & B1 & B2). exists b. split.
    - destruct (Hfrom k t' G) as (a' & Ha' & Hk'). rewrite <- B1.
      apply (Hc (l_graph (m_lazy a)) (l_graph (m_lazy a')) k); auto.
      + apply in_map_iff. eauto.
      + apply in_map_iff. eauto.
    - apply assoc_some; [now rewrite K1|exact B2]. }
  unfold Chunks.compute. destruct (run_tasks ev order) as [st|e] eqn:R; cbn [bind].
  - specialize (Hget st eq_refl).
    assert (G : forall ls', (forall a, In a ls' -> In a ls) -> mapM (assemble st) (map m_lazy ls') = mapM m_full ls').
    { induction ls' as [|a ls' IH]; intros Hs; [reflexivity|]. cbn [map mapM].
      rewrite IH by (intros; apply Hs; now right). f_equal.
      destruct (made_graph a) as (cy & cx & _ & E1 & E2 & E3 & _).
      assert (Hb : forall i j, i < length cy -> j < length cx ->
        exists b, run_task (block_task (m_single a) (m_kw a) cy cx i j) = Ok b /\ assoc (l_name (m_lazy a), [i; j]) st = Some b).
      { intros i j Hi Hj. apply (Hget a); [apply Hs; now left|]. rewrite E3. cbn [l_graph]. apply In_graph_of. eauto 7. }
      destruct (full_of_blocks (m_single a) (m_kw a) cy cx) as (m & Hm).
      { intros i j Hi Hj. destruct (Hb i j Hi Hj) as (b & B & _). eauto. }
      unfold m_full. rewrite <- E1, <- E2, Hm. rewrite E3. now apply (assemble_full st _ (m_single a) (m_kw a)). }
    apply G. auto.
  - assert (e = ValueError) by now apply run_tasks_err in R. subst e.
    destruct (mapM m_full ls) as [ms|e] eqn:F.
    + exfalso. destruct (run_tasks_all order) as (st & Hst); [|congruence].
      intros k t H. destruct (Hfrom k t H) as (a & Ha & Hk). destruct (mapM_In _ _ _ _ F Ha) as (m & Hm).
      destruct (made_graph a) as (cy & cx & _ & E1 & E2 & E3 & _). unfold m_full in Hm. rewrite <- E1, <- E2 in Hm.
      rewrite E3 in Hk. cbn [l_graph] in Hk. apply In_graph_of in Hk as (i & j & Hi & Hj & -> & ->).
      rewrite (block_of_full (m_single a) (m_kw a) cy cx i j m) by assumption. eauto.
    + apply mapM_Err in F as (a & _ & F). unfold m_full, full in F. apply interpolate_numpy_err in F. now subst.
Qed.

(** same class and constructor arguments: equal names mean equal arrays *)
Theorem same_name_same_values (Hinj : forall x y, tokenize x = tokenize y -> x = y) a b :
  s_kind (m_single a) = s_kind (m_single b) -> s_init (m_single a) = s_init (m_single b) ->
  l_name (m_lazy a) = l_name (m_lazy b) -> m_lazy a = m_lazy b /\ m_full a = m_full b.
Proof.
  intros Hk Hi Hn.
  destruct (made_graph a) as (cy & cx & Ea & _ & _ & La & Na). destruct (made_graph b) as (cy' & cx' & Eb & _ & _ & Lb & Nb).
  assert (E : tokenize (m_chunks a, s_points (m_single a), s_values (m_single a), m_fine a, m_kw a) =
              tokenize (m_chunks b, s_points (m_single b), s_values (m_single b), m_fine b, m_kw b)) by congruence.
  apply Hinj in E. injection E as E1 E2 E3 E4 E5.
  assert (Es : m_single a = m_single b).
  { destruct (m_single a), (m_single b); cbn in *; congruence. }
  assert (cy = cy') by congruence. assert (cx = cx') by congruence. subst cy' cx'.
  split; [rewrite La, Lb, Hn, Es, E5; reflexivity|]. unfold m_full. rewrite Es, E4, E5. reflexivity.
Qed.

Lemma same_class_coherent (Hinj : forall x y, tokenize x = tokenize y -> x = y) ls k i :
  (forall a, In a ls -> s_kind (m_single a) = k /\ s_init (m_single a) = i) ->
  coherent (map (fun a => l_graph (m_lazy a)) ls).
Proof.
  intros H g1 g2 q t1 t2 H1 H2 G1 G2. apply in_map_iff in H1 as (a & <- & Ha), H2 as (b & <- & Hb).
  destruct (H a Ha) as [A1 A2], (H b Hb) as [B1 B2].
  assert (Hn : l_name (m_lazy a) = l_name (m_lazy b)).
  { destruct (made_graph a) as (cy & cx & _ & _ & _ & La & _). destruct (made_graph b) as (cy' & cx' & _ & _ & _ & Lb & _).
    rewrite La in G1. rewrite Lb in G2. cbn [l_graph] in G1, G2.
    apply In_graph_of in G1 as (? & ? & _ & _ & E1 & _). apply In_graph_of in G2 as (? & ? & _ & _ & E2 & _). congruence. }
  destruct (same_name_same_values Hinj a b) as [E _]; try congruence.
  f_equal. rewrite E in G1.
  destruct (made_graph b) as (cy & cx & _ & _ & _ & Lb & _). rewrite Lb in G1, G2. cbn [l_graph] in G1, G2.
  apply In_graph_of in G1 as (i1 & j1 & _ & _ & E1 & ->). apply In_graph_of in G2 as (i2 & j2 & _ & _ & E2 & ->).
  assert (i1 = i2) by congruence. assert (j1 = j2) by congruence. now subst.
Qed.

Theorem compute_same_class (Hinj : forall x y, tokenize x = tokenize y -> x = y) ls k i order :
  (forall a, In a ls -> s_kind (m_single a) = k /\ s_init (m_single a) = i) ->
  Permutation order (merge_graphs (map m_lazy ls)) ->
  compute order (map m_lazy ls) = mapM m_full ls.
Proof. intros H Hp. apply compute_together; [|exact Hp]. eapply same_class_coherent; eauto. Qed.

(** ** several data arrays *)
Lemma to_shape_full (s : single) kw rows cols :
  interpolate_numpy s (to_shape_points rows cols) kw = full s kw rows cols.
Proof. reflexivity. Qed.

(** arrays made by one chunked call on several singles *)
Lemma mapM_made ss fine chunks kw ls :
  interpolate_multiple_dask tokenize ss fine chunks kw = Ok ls ->
  exists ms : list made, map m_lazy ms = ls /\ map m_single ms = ss /\ (forall a, In a ms -> m_fine a = fine /\ m_kw a = kw).
Proof.
  unfold interpolate_multiple_dask. revert ls. induction ss as [|s ss IH]; intros ls H; cbn in H.
  - injection H as <-. exists []. repeat split; contradiction.
  - apply bind_Ok in H as (l & Hl & H). apply bind_Ok in H as (ls' & Hls & H). injection H as <-.
    destruct (IH ls' Hls) as (ms & M1 & M2 & M3).
    exists ({| m_single := s; m_fine := fine; m_chunks := chunks; m_kw := kw; m_lazy := l; m_eq := Hl |} :: ms).
    cbn. rewrite M1, M2. split; [reflexivity|]. split; [reflexivity|]. intros a [<-|Ha]; cbn; auto.
Qed.

Lemma make_multiple_class k i p data ss : make_multiple valid k i p data = Ok ss ->
  (forall s, In s ss -> s_kind s = k /\ s_init s = i) /\ map s_values ss = data.
Proof.
  unfold make_multiple. revert ss. induction data as [|d data IH]; intros ss H; cbn in H.
  - injection H as <-. split; [contradiction|reflexivity].
  - apply bind_Ok in H as (s & Hs & H). apply bind_Ok in H as (ss' & Hss & H). injection H as <-.
    unfold make_single in Hs. destruct (valid k i p d); [|discriminate]. injection Hs as <-.
    destruct (IH ss' Hss) as [I1 I2]. split; [|cbn; now rewrite I2].
    intros s [<-|Hs]; cbn; auto.
Qed.

Theorem multiple_chunked (Hinj : forall x y, tokenize x = tokenize y -> x = y) k i p data ss rows cols chunks kw ls order :
  make_multiple valid k i p data = Ok ss ->
  interpolate_multiple_dask tokenize ss (to_shape_points rows cols) chunks kw = Ok ls ->
  Permutation order (merge_graphs ls) ->
  compute order ls = interpolate_multiple ev ss (to_shape_points rows cols) kw.
Proof.
  intros Hm Hd Hp. destruct (make_multiple_class _ _ _ _ _ Hm) as [Hc _].
  destruct (mapM_made _ _ _ _ _ Hd) as (ms & <- & Es & M3).
  rewrite (compute_same_class Hinj ms k i order); [| |exact Hp].
  - unfold interpolate_multiple. rewrite <- Es. clear -M3.
    induction ms as [|a ms IH]; [reflexivity|]. cbn [map mapM]. rewrite IH by (intros; apply M3; now right).
    destruct (M3 a (or_introl eq_refl)) as [E1 E2]. unfold m_full. rewrite E1, E2. unfold to_shape_points. cbn [fst snd].
    rewrite !arange_length. cbn [fst snd]. rewrite !Nat.sub_0_r. reflexivity.
  - intros a Ha. apply Hc. rewrite <- Es. now apply in_map.
Qed.

End Proofs.
