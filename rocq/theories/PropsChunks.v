(** C22 - C26, C61, C62: the grid and spline interpolators, eager and chunked. *)
From Coq Require Import ZArith List Bool Arith Lia Permutation QArith Reals Lra Cantor.
From Verif Require Import Spec Base Num Geo GeoProofs Chunks ChunksProofs.
Import ListNotations.
Open Scope nat_scope.

(** C22. A cell is a list of indices, one per dimension; [enumerate_chunk_slices] lists (position, slices). *)
Definition cell_in (idx : list nat) (slices : list (nat * nat)) : Prop :=
  Forall2 (fun i s => fst s <= i < snd s) idx slices.

Lemma in_slices_spec idx ss : in_slices idx ss = true <-> cell_in idx ss.
Proof.
  revert ss. induction idx as [|i idx IH]; destruct ss as [|s ss]; cbn; try (split; [discriminate|inversion 1]).
  - split; [constructor|reflexivity].
  - unfold in_slice. rewrite !andb_true_iff, IH, Nat.leb_le, Nat.ltb_lt. split.
    + intros [H1 H2]. constructor; auto.
    + inversion 1; subst. auto.
Qed.

Lemma filter_single {A} (f : A -> bool) (l : list A) a b :
  length (filter f l) = 1 -> In a l -> In b l -> f a = true -> f b = true -> a = b.
Proof.
  intros L Ha Hb Fa Fb. assert (Ga : In a (filter f l)) by now apply filter_In. assert (Gb : In b (filter f l)) by now apply filter_In.
  destruct (filter f l) as [|x [|y l']]; cbn in L; try lia. destruct Ga as [<-|[]], Gb as [<-|[]]. reflexivity.
Qed.

(** every cell of the array lies in exactly one of the enumerated blocks, other cells in none *)
Theorem C22_cover : forall chunks idx, length idx = length chunks ->
  (Forall2 (fun i c => i < sum_nat c) idx chunks ->
     exists e, In e (enumerate_chunk_slices chunks) /\ cell_in idx (snd e) /\
       forall e', In e' (enumerate_chunk_slices chunks) -> cell_in idx (snd e') -> e' = e) /\
  (forall e, In e (enumerate_chunk_slices chunks) -> cell_in idx (snd e) -> Forall2 (fun i c => i < sum_nat c) idx chunks).
Proof.
  intros chunks idx L. pose proof (cell_cover idx chunks L) as C.
  assert (B : forallb (fun p => fst p <? sum_nat (snd p)) (combine idx chunks) = true <-> Forall2 (fun i c => i < sum_nat c) idx chunks).
  { clear C. revert idx L. induction chunks as [|c chunks IH]; destruct idx as [|i idx]; cbn [combine forallb fst snd length]; intros L; try discriminate.
    - split; [constructor|reflexivity].
    - rewrite andb_true_iff, Nat.ltb_lt, IH by lia. split.
      + intros [H1 H2]. constructor; auto.
      + inversion 1; subst; auto. }
  split.
  - intros H. apply B in H. rewrite H in C.
    destruct (filter (fun e => in_slices idx (snd e)) (enumerate_chunk_slices chunks)) as [|e l] eqn:E; [discriminate|].
    assert (G : In e (e :: l)) by now left. rewrite <- E in G. apply filter_In in G as [G1 G2].
    exists e. split; [exact G1|]. split; [now apply in_slices_spec|]. intros e' H1 H2. apply in_slices_spec in H2.
    eapply (filter_single (fun e => in_slices idx (snd e))); [|exact H1|exact G1|exact H2|exact G2]. rewrite E. exact C.
  - intros e H1 H2. apply B. destruct (forallb _ _) eqn:F; [reflexivity|exfalso].
    apply in_slices_spec in H2.
    assert (G : In e (filter (fun e => in_slices idx (snd e)) (enumerate_chunk_slices chunks))) by now apply filter_In.
    destruct (filter _ _); [destruct G|discriminate].
Qed.
Print Assumptions C22_cover.
(** one block per position, with the sizes given by the chunks *)
Theorem C22_sizes : forall chunks,
  NoDup (map fst (enumerate_chunk_slices chunks)) /\
  (forall position, In position (map fst (enumerate_chunk_slices chunks)) <-> Forall2 (fun p c => p < length c) position chunks) /\
  (forall position slices, In (position, slices) (enumerate_chunk_slices chunks) ->
     Forall2 (fun s pc => snd s - fst s = nth (fst pc) (snd pc) 0 /\ fst s <= snd s) slices (combine position chunks)).
Proof.
  intros chunks.
  assert (K : map fst (enumerate_chunk_slices chunks) = ndindex (map (@length nat) chunks)).
  { unfold enumerate_chunk_slices. rewrite map_map. cbn [fst]. apply map_id. }
  assert (F : forall p, In p (ndindex (map (@length nat) chunks)) <-> Forall2 (fun p c => p < length c) p chunks).
  { intros p. rewrite In_ndindex. clear K. revert p. induction chunks as [|c chunks IH]; intros p; cbn.
    - split; inversion 1; constructor.
    - split; inversion 1; subst; constructor; auto; now apply IH. }
  rewrite K. split; [apply NoDup_ndindex|]. split; [exact F|].
  intros position slices H. unfold enumerate_chunk_slices in H. apply in_map_iff in H as (p & E & H). injection E as <- <-.
  apply zip_slices_sizes. now apply F.
Qed.
Print Assumptions C22_sizes.
Example C22_case : enumerate_chunk_slices [[2; 1]; [3; 0; 4]] =
  [([0; 0], [(0, 2); (0, 3)]); ([0; 1], [(0, 2); (3, 3)]); ([0; 2], [(0, 2); (3, 7)]);
   ([1; 0], [(2, 3); (0, 3)]); ([1; 1], [(2, 3); (3, 3)]); ([1; 2], [(2, 3); (3, 7)])].
Proof. reflexivity. Qed.

Section Statements.
Context {T : Type} {N : NumOps T} {P D V I K : Type}.
Implicit Types (ev : kind -> I -> P -> D -> K -> T -> T -> option V)
  (valid : kind -> I -> P -> D -> bool)
  (tokenize : list (list nat) * P * D * (list T * list T) * K -> nat).
Definition ints_ordered : Prop := forall a b, (a <= b)%Z -> nleb (nz a : T) (nz b) = true.
Definition injective {A B} (f : A -> B) : Prop := forall x y, f x = f y -> x = y.

(** C23: one data array *)
Theorem C23_single : ints_ordered -> forall ev tokenize (s : single P D I) rows cols chunks kw l order,
  interpolate_dask tokenize s (to_shape_points rows cols) chunks kw = Ok l -> Permutation order (l_graph l) ->
  compute ev order [l] = rmap (fun m => [m]) (interpolate_numpy ev s (to_shape_points rows cols) kw).
Proof.
  intros Hm ev tokenize s rows cols chunks kw l order Hd Hp. rewrite (compute_one ev tokenize Hm _ _ _ _ _ _ Hd Hp).
  unfold to_shape_points. cbn [fst snd]. rewrite !arange_length. cbn [fst snd]. rewrite !Nat.sub_0_r. reflexivity.
Qed.
(** C23: several data arrays computed together *)
Theorem C23_multiple : ints_ordered -> forall ev valid tokenize, injective tokenize ->
  forall k i p data (ss : list (single P D I)) rows cols chunks kw ls order,
  make_multiple valid k i p data = Ok ss ->
  interpolate_multiple_dask tokenize ss (to_shape_points rows cols) chunks kw = Ok ls ->
  Permutation order (merge_graphs ls) ->
  compute ev order ls = interpolate_multiple ev ss (to_shape_points rows cols) kw.
Proof. intros Hm ev valid tokenize Hinj. intros. eapply multiple_chunked; eauto. Qed.
(** the chunked call is accepted exactly when the chunks add up to the shape *)
Theorem C23_accepted : forall tokenize (s : single P D I) rows cols chunks kw,
  (exists l, interpolate_dask tokenize s (to_shape_points rows cols) chunks kw = Ok l) <->
  (exists cy cx, chunks = [cy; cx] /\ sum_nat cy = rows /\ sum_nat cx = cols).
Proof.
  intros tokenize s rows cols chunks kw. split.
  - intros (l & H). apply interpolate_dask_inv in H as (cy & cx & -> & E1 & E2 & _). exists cy, cx.
    unfold to_shape_points in E1, E2. cbn [fst snd] in E1, E2. rewrite arange_length in E1, E2. cbn in E1, E2. repeat split; lia.
  - intros (cy & cx & -> & <- & <-). unfold interpolate_dask, normalize_chunks, to_shape_points. cbn [length fst snd combine forallb].
    rewrite !arange_length. cbn [fst snd]. rewrite !Nat.sub_0_r, !Nat.eqb_refl. cbn. eauto.
Qed.

(** C24. The full statement is
      interpolate_dask s fine chunks kw = Ok l -> Permutation order (l_graph l) ->
      compute order [l] = rmap (fun m => [m]) (interpolate_numpy s fine kw)
    for every [fine]. It holds when [fine] are the indices 0, 1, ...; in general the chunked result
    is the one for these indices, whatever points were asked for. *)
Theorem C24_index_points_partial : ints_ordered -> forall ev tokenize (s : single P D I) fine chunks kw l order,
  interpolate_dask tokenize s fine chunks kw = Ok l -> Permutation order (l_graph l) ->
  compute ev order [l] =
  rmap (fun m => [m]) (interpolate_numpy ev s (to_shape_points (length (fst fine)) (length (snd fine))) kw).
Proof. intros Hm ev tokenize s fine chunks kw l order Hd Hp. apply (compute_one ev tokenize Hm _ _ _ _ _ _ Hd Hp). Qed.

(** C25. The full statement does not have the hypotheses on class ([s_kind]) and constructor
    keywords ([s_init]); it is false without them, see [C25_refuted]. *)
Theorem C25_same_class_partial : ints_ordered -> forall ev tokenize, injective tokenize ->
  forall (s1 s2 : single P D I) fine1 fine2 chunks1 chunks2 kw1 kw2 l1 l2 order1 order2,
  interpolate_dask tokenize s1 fine1 chunks1 kw1 = Ok l1 -> interpolate_dask tokenize s2 fine2 chunks2 kw2 = Ok l2 ->
  s_kind s1 = s_kind s2 -> s_init s1 = s_init s2 -> l_name l1 = l_name l2 ->
  Permutation order1 (l_graph l1) -> Permutation order2 (l_graph l2) ->
  compute ev order1 [l1] = compute ev order2 [l2].
Proof.
  intros Hm ev tokenize Hinj s1 s2 fine1 fine2 chunks1 chunks2 kw1 kw2 l1 l2 order1 order2 H1 H2 Hk Hi Hn P1 P2.
  destruct (same_name_same_values ev tokenize Hinj (Build_made tokenize s1 fine1 chunks1 kw1 l1 H1) (Build_made tokenize s2 fine2 chunks2 kw2 l2 H2) Hk Hi Hn) as [_ E].
  unfold m_full in E. cbn [m_single m_kw m_fine] in E.
  rewrite (compute_one ev tokenize Hm _ _ _ _ _ _ H1 P1), (compute_one ev tokenize Hm _ _ _ _ _ _ H2 P2). now rewrite E.
Qed.
(** computing together = computing apart *)
Theorem C25_together_partial : ints_ordered -> forall ev tokenize, injective tokenize ->
  forall k i (calls : list (single P D I * (list T * list T) * list (list nat) * K)) ls order,
  Forall2 (fun c l => let '(s, fine, chunks, kw) := c in
     interpolate_dask tokenize s fine chunks kw = Ok l /\ s_kind s = k /\ s_init s = i) calls ls ->
  Permutation order (merge_graphs ls) ->
  compute ev order ls = rmap (@concat _) (mapM (fun l => compute ev (l_graph l) [l]) ls).
Proof.
  intros Hm ev tokenize Hinj k i calls ls order H Hp.
  assert (M : exists ms, map (@m_lazy T P D I K tokenize) ms = ls /\ forall a, In a ms -> s_kind (m_single tokenize a) = k /\ s_init (m_single tokenize a) = i).
  { clear Hp. induction H as [|[[[s fine] chunks] kw] l calls ls (E & Ek & Ei) _ (ms & <- & M)].
    - exists []. split; [reflexivity|contradiction].
    - exists (Build_made tokenize s fine chunks kw l E :: ms). split; [reflexivity|]. intros a [<-|Ha]; cbn; auto. }
  destruct M as (ms & <- & M). rewrite (compute_same_class ev tokenize Hm Hinj ms k i order M Hp).
  clear Hp M H. induction ms as [|a ms IH]; [reflexivity|]. cbn [map mapM].
  rewrite (compute_one ev tokenize Hm _ _ _ _ _ _ (m_eq tokenize a) (Permutation_refl _)). unfold m_full at 1.
  destruct (full ev (m_single tokenize a) (m_kw tokenize a) (length (fst (m_fine tokenize a))) (length (snd (m_fine tokenize a)))); cbn [bind rmap]; [|reflexivity].
  rewrite IH. destruct (mapM _ (map _ ms)); reflexivity.
Qed.

(** C26 *)
Theorem C26_independent : forall ev valid k i p data fine kw rs,
  (let* ss := make_multiple valid k i p data in interpolate_multiple ev ss fine kw) = Ok rs <->
  Forall2 (fun d r => (let* s := make_single valid k i p d in interpolate_numpy ev s fine kw) = Ok r) data rs.
Proof.
  intros ev valid k i p data fine kw. unfold make_multiple, interpolate_multiple. induction data as [|d data IH]; intros rs.
  - cbn. split; [injection 1 as <-; constructor|inversion 1; reflexivity].
  - cbn [mapM]. split.
    + intros H. apply bind_Ok in H as (ss & Hs & H). apply bind_Ok in Hs as (s & Hs1 & Hs). apply bind_Ok in Hs as (ss' & Hs2 & Hs).
      injection Hs as <-. cbn [mapM] in H. apply bind_Ok in H as (r & Hr & H). apply bind_Ok in H as (rs' & Hrs & H). injection H as <-.
      constructor; [now rewrite Hs1|]. apply IH. now rewrite Hs2.
    + inversion 1 as [|? r ? rs' H1 H2]; subst. apply IH in H2. apply bind_Ok in H1 as (s & Hs & Hr). apply bind_Ok in H2 as (ss & Hss & Hrs).
      rewrite Hs, Hss. cbn [bind mapM]. rewrite Hr. cbn. now rewrite Hrs.
Qed.
(** if the interpolation of one of the arrays fails, so does the whole *)
Theorem C26_failure : forall ev valid k i p data fine kw d e,
  In d data -> (let* s := make_single valid k i p d in interpolate_numpy ev s fine kw) = Err e ->
  (let* ss := make_multiple valid k i p data in interpolate_multiple ev ss fine kw) = Err ValueError.
Proof.
  intros ev valid k i p data fine kw d e Hd He.
  destruct (let* ss := make_multiple valid k i p data in interpolate_multiple ev ss fine kw) as [rs|e'] eqn:E.
  - exfalso. apply C26_independent in E. clear -E Hd He. induction E as [|x r l rs Hx H IH]; [destruct Hd|].
    destruct Hd as [->|Hd]; [congruence|auto].
  - f_equal. unfold make_multiple, interpolate_multiple in E.
    destruct (mapM (make_single valid k i p) data) as [ss|e''] eqn:F; cbn in E.
    + apply mapM_Err in E as (s & _ & E). now apply interpolate_numpy_err in E.
    + injection E as ->. apply mapM_Err in F as (x & _ & F). unfold make_single in F. destruct (valid k i p x); congruence.
Qed.
(** the same for chunked calls *)
Theorem C26_independent_chunked : forall valid tokenize k i p data fine chunks kw (ls : list (lazy P D I K)),
  (let* ss := make_multiple valid k i p data in interpolate_multiple_dask tokenize ss fine chunks kw) = Ok ls <->
  Forall2 (fun d l => (let* s := make_single valid k i p d in interpolate_dask tokenize s fine chunks kw) = Ok l) data ls.
Proof.
  intros valid tokenize k i p data fine chunks kw. unfold make_multiple, interpolate_multiple_dask. induction data as [|d data IH]; intros rs.
  - cbn. split; [injection 1 as <-; constructor|inversion 1; reflexivity].
  - cbn [mapM]. split.
    + intros H. apply bind_Ok in H as (ss & Hs & H). apply bind_Ok in Hs as (s & Hs1 & Hs). apply bind_Ok in Hs as (ss' & Hs2 & Hs).
      injection Hs as <-. cbn [mapM] in H. apply bind_Ok in H as (r & Hr & H). apply bind_Ok in H as (rs' & Hrs & H). injection H as <-.
      constructor; [now rewrite Hs1|]. apply IH. now rewrite Hs2.
    + inversion 1 as [|? r ? rs' H1 H2]; subst. apply IH in H2. apply bind_Ok in H1 as (s & Hs & Hr). apply bind_Ok in H2 as (ss & Hss & Hrs).
      rewrite Hs, Hss. cbn [bind mapM]. rewrite Hr. cbn. now rewrite Hrs.
Qed.

(** C61: chunked geo interpolation to a shape equals eager geo interpolation to that shape *)
Theorem C61_geo_chunked : ints_ordered -> forall ev valid tokenize, injective tokenize ->
  forall (conv : D -> D -> D * D * D) (back : V -> V -> V -> V * V) k i p data ss rows cols chunks kw ls order,
  make_geo valid conv k i p data = Ok ss ->
  interpolate_multiple_dask tokenize ss (to_shape_points rows cols) chunks kw = Ok ls ->
  Permutation order (merge_graphs ls) ->
  geo_interpolate_computed ev back order ls = geo_interpolate ev back ss (to_shape_points rows cols) kw.
Proof.
  intros Hm ev valid tokenize Hinj conv back k i p data ss rows cols chunks kw ls order Hs Hd Hp.
  unfold make_geo in Hs. apply bind_Ok in Hs as ([[x y] z] & _ & Hs).
  unfold geo_interpolate_computed, geo_interpolate.
  now rewrite (multiple_chunked ev valid tokenize Hm Hinj _ _ _ _ _ _ _ _ _ _ _ Hs Hd Hp).
Qed.
End Statements.
Print Assumptions C23_single.
Print Assumptions C23_multiple.
Print Assumptions C23_accepted.
Print Assumptions C24_index_points_partial.
Print Assumptions C25_same_class_partial.
Print Assumptions C25_together_partial.
Print Assumptions C26_independent.
Print Assumptions C26_failure.
Print Assumptions C26_independent_chunked.
Print Assumptions C61_geo_chunked.

(** ** Concrete instances *)
(** the order hypothesis holds for real (and rational) coordinates *)
Lemma ints_ordered_R : @ints_ordered R RT.
Proof. intros a b H. apply Rleb_true. now apply IZR_le. Qed.
Lemma ints_ordered_Q : @ints_ordered Q QT.
Proof. intros a b H. apply Qle_bool_iff. unfold nz, QT. now rewrite <- Zle_Qle. Qed.

(** an injective [tokenize] exists, e.g. for rational points, natural data and no keyword arguments *)
Definition enc_list {A} (f : A -> nat) : list A -> nat := fold_right (fun a n => S (Cantor.to_nat (f a, n))) 0.
Lemma enc_list_inj {A} (f : A -> nat) : injective f -> injective (enc_list f).
Proof.
  intros Hf l. induction l as [|a l IH]; intros [|b l'] H; cbn [enc_list fold_right] in H; try discriminate; [reflexivity|].
  apply Nat.succ_inj in H. apply (f_equal Cantor.of_nat) in H. rewrite !Cantor.cancel_of_to in H. injection H as H1 H2.
  f_equal; [now apply Hf|now apply IH].
Qed.
Definition enc_pair {A B} (f : A -> nat) (g : B -> nat) (p : A * B) : nat := Cantor.to_nat (f (fst p), g (snd p)).
Lemma enc_pair_inj {A B} (f : A -> nat) (g : B -> nat) : injective f -> injective g -> injective (enc_pair f g).
Proof.
  intros Hf Hg [a b] [a' b'] H. apply (f_equal Cantor.of_nat) in H. unfold enc_pair in H.
  rewrite !Cantor.cancel_of_to in H. injection H as H1 H2. f_equal; auto.
Qed.
Definition enc_Z (z : Z) : nat := Cantor.to_nat (Z.to_nat z, Z.to_nat (- z)).
Lemma enc_Z_inj : injective enc_Z.
Proof.
  intros a b H. apply (f_equal Cantor.of_nat) in H. unfold enc_Z in H. rewrite !Cantor.cancel_of_to in H.
  injection H as H1 H2. lia.
Qed.
Definition enc_Q (q : Q) : nat := Cantor.to_nat (enc_Z (Qnum q), Pos.to_nat (Qden q)).
Lemma enc_Q_inj : injective enc_Q.
Proof.
  intros [a b] [c d] H. apply (f_equal Cantor.of_nat) in H. unfold enc_Q in H. rewrite !Cantor.cancel_of_to in H.
  cbn [Qnum Qden] in H. injection H as H1 H2. apply enc_Z_inj in H1. apply Pos2Nat.inj in H2. congruence.
Qed.
Definition tok_ex : list (list nat) * (Q * Q) * list (list Q) * (list Q * list Q) * unit -> nat :=
  enc_pair (enc_pair (enc_pair (enc_pair (enc_list (enc_list (fun n => n))) (enc_pair enc_Q enc_Q)) (enc_list (enc_list enc_Q)))
    (enc_pair (enc_list enc_Q) (enc_list enc_Q))) (fun _ => 0).
Example tokenize_exists : injective tok_ex.
Proof.
  repeat first [apply enc_pair_inj | apply enc_list_inj | apply enc_Q_inj]; intros x y H; [exact H|].
  destruct x, y. reflexivity.
Qed.

(** scipy's RegularGridInterpolator on a grid of two tie points per axis (at 0 and [p]), method
    'linear' ([true]) or 'nearest' ([false]), bounds_error=True *)
Definition rgi_ex (k : kind) (linear : bool) (p : Q * Q) (d : list (list Q)) (kw : unit) (y x : Q) : option Q :=
  let v i j := nth j (nth i d []) 0%Q in
  if Qle_bool 0 y && Qle_bool y (fst p) && Qle_bool 0 x && Qle_bool x (snd p) then
    if linear then
      let t := (y / fst p)%Q in let u := (x / snd p)%Q in
      Some (Qred ((1 - t) * ((1 - u) * v 0 0 + u * v 0 1) + t * ((1 - u) * v 1 0 + u * v 1 1)))
    else let i := if Qle_bool (y + y) (fst p) then 0 else 1 in
         let j := if Qle_bool (x + x) (snd p) then 0 else 1 in Some (v i j)
  else None.
Definition d_ex : list (list Q) := [[0; 8]; [16; 24]]%Q.
Definition s_ex (linear : bool) : single (Q * Q) (list (list Q)) bool :=
  {| s_kind := Grid; s_init := linear; s_points := (4, 4)%Q; s_values := d_ex |}.

(** non-vacuity of C23: a chunked 3 x 5 interpolation, tasks run in reverse order *)
Example C23_nonvacuous : exists l,
  interpolate_dask (fun _ => 7) (s_ex true) (@to_shape_points Q QT 3 5) [[2; 1]; [3; 2]] tt = Ok l /\
  compute (N := QT) rgi_ex (rev (l_graph l)) [l] = Ok [[[0; 2; 4; 6; 8]; [4; 6; 8; 10; 12]; [8; 10; 12; 14; 16]]]%Q.
Proof. eexists. split; vm_compute; reflexivity. Qed.
(** a point out of bounds: both fail *)
Example C23_out_of_bounds : exists l,
  interpolate_dask (fun _ => 7) (s_ex true) (@to_shape_points Q QT 6 2) [[3; 3]; [2]] tt = Ok l /\
  compute (N := QT) rgi_ex (l_graph l) [l] = Err ValueError /\
  interpolate_numpy (N := QT) rgi_ex (s_ex true) (@to_shape_points Q QT 6 2) tt = Err ValueError.
Proof. eexists. split; [|split]; vm_compute; reflexivity. Qed.

(** C24 is false: target points 1, 3 are replaced by 0, 1 *)
Theorem C24_refuted : exists (s : single (Q * Q) (list (list Q)) bool) fine chunks, forall tokenize,
  exists l, interpolate_dask tokenize s fine chunks tt = Ok l /\
    compute (N := QT) rgi_ex (l_graph l) [l] = Ok [[[0; 2]; [4; 6]]]%Q /\
    interpolate_numpy (N := QT) rgi_ex s fine tt = Ok [[6; 10]; [14; 18]]%Q.
Proof.
  exists (s_ex true), ([1; 3], [1; 3])%Q, [[2]; [2]]. intros tokenize. eexists.
  split; [reflexivity|]. split; [|vm_compute; reflexivity].
  match goal with |- context [tokenize ?a] => generalize (tokenize a) as name end. intros name.
  unfold compute. cbn -[Nat.eqb]. unfold get_block, assoc, find, key_eqb. cbn [fst snd]. rewrite !Nat.eqb_refl. vm_compute. reflexivity.
Qed.
Print Assumptions C24_refuted.

(** C25 is false: 'linear' and 'nearest' interpolators of the same data give arrays with the same
    name but different values; computing both at once gives the values of one of them twice *)
Theorem C25_refuted : exists (s1 s2 : single (Q * Q) (list (list Q)) bool) (fine : list Q * list Q) chunks, forall tokenize,
  exists l1 l2, interpolate_dask tokenize s1 fine chunks tt = Ok l1 /\
    interpolate_dask tokenize s2 fine chunks tt = Ok l2 /\
    l_name l1 = l_name l2 /\
    compute (N := QT) rgi_ex (l_graph l1) [l1] = Ok [[[0; 2]; [4; 6]]]%Q /\
    compute (N := QT) rgi_ex (l_graph l2) [l2] = Ok [[[0; 0]; [0; 0]]]%Q /\
    compute (N := QT) rgi_ex (merge_graphs [l1; l2]) [l1; l2] = Ok [[[0; 0]; [0; 0]]; [[0; 0]; [0; 0]]]%Q.
Proof.
  exists (s_ex true), (s_ex false), (@to_shape_points Q QT 2 2), [[2]; [2]]. intros tokenize. eexists. eexists.
  split; [reflexivity|]. split; [reflexivity|]. split; [reflexivity|].
  cbn [s_points s_values s_ex l_graph].
  match goal with |- context [tokenize ?a] => generalize (tokenize a) as name end. intros name.
  unfold merge_graphs. cbn -[Nat.eqb]. unfold dict_update, compute. cbn -[Nat.eqb].
  unfold get_block, assoc, find, key_eqb. cbn [fst snd]. rewrite !Nat.eqb_refl. cbn -[Nat.eqb].
  unfold get_block, assoc, find, key_eqb. cbn [fst snd]. rewrite !Nat.eqb_refl.
  repeat split; vm_compute; reflexivity.
Qed.
Print Assumptions C25_refuted.

(** C26, an example with two arrays *)
Example C26_case : (let* ss := make_multiple (fun _ _ _ _ => true) Grid true (4, 4)%Q [d_ex; [[1; 1]; [1; 1]]%Q] in
  interpolate_multiple (N := QT) rgi_ex ss ([0; 2]%Q, [4]%Q) tt) = Ok [[[8]; [16]]; [[1]; [1]]]%Q.
Proof. vm_compute. reflexivity. Qed.

(** ** C62: geo interpolators return the tie points at the tie points *)
(** lonlat2xyz on whole arrays (element by element), geointerpolator.py:52-59 *)
Definition map2d {A B C} (f : A -> B -> C) (a : list (list A)) (b : list (list B)) : list (list C) :=
  map (fun r => map (fun p => f (fst p) (snd p)) (combine (fst r) (snd r))) (combine a b).
Definition lonlat2xyz_arrays (lons lats : list (list (option R))) :=
  let xyz := map2d (@lonlat2xyz (option R) RN) lons lats in
  (map (map (fun p => fst (fst p))) xyz, map (map (fun p => snd (fst p))) xyz, map (map snd) xyz).
Definition xyz2lonlat_elem (x y z : option R) : option R * option R := @xyz2lonlat _ RN (x, y, z).

(** a scipy interpolator that reproduces finite data at its tie points *)
Definition node_exact {I K} (ev : kind -> I -> list R * list R -> list (list (option R)) -> K -> R -> R -> option (option R))
  (k : kind) (i : I) (ys xs : list R) (kw : K) : Prop :=
  forall vals r c, shaped (length ys) (length xs) vals -> r < length ys -> c < length xs ->
    ev k i (ys, xs) (map (map Some) vals) kw (nth r ys 0%R) (nth c xs 0%R) = Some (Some (at2 0%R vals r c)).

Lemma mapM_by_nth {A B} (f : A -> res B) (l : list A) (bs : list B) a b :
  length bs = length l -> (forall i, i < length l -> f (nth i l a) = Ok (nth i bs b)) -> mapM f l = Ok bs.
Proof.
  revert bs. induction l as [|x l IH]; intros [|y bs] L H; cbn in L; try discriminate; [reflexivity|].
  cbn. pose proof (H 0 ltac:(cbn; lia)) as H0. cbn in H0. rewrite H0. cbn. rewrite (IH bs); [reflexivity|lia|].
  intros i Hi. apply (H (S i)). cbn. lia.
Qed.

Lemma eval_grid_nodes {I K} (ev : kind -> I -> list R * list R -> list (list (option R)) -> K -> R -> R -> option (option R)) k i ys xs vals kw :
  node_exact ev k i ys xs kw -> shaped (length ys) (length xs) vals ->
  eval_grid (ev k i (ys, xs) (map (map Some) vals) kw) ys xs = Ok (map (map Some) vals).
Proof.
  intros Hn [L1 L2]. unfold eval_grid. apply (mapM_by_nth _ _ _ 0%R []); [now rewrite map_length|]. intros r Hr.
  assert (Lr : length (nth r vals []) = length xs).
  { rewrite Forall_forall in L2. apply L2, nth_In. lia. }
  rewrite (nth_indep _ [] (map Some [])) by (rewrite map_length; lia). rewrite map_nth.
  apply (mapM_by_nth _ _ _ 0%R None); [now rewrite map_length|]. intros c Hc. rewrite (Hn vals r c (conj L1 L2) Hr Hc).
  rewrite (nth_indep _ None (Some 0%R)) by (rewrite map_length; lia). now rewrite map_nth.
Qed.

(** cartesian coordinates of finite longitudes and latitudes are finite *)
Lemma cartesian_finite (f : option R * option R * option R -> option R) n w lons lats :
  (forall x y z, exists v, f (Some x, Some y, Some z) = Some v) ->
  shaped n w lons -> shaped n w lats -> exists vals, shaped n w vals /\
  map (map f) (map2d (@lonlat2xyz (option R) RN) (map (map Some) lons) (map (map Some) lats)) = map (map Some) vals.
Proof.
  intros Hf. revert n lats. induction lons as [|a lons IH]; intros n [|b lats] [L1 F1] [L2 F2]; cbn in L1, L2; try lia.
  - exists []. split; [split; [exact L1|constructor]|reflexivity].
  - inversion F1 as [|? ? La Fa]; subst. inversion F2 as [|? ? Lb Fb]; subst.
    destruct (IH (length lons) lats) as (vals & [S1 S2] & E); [split; auto|split; [lia|auto]|].
    assert (H : exists row, length row = length a /\
      map f (map (fun p => @lonlat2xyz _ RN (fst p) (snd p)) (combine (map Some a) (map Some b))) = map Some row).
    { clear - Hf Lb. revert b Lb. induction a as [|u a IH]; intros [|v b] L; cbn in L; try lia.
      - exists []. split; reflexivity.
      - destruct (IH b) as (row & Lr & E); [lia|].
        unfold lonlat2xyz, EARTH_RADIUS in *. cbn [nz RN] in *. cbn [map combine fst snd].
        rewrite lonlat2xyz_RN. destruct (@lonlat2xyz_at _ RT 6370997%R u v) as [[x y] z]. destruct (Hf x y z) as (w & Hw).
        exists (w :: row). split; [cbn; lia|]. cbn [map]. rewrite E. f_equal. exact Hw. }
    destruct H as (row & Lr & Er). exists (row :: vals). split.
    + split; [cbn; lia|constructor; assumption].
    + unfold map2d in *. cbn [map combine fst snd]. rewrite Er, E. reflexivity.
Qed.

Lemma increasing_sorted l : increasing l -> @sorted_le R RT l = true.
Proof.
  intros H. induction l as [|a [|b l] IH]; [reflexivity|reflexivity|]. cbn [sorted_le].
  apply andb_true_iff. split.
  - apply Rleb_true. left. apply (H 0 1). cbn. lia.
  - apply IH. intros i j Hij. apply (H (S i) (S j)). cbn in *. lia.
Qed.

Lemma shaped_map {A B} (f : A -> B) n m a : shaped n m a -> shaped n m (map (map f) a).
Proof.
  intros [L1 L2]. split; [now rewrite map_length|]. apply Forall_map. eapply Forall_impl; [|exact L2].
  intros r Hr. now rewrite map_length.
Qed.
Lemma shaped_map2d {A B C} (f : A -> B -> C) n m a b : shaped n m a -> shaped n m b -> shaped n m (map2d f a b).
Proof.
  intros [L1 L2] [L3 L4]. split; [unfold map2d; rewrite map_length, combine_length; lia|]. unfold map2d.
  clear L1 L3. revert b L4. induction L2 as [|x a Hx Ha IH]; intros b L4; [constructor|].
  destruct L4 as [|y b Hy Hb]; [constructor|]. cbn [combine map]. constructor; [|now apply IH].
  cbn [fst snd]. rewrite map_length, combine_length, Hx, Hy. apply Nat.min_id.
Qed.

(** zipping the components of one array gives the array back, transformed element by element *)
Lemma zip3_components {X V} (g : X -> V * V * V) (f : V -> V -> V -> V * V) m :
  zip3 f (map (map (fun p => fst (fst (g p)))) m) (map (map (fun p => snd (fst (g p)))) m) (map (map (fun p => snd (g p))) m) =
  (map (map (fun p => fst (f (fst (fst (g p))) (snd (fst (g p))) (snd (g p))))) m,
   map (map (fun p => snd (f (fst (fst (g p))) (snd (fst (g p))) (snd (g p))))) m).
Proof.
  unfold zip3.
  assert (C2 : forall (A B C : Type) (u : A -> B) (v : A -> C) l, combine (map u l) (map v l) = map (fun a => (u a, v a)) l).
  { induction l; cbn; congruence. }
  rewrite !C2, !map_map. cbn [fst snd]. f_equal; apply map_ext; intros r; rewrite !C2, !map_map; reflexivity.
Qed.

Theorem C62_geo_tie_points : forall I K
  (ev : kind -> I -> list R * list R -> list (list (option R)) -> K -> R -> R -> option (option R))
  (valid : kind -> I -> list R * list R -> list (list (option R)) -> bool) k i ys xs lons lats kw,
  node_exact ev k i ys xs kw ->
  (forall vals, shaped (length ys) (length xs) vals -> valid k i (ys, xs) (map (map Some) vals) = true) -> increasing ys -> increasing xs ->
  shaped (length ys) (length xs) lons -> shaped (length ys) (length xs) lats ->
  all2 (fun v => -180 < v < 180)%R lons -> all2 (fun v => -90 < v < 90)%R lats ->
  (let* ss := make_geo valid lonlat2xyz_arrays k i (ys, xs) [ArrayArg (map (map Some) lons); ArrayArg (map (map Some) lats)] in
   geo_interpolate (N := RT) ev xyz2lonlat_elem ss (ys, xs) kw) = Ok (map (map Some) lons, map (map Some) lats).
Proof.
  intros I K ev valid k i ys xs lons lats kw Hn Hv Iy Ix S1 S2 B1 B2.
  unfold make_geo, to_xyz, lonlat2xyz_arrays. cbn [bind].
  set (m := map2d (@lonlat2xyz (option R) RN) (map (map Some) lons) (map (map Some) lats)).
  assert (Sm : shaped (length ys) (length xs) m) by (apply shaped_map2d; apply shaped_map; assumption).
  assert (E : forall f : option R * option R * option R -> option R, (forall x y z, exists v, f (Some x, Some y, Some z) = Some v) ->
    make_single valid k i (ys, xs) (map (map f) m) = Ok {| s_kind := k; s_init := i; s_points := (ys, xs); s_values := map (map f) m |} /\
    interpolate_numpy (N := RT) ev {| s_kind := k; s_init := i; s_points := (ys, xs); s_values := map (map f) m |} (ys, xs) kw = Ok (map (map f) m)).
  { intros f Hf. destruct (cartesian_finite f (length ys) (length xs) lons lats Hf S1 S2) as (vals & Sv & Ev). fold m in Ev. rewrite Ev.
    split; [unfold make_single; now rewrite Hv|].
    unfold interpolate_numpy. cbn [s_kind s_init s_points s_values]. rewrite !increasing_sorted by assumption.
    cbn [andb negb]. rewrite andb_false_r. destruct k; now apply eval_grid_nodes. }
  destruct (E (fun p => fst (fst p))) as [X1 X2]; [intros x y z; now exists x|].
  destruct (E (fun p => snd (fst p))) as [Y1 Y2]; [intros x y z; now exists y|].
  destruct (E snd) as [Z1 Z2]; [intros x y z; now exists z|].
  unfold make_multiple. cbn [mapM]. rewrite X1, Y1, Z1. cbn [bind].
  unfold geo_interpolate, interpolate_multiple. cbn [mapM]. rewrite X2, Y2, Z2. cbn [bind to_lonlat].
  rewrite (zip3_components (fun p => p)).
  assert (Sh : forall (a b : list (list R)), shaped (length ys) (length xs) a -> shaped (length ys) (length xs) b ->
     all2 (fun v => -180 < v < 180)%R a -> all2 (fun v => -90 < v < 90)%R b ->
     map (map (fun p => xyz2lonlat_elem (fst (fst p)) (snd (fst p)) (snd p))) (map2d (@lonlat2xyz (option R) RN) (map (map Some) a) (map (map Some) b)) =
     map2d (fun u v => (Some u, Some v)) a b /\
     map (map fst) (map2d (fun u v => (u, v)) a b) = a /\ map (map snd) (map2d (fun u v => (u, v)) a b) = b).
  { clear. generalize (length ys) as n. generalize (length xs) as w. intros w n a b. revert n b. induction a as [|x a IH]; intros n b [L1 L2] [L3 L4] Ba Bb.
    - destruct b; [|cbn in *; lia]. repeat split.
    - destruct b as [|y b]; [cbn in *; lia|]. inversion L2 as [|? ? Lx La]; subst. inversion L4 as [|? ? Ly Lb]; subst.
      inversion Ba as [|? ? Bx Ba']; subst. inversion Bb as [|? ? By Bb']; subst.
      destruct (IH (length a) b) as (I1 & I2 & I3); try assumption.
      { split; auto. }
      { split; [cbn in *; lia|assumption]. }
      assert (R : forall x y, length x = length y -> Forall (fun v => -180 < v < 180)%R x -> Forall (fun v => -90 < v < 90)%R y ->
        map (fun p => xyz2lonlat_elem (fst (fst p)) (snd (fst p)) (snd p)) (map (fun p => @lonlat2xyz _ RN (fst p) (snd p)) (combine (map Some x) (map Some y)))
        = map (fun p => (Some (fst p), Some (snd p))) (combine x y)
        /\ map fst (map (fun p : R * R => (fst p, snd p)) (combine x y)) = x /\ map snd (map (fun p : R * R => (fst p, snd p)) (combine x y)) = y).
      { clear. induction x as [|u x IH]; intros [|v y] L Hx Hy; cbn in L; try discriminate; [repeat split|].
        inversion Hx; subst. inversion Hy; subst. destruct (IH y) as (I1 & I2 & I3); try assumption; [lia|].
        cbn [combine map fst snd]. rewrite I1, I2, I3. split; [|split; reflexivity]. f_equal.
        assert (RT2 := round_trip 6370997 (8 / 10) true u v ltac:(lra) ltac:(assumption) ltac:(assumption)).
        assert (E8 : @ndiv (option R) RN (@nz _ RN 8) (@nz _ RN 10) = Some (8 / 10)%R).
        { cbn [ndiv nz RN]. apply RNdiv_some. lra. }
        unfold xyz2lonlat_elem, xyz2lonlat. rewrite E8.
        unfold lonlat2xyz, EARTH_RADIUS. cbn [nz RN].
        destruct (@lonlat2xyz_at (option R) RN (Some 6370997%R) (Some u) (Some v)) as [[px py] pz]. exact RT2. }
      destruct (R x y) as (R1 & R2 & R3); try assumption; [congruence|].
      unfold map2d in *. cbn [combine map fst snd]. rewrite R1, R2, R3, I1, I2, I3. auto. }
  destruct (Sh lons lats S1 S2 B1 B2) as (E1 & E2 & E3). fold m in E1.
  assert (MM : forall (A B C : Type) (g : A -> B) (f : B -> C) a, map (map (fun p => f (g p))) a = map (map f) (map (map g) a)).
  { intros A B C g f a. rewrite map_map. apply map_ext. intros r. now rewrite map_map. }
  assert (M2 : forall f : option R * option R -> option R, forall h : R * R -> R,
    (forall u v, f (Some u, Some v) = Some (h (u, v))) ->
    map (map f) (map2d (fun u v => (Some u, Some v)) lons lats) = map (map Some) (map (map h) (map2d (fun u v => (u, v)) lons lats))).
  { intros f h Hfh. unfold map2d. rewrite !map_map. apply map_ext. intros r. rewrite !map_map. apply map_ext. intros p. apply Hfh. }
  f_equal. f_equal.
  - rewrite (MM _ _ _ (fun p => xyz2lonlat_elem (fst (fst p)) (snd (fst p)) (snd p)) fst), E1, (M2 fst fst) by reflexivity. now rewrite E2.
  - rewrite (MM _ _ _ (fun p => xyz2lonlat_elem (fst (fst p)) (snd (fst p)) (snd p)) snd), E1, (M2 snd snd) by reflexivity. now rewrite E3.
Qed.
Print Assumptions C62_geo_tie_points.

(** a node-exact evaluator exists: look the point up among the tie points *)
Fixpoint index_of (x : R) (l : list R) : nat :=
  match l with [] => 0 | a :: l' => if Req_EM_T x a then 0 else S (index_of x l') end.
Definition lookup_ev (k : kind) (i : unit) (p : list R * list R) (vals : list (list (option R))) (kw : unit) (y x : R)
  : option (option R) := Some (at2 None vals (index_of y (fst p)) (index_of x (snd p))).
Lemma index_of_nth l i : increasing l -> i < length l -> index_of (nth i l 0%R) l = i.
Proof.
  revert i. induction l as [|a l IH]; intros i H Hi; cbn [length] in Hi; [lia|]. destruct i as [|i]; cbn [nth index_of].
  - destruct (Req_EM_T a a); congruence.
  - destruct (Req_EM_T (nth i l 0%R) a) as [E|_].
    + pose proof (H 0 (S i) ltac:(cbn; lia)) as G. cbn in G. lra.
    + rewrite IH; [reflexivity| |lia]. intros p q Hpq. apply (H (S p) (S q)). cbn. lia.
Qed.
Example C62_nonvacuous_ev : forall k ys xs, increasing ys -> increasing xs -> node_exact lookup_ev k tt ys xs tt.
Proof.
  intros k ys xs Iy Ix vals r c [L F] Hr Hc. unfold lookup_ev. cbn [fst snd]. rewrite !index_of_nth by assumption. f_equal. unfold at2.
  rewrite (nth_indep _ [] (map Some [])) by (rewrite map_length; lia). rewrite map_nth.
  rewrite Forall_forall in F. pose proof (F (nth r vals []) ltac:(apply nth_In; lia)).
  rewrite (nth_indep _ None (Some 0%R)) by (rewrite map_length; lia). apply map_nth.
Qed.
Example C62_nonvacuous_data : increasing [0; 5]%R /\ (shaped 2 2 [[10; 20]; [-170; 179]]%R) /\
  (all2 (fun v => -180 < v < 180)%R [[10; 20]; [-170; 179]]%R).
Proof.
  split; [|split].
  - intros i j Hij. cbn in Hij. assert (i = 0 /\ j = 1) as [-> ->] by lia. cbn. lra.
  - split; [reflexivity|repeat constructor].
  - repeat constructor; lra.
Qed.
