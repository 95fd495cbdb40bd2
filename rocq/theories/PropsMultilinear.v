(** C27 - C32, C63, C64: multilinear interpolation.

    [node], [grid_points], [nodes_of], [flat], [multi_affine], [inside] (MultilinearProofs.v) are the
    specification: equidistant nodes, grid enumerated with the last index fastest, position of a node in
    that enumeration, functions affine in each variable. *)
From Coq Require Import ZArith List Bool Lia Permutation QArith Reals Lra.
From Verif Require Import Base Num Multilinear MultilinearProofs.
Import ListNotations.
Open Scope nat_scope.

(** what the code provides around one call for n points: np.empty((n_v, n)) with arbitrary contents and,
    for every row of values, an arbitrary order of the parallel loop, whose length is a C int *)
Definition run_ok {T} (n : nat) (scheds : list (list Z)) (empty values : list (list T)) : Prop :=
  length empty = length values /\ length scheds = length values /\
  Forall (fun r => length r = n) empty /\
  Forall (fun sched => Permutation sched (zrange 0 (Z.to_nat (cint (Z.of_nat n))))) scheds.
(** the number of points is a C int *)
Definition few (n : nat) : Prop := (Z.of_nat n <= int_max)%Z.

Lemma run_few {T} n scheds (empty values : list (list T)) : few n -> run_ok n scheds empty values ->
  length empty = length values /\ length scheds = length values /\
  Forall (fun r => length r = n) empty /\ Forall (fun sched => Permutation sched (zrange 0 n)) scheds.
Proof.
  intros F. unfold run_ok. unfold few in F. rewrite cint_id, Nat2Z.id by (unfold int_min; lia). auto.
Qed.

(** d rows (coordinates) and n columns (points) *)
Definition points_ok {T} (d n : nat) (s : list (list T)) : Prop := length s = d /\ Forall (fun r => length r = n) s.

Lemma run_generic {T} {N : NumOps T} d n scheds empty smin smax orders values s :
  1 <= d <= 4 -> length smin = d -> length smax = d -> length orders = d -> points_ok d n s ->
  few n -> Forall (fun o => (int_min <= o <= int_max)%Z) orders -> run_ok n scheds empty values ->
  multilinear_interpolation scheds empty smin smax orders values s =
  mapM (fun vals => mapM (fun i => ml (dims_of smin smax orders (column s i)) vals 0) (seq 0 n)) values.
Proof.
  intros Hd H1 H2 H3 [P1 P2] Hn Ho Hr. destruct (run_few n _ _ _ Hn Hr) as (R1 & R2 & R3 & R4).
  rewrite (multilinear_generic d n) by auto.
  assert (E : map cint orders = orders).
  { clear -Ho. induction Ho as [|o l H Ho IH]; cbn [map]; [reflexivity|]. now rewrite IH, cint_id. }
  now rewrite E.
Qed.

Section Real.
#[local] Existing Instance RT.
Open Scope R_scope.

(** a grid: as many bounds as orders, at least two nodes each, smin < smax; the number of nodes is a C int *)
Definition grid_ok (smin smax : list R) (ns : list nat) : Prop :=
  length smin = length ns /\ length smax = length ns /\
  Forall (fun n => (2 <= n)%nat /\ (Z.of_nat n <= int_max)%Z) ns /\ Forall2 (fun a b => a < b) smin smax /\
  (Z.of_nat (prodn ns) <= int_max)%Z.

Lemma F2_neq smin smax : Forall2 (fun a b => a < b) smin smax -> Forall2 (fun a b => a <> b) smin smax.
Proof. induction 1; constructor; [lra|auto]. Qed.
Lemma F_2 ns : Forall (fun n => (2 <= n)%nat /\ (Z.of_nat n <= int_max)%Z) ns -> Forall (fun n => (2 <= n)%nat) ns.
Proof. apply Forall_impl. tauto. Qed.
Lemma F_I ns : Forall (fun n => (2 <= n)%nat /\ (Z.of_nat n <= int_max)%Z) ns -> Forall (fun o => (int_min <= o <= int_max)%Z) (map Z.of_nat ns).
Proof. intros H. apply Forall_forall. intros o Ho. apply in_map_iff in Ho as (m & <- & Hm). rewrite Forall_forall in H. specialize (H m Hm). cbv beta in H. unfold int_min. lia. Qed.
Lemma F_Z ns : Forall (fun n => (2 <= n)%nat) ns -> Forall (fun o => (2 <= o)%Z) (map Z.of_nat ns).
Proof. intros H. apply Forall_forall. intros o Ho. apply in_map_iff in Ho as (m & <- & Hm). rewrite Forall_forall in H. specialize (H m Hm). cbv beta in H. lia. Qed.

(** C27: point i being node number kss i of the grid, the result is the value of that node *)
Theorem C27_nodes : forall scheds empty smin smax ns values s n (kss : nat -> list nat),
  (1 <= length ns <= 4)%nat -> grid_ok smin smax ns -> points_ok (length ns) n s -> few n -> run_ok n scheds empty values ->
  Forall (fun r => length r = prodn ns) values ->
  (forall i, (i < n)%nat -> Forall2 (fun k m => (k < m)%nat) (kss i) ns /\ column s i = nodes_of smin smax ns (kss i)) ->
  multilinear_interpolation scheds empty smin smax (map Z.of_nat ns) values s =
  Ok (map (fun vals => map (fun i => nth (flat ns (kss i)) vals 0) (seq 0 n)) values).
Proof.
  intros scheds empty smin smax ns values s n kss Hd (G1 & G2 & G3 & G4 & G5) Hs Hn Hr Hv Hk.
  rewrite (run_generic (length ns) n) by (rewrite ?map_length; auto using F_I).
  apply mapM_Ok_map. intros vals Hvals. rewrite Forall_forall in Hv. specialize (Hv vals Hvals). cbv beta in Hv.
  apply mapM_Ok_map. intros i Hi. apply in_seq in Hi. destruct (Hk i ltac:(lia)) as [K1 ->].
  rewrite ml_node; auto using F2_neq; [|lia|lia|lia].
  assert (FL : (flat ns (kss i) < prodn ns)%nat).
  { clear -K1. induction K1 as [|k m ks ms Hkm K1 IH]; cbn [flat prodn fold_right]; [lia|]. fold (prodn ms). nia. }
  rewrite (rdi_ok _ _ 0) by lia. cbn [Z.add]. now rewrite Nat2Z.id.
Qed.
Print Assumptions C27_nodes.

(** C27: evaluating at the grid of the class returns the values *)
Theorem C27_own_grid : forall smin smax ns values, (2 <= length ns <= 4)%nat -> grid_ok smin smax ns ->
  Forall (fun r => length r = prodn ns) values ->
  exists grid, mlinspace smin smax ns = Ok grid /\ points_ok (length ns) (prodn ns) grid /\
    (forall i, (i < prodn ns)%nat -> column grid i = nth i (grid_points smin smax ns) []) /\
    forall scheds empty, run_ok (prodn ns) scheds empty values ->
      multilinear_interpolation scheds empty smin smax (map Z.of_nat ns) values grid = Ok values.
Proof.
  intros smin smax ns values Hd Hg Hv. pose proof Hg as (G1 & G2 & G3 & G4 & G5).
  unfold mlinspace. destruct (Nat.eqb_spec (length ns) 1); [lia|].
  rewrite mlinspace_axes by auto using F_2. cbn [bind]. rewrite cart_axes by auto.
  set (grid := map _ (seq 0 (length ns))). exists grid.
  assert (P : points_ok (length ns) (prodn ns) grid).
  { unfold points_ok, grid. rewrite map_length, seq_length. split; [reflexivity|].
    apply Forall_forall. intros r Hr. apply in_map_iff in Hr as (k & <- & _). rewrite map_length. now apply grid_points_length. }
  assert (C : forall i, (i < prodn ns)%nat -> column grid i = nth i (grid_points smin smax ns) []).
  { intros i Hi. unfold grid. apply column_transpose.
    - apply Forall_forall. intros p Hp. now apply (grid_point_length smin smax).
    - now rewrite grid_points_length. }
  split; [reflexivity|]. split; [exact P|]. split; [exact C|]. intros scheds empty Hr.
  rewrite (run_generic (length ns) (prodn ns)) by (rewrite ?map_length; auto using F_I; lia).
  rewrite (mapM_Ok_map _ (fun v => v)); [now rewrite map_id|].
  intros vals Hvals. rewrite Forall_forall in Hv. specialize (Hv vals Hvals). cbv beta in Hv.
  rewrite (mapM_Ok_map _ (fun i => nth i vals 0)).
  - f_equal. apply (list_eq_nth 0); [rewrite map_length, seq_length; lia|].
    intros i Hi. rewrite map_length, seq_length in Hi. rewrite (nth_map' _ _ _ 0%nat) by (now rewrite seq_length).
    now rewrite seq_nth.
  - intros i Hi. apply in_seq in Hi. rewrite C by lia.
    destruct (grid_point_nodes smin smax ns i G1 G2 ltac:(lia)) as (ks & K1 & K2 & ->).
    rewrite ml_node; auto using F2_neq; [|lia|lia|lia]. rewrite K2.
    rewrite (rdi_ok _ _ 0) by lia. cbn [Z.add]. now rewrite Nat2Z.id.
Qed.
Print Assumptions C27_own_grid.

(** C28: rows of values sampled from functions fs, each affine in every variable; any points *)
Theorem C28_multi_affine : forall scheds empty smin smax ns fs s n,
  (1 <= length ns <= 4)%nat -> grid_ok smin smax ns -> points_ok (length ns) n s -> few n ->
  Forall multi_affine fs ->
  let values := map (fun f => map f (grid_points smin smax ns)) fs in
  run_ok n scheds empty values ->
  multilinear_interpolation scheds empty smin smax (map Z.of_nat ns) values s =
  Ok (map (fun f => map (fun i => f (column s i)) (seq 0 n)) fs).
Proof.
  intros scheds empty smin smax ns fs s n Hd (G1 & G2 & G3 & G4 & G5) Hs Hn Hf values Hr.
  rewrite (run_generic (length ns) n) by (rewrite ?map_length; auto using F_I).
  unfold values. rewrite mapM_map'. apply mapM_Ok_map. intros f Hff. rewrite Forall_forall in Hf.
  apply mapM_Ok_map. intros i Hi. apply (ml_affine smin smax ns); auto using F_2, F2_neq.
  - unfold column. rewrite map_length. apply Hs.
  - intros j Hj. cbn [Z.add]. rewrite (rdi_ok _ _ 0) by (rewrite ?map_length, ?grid_points_length; auto; lia).
    rewrite Nat2Z.id. rewrite (nth_map' _ _ _ []) by (now rewrite grid_points_length). reflexivity.
Qed.
Print Assumptions C28_multi_affine.

(** a multi-affine function that is not affine *)
Example C28_function : multi_affine (fun p => match p with [x; y] => 3 + 2 * x - y + 5 * x * y | _ => 0 end).
Proof.
  intros pre x post. destruct pre as [|a [|b [|c pre]]]; cbn [app].
  - destruct post as [|y [|z post]]; ring.
  - destruct post as [|y post]; ring.
  - ring.
  - ring.
Qed.

(** C29: inside the grid *)
Theorem C29_between : forall scheds empty smin smax ns values s n lo hi out,
  (1 <= length ns <= 4)%nat -> grid_ok smin smax ns -> points_ok (length ns) n s -> few n -> run_ok n scheds empty values ->
  (forall i, (i < n)%nat -> inside smin smax (column s i)) ->
  Forall (Forall (fun v => lo <= v <= hi)) values ->
  multilinear_interpolation scheds empty smin smax (map Z.of_nat ns) values s = Ok out ->
  Forall (Forall (fun v => lo <= v <= hi)) out.
Proof.
  intros scheds empty smin smax ns values s n lo hi out Hd (G1 & G2 & G3 & G4 & G5) Hs Hn Hr Hin Hv.
  rewrite (run_generic (length ns) n) by (rewrite ?map_length; auto using F_I). clear Hr.
  revert out; induction values as [|vals values IH]; intros out; cbn [mapM].
  - intros [= <-]. constructor.
  - destruct (mapM _ (seq 0 n)) as [r|] eqn:E; cbn [bind]; [|discriminate].
    destruct (mapM _ values) as [rs|] eqn:E2; cbn [bind]; [|discriminate]. intros [= <-].
    constructor; [|apply IH; [now apply Forall_inv_tail in Hv|reflexivity]].
    clear IH E2. apply Forall_inv in Hv.
    assert (Hl : forall i, In i (seq 0 n) -> (i < n)%nat) by (intros i Hi; apply in_seq in Hi; lia).
    revert r E Hl. generalize (seq 0 n). intros l. induction l as [|i l IHl]; cbn [mapM]; intros r E Hl.
    + injection E as <-. constructor.
    + destruct (ml _ vals 0) as [v|] eqn:Ev; cbn [bind] in E; [|discriminate].
      destruct (mapM _ l) as [vs|] eqn:Evs; cbn [bind] in E; [|discriminate]. injection E as <-.
      constructor; [|apply IHl; [reflexivity|intros; apply Hl; now right]].
      exact (ml_bounds smin smax ns (column s i) vals 0 lo hi v G1 G2 G3 G4 (Hin i (Hl i (or_introl eq_refl))) Hv Ev).
Qed.
Print Assumptions C29_between.
End Real.

Lemma orders_int orders : Forall (fun o => (2 <= o)%Z) orders -> (prodZ orders <= int_max)%Z -> Forall (fun o => (int_min <= o <= int_max)%Z) orders.
Proof.
  intros Ho. induction Ho as [|o l H Ho IH]; intros HI; constructor.
  - cbn [prodZ fold_right] in HI. fold (prodZ l) in HI. assert (1 <= prodZ l)%Z by (apply prodZ_pos; eapply Forall_impl; [|exact Ho]; cbv beta; lia).
    unfold int_min. nia.
  - apply IH. cbn [prodZ fold_right] in HI. fold (prodZ l) in HI. assert (1 <= prodZ l)%Z by (apply prodZ_pos; eapply Forall_impl; [|exact Ho]; cbv beta; lia). nia.
Qed.

(** C30, any arithmetic: with at least two nodes in every dimension all accesses are inside the arrays.
    Missing: dimensions with a single node, where the property is false (below). *)
Theorem C30_memory_safe_partial : forall {T} {N : NumOps T} scheds empty (smin smax : list T) orders values s d n,
  1 <= d <= 4 -> length smin = d -> length smax = d -> length orders = d -> points_ok d n s -> few n ->
  run_ok n scheds empty values -> Forall (fun o => (2 <= o)%Z) orders -> (prodZ orders <= int_max)%Z ->
  Forall (fun r => Z.of_nat (length r) = prodZ orders) values ->
  exists out, multilinear_interpolation scheds empty smin smax orders values s = Ok out /\
    length out = length values /\ Forall (fun r => length r = n) out.
Proof.
  intros T N scheds empty smin smax orders values s d n Hd H1 H2 H3 Hs Hn Hr Ho HI Hv.
  rewrite (run_generic d n) by auto using orders_int. clear Hr.
  assert (R : forall vals, Z.of_nat (length vals) = prodZ orders ->
    exists r, mapM (fun i => ml (dims_of smin smax orders (column s i)) vals 0) (seq 0 n) = Ok r /\ length r = n).
  { intros vals L. assert (G : forall l, exists r, mapM (fun i => ml (dims_of smin smax orders (column s i)) vals 0) l = Ok r /\ length r = length l).
    { induction l as [|i l (r & E & Lr)]; cbn [mapM]; [eexists; split; [reflexivity|reflexivity]|].
      destruct (ml_safe smin smax orders (column s i) vals 0) as [v ->]; try lia; auto.
      { unfold column. rewrite map_length. destruct Hs. lia. }
      rewrite E. cbn [bind]. eexists; split; [reflexivity|]. cbn [length]. lia. }
    destruct (G (seq 0 n)) as (r & E & L2). rewrite seq_length in L2. eauto. }
  induction Hv as [|vals values Hv1 Hv IH]; cbn [mapM].
  - eexists; repeat split; constructor.
  - destruct (R vals Hv1) as (r & -> & Lr). destruct IH as (out & -> & Lo & Fo). cbn [bind].
    eexists; split; [reflexivity|]. split; [cbn [length]; lia|]. constructor; auto.
Qed.
Print Assumptions C30_memory_safe_partial.

Example C30_case : exists (out : list (list Q)),
  @multilinear_interpolation Q QT [[1; 0; 2]%Z] [[9; 9; 9]%Q] [0; 0]%Q [1; 2]%Q [2; 3]%Z [[0; 1; 2; 3; 4; 5]%Q] [[0; 1; 5]; [2; 1 # 2; -7]]%Q
  = Ok out /\ nth 1 (nth 0 out []) 0%Q = 7 # 2.
Proof. eexists; split; [vm_compute; reflexivity|]. reflexivity. Qed.

(** C30 is false with a single node in a dimension, which the constructor accepts: for every arithmetic and
    every point the second vertex is read beyond the values. *)
Theorem C30_single_node : forall {T} {N : NumOps T} (lo hi v x : T),
  multilinear_interpolation [[0%Z]] [[v]] [lo] [hi] [1%Z] [[v]] [[x]] = Err OutOfBounds.
Proof.
  intros. cbn. unfold ml_1d, vertices_1d. cbn [rd2 rd1 Z.ltb Z.compare Z.to_nat nth_error bind].
  unfold cell. replace (Z.max (Z.min _ (1 - 2)) 0) with 0%Z by lia. reflexivity.
Qed.
Print Assumptions C30_single_node.
Theorem C30_refuted : exists (smin smax : list R) orders values s scheds empty,
  length smin = length orders /\ length smax = length orders /\ points_ok (length orders) 1 s /\ run_ok 1 scheds empty values /\
  Forall (fun r => Z.of_nat (length r) = prodZ orders) values /\
  @multilinear_interpolation R RT scheds empty smin smax orders values s = Err OutOfBounds.
Proof.
  exists [0%R], [1%R], [1%Z], [[5%R]], [[0%R]], [[0%Z]], [[5%R]].
  repeat split; try (repeat constructor; fail). apply (@C30_single_node R RT).
Qed.
Print Assumptions C30_refuted.

(** C31, any arithmetic, any arguments (no other hypothesis on sizes): result and failure are the same *)
Theorem C31_schedule : forall {T} {N : NumOps T} (smin smax : list T) orders values s n scheds1 scheds2 empty1 empty2,
  1 <= length s <= 4 -> few n -> run_ok n scheds1 empty1 values -> run_ok n scheds2 empty2 values ->
  multilinear_interpolation scheds1 empty1 smin smax orders values s =
  multilinear_interpolation scheds2 empty2 smin smax orders values s.
Proof.
  intros T N smin smax orders values s n s1 s2 e1 e2 Hd Hn HA HB. destruct (run_few n _ _ _ Hn HA) as (A1 & A2 & A3 & A4). destruct (run_few n _ _ _ Hn HB) as (B1 & B2 & B3 & B4).
  rewrite (multilinear_rows (length s) n s1 e1) by auto. now rewrite (multilinear_rows (length s) n s2 e2) by auto.
Qed.
Print Assumptions C31_schedule.
Example C31_case : run_ok 3 [[2; 0; 1]%Z] [[7; 8; 9]] [[1; 2; 3; 4]].
Proof.
  repeat split; try (repeat constructor; fail). constructor; [|constructor]. cbn.
  eapply perm_trans; [apply perm_swap|]. apply perm_skip. apply perm_swap.
Qed.

(** C32 *)
Theorem C32_more_than_four : forall {T} {N : NumOps T} scheds empty (smin smax : list T) orders values s,
  4 < length s -> multilinear_interpolation scheds empty smin smax orders values s = Err GenericException.
Proof. intros. unfold multilinear_interpolation. destruct (Z.ltb_spec 4 (Z.of_nat (length s))); [reflexivity|lia]. Qed.
Print Assumptions C32_more_than_four.
Example C32_case : 4 < length (repeat [0%Q] 5). Proof. cbn. lia. Qed.

(** C63: the number of coordinates of the points is not compared with the grid.
    Too many coordinates: the orders are read out of bounds, for any arithmetic. *)
Theorem C63_more_coordinates : forall {T} {N : NumOps T} scheds empty (smin smax : list T) orders vals values s n,
  length orders < length s <= 4 -> 1 <= n -> few n -> run_ok n scheds empty (vals :: values) ->
  multilinear_interpolation scheds empty smin smax orders (vals :: values) s = Err OutOfBounds.
Proof.
  intros T N scheds empty smin smax orders vals values s n [Hd1 Hd2] Hn Hm HA. destruct (run_few n _ _ _ Hm HA) as (A1 & A2 & A3 & A4).
  rewrite (multilinear_rows (length s) n) by (auto; lia). cbn [mapM]. rewrite mapM_oob; [reflexivity| |].
  - intros i e. apply ml_body_err.
  - exists 0%Z. 
    assert (H : exists e, ml_body (length s) smin smax orders vals s 0 = Err e).
    { destruct (length s) as [|[|[|[|[|d]]]]]; try lia; cbn [ml_body]; unfold ml_1d, ml_2d, ml_3d, ml_4d;
      destruct orders as [|o0 [|o1 [|o2 [|o3 orders]]]]; cbn [length] in Hd1; try lia;
      rewrite ?rdo_0, ?rdo_1, ?rdo_2, ?rdo_3; cbn [bind]; unfold rdo; rewrite rd1_err by (cbn [length]; lia); cbn [bind]; eauto. }
    destruct H as [e He]. exists e. split; [apply In_zrange; lia|exact He].
Qed.
Print Assumptions C63_more_coordinates.
(** Too few: the last dimensions of the grid are ignored, the result is that of a smaller grid *)
Theorem C63_fewer_coordinates : forall {T} {N : NumOps T} scheds empty (smin smax : list T) orders values s n,
  1 <= length s <= 4 -> few n -> run_ok n scheds empty values ->
  multilinear_interpolation scheds empty smin smax orders values s =
  multilinear_interpolation scheds empty (firstn (length s) smin) (firstn (length s) smax) (firstn (length s) orders) values s.
Proof.
  intros T N scheds empty smin smax orders values s n Hd Hn HA. destruct (run_few n _ _ _ Hn HA) as (A1 & A2 & A3 & A4).
  rewrite (multilinear_rows (length s) n) by (auto; lia).
  rewrite (multilinear_rows (length s) n) by (auto; lia).
  apply mapM_ext. intros vals _. apply mapM_ext. intros i _.
  assert (E : forall A (l : list A) k j, (0 <= j < Z.of_nat k)%Z -> rd1 (firstn k l) j = rd1 l j).
  { intros A l k j Hj. unfold rd1. destruct (Z.ltb_spec j 0); [lia|].
    rewrite <- (firstn_skipn k l) at 2. destruct (Nat.lt_ge_cases (Z.to_nat j) (length (firstn k l))).
    - now rewrite nth_error_app1 by lia.
    - rewrite firstn_length in H0. rewrite (proj2 (nth_error_None (firstn k l) (Z.to_nat j))) by (rewrite firstn_length; lia).
      rewrite nth_error_app2 by (rewrite firstn_length; lia).
      rewrite skipn_all2 by lia. destruct (_ - _); reflexivity. }
  destruct (length s) as [|[|[|[|[|d]]]]]; try lia; cbn [ml_body]; unfold ml_1d, ml_2d, ml_3d, ml_4d, rdo;
  repeat rewrite E by lia; reflexivity.
Qed.
Print Assumptions C63_fewer_coordinates.
(** none: the uninitialised buffer is returned *)
Theorem C63_no_coordinates : forall {T} {N : NumOps T} scheds empty (smin smax : list T) orders values,
  length empty = length values -> length scheds = length values ->
  multilinear_interpolation scheds empty smin smax orders values [] = Ok empty.
Proof.
  intros T N scheds empty smin smax orders values H1 H2. unfold multilinear_interpolation. cbn [length Z.of_nat Z.ltb Z.compare Z.eqb].
  revert empty scheds H1 H2. induction values as [|v values IH]; intros [|e empty] [|sc scheds] H1 H2; try discriminate; [reflexivity|].
  cbn [length] in H1, H2. cbn [combine mapM]. rewrite IH by lia. reflexivity.
Qed.
Print Assumptions C63_no_coordinates.
Theorem C63_refuted : exists (smin smax : list R) orders values s out scheds empty,
  length smin = length orders /\ length smax = length orders /\ run_ok 0 scheds empty values /\
  Forall (fun r => Z.of_nat (length r) = prodZ orders) values /\
  length s <> length orders /\ @multilinear_interpolation R RT scheds empty smin smax orders values s = Ok out.
Proof.
  exists [0; 0]%R, [1; 1]%R, [2; 2]%Z, [[1; 2; 3; 4]%R], [], [[]], [[]], [[]].
  repeat split; try (repeat constructor; fail). discriminate.
Qed.
Print Assumptions C63_refuted.
Example C63_case : @multilinear_interpolation Q QT [[0%Z]] [[9]%Q] [0; 0]%Q [1; 1]%Q [2; 2]%Z [[10; 20; 30; 40]%Q] [[1 # 2]%Q]
  = Ok [[15]%Q].
Proof. vm_compute. reflexivity. Qed.

(** C64: the grid property *)
Theorem C64_grid_partial : forall {T} {N : NumOps T} (smin smax : list T) ns,
  length ns <> 1 -> length smin = length ns -> length smax = length ns ->
  exists grid, mlinspace smin smax ns = Ok grid /\ length grid = length ns /\ Forall (fun r => length r = prodn ns) grid.
Proof.
  intros T N smin smax ns Hn H1 H2. unfold mlinspace. destruct (Nat.eqb_spec (length ns) 1); [contradiction|].
  assert (A : exists axes, mapM (fun i =>
       match nth_error smin i, nth_error smax i, nth_error ns i with
       | Some a, Some b, Some n => Ok (linspace a b n)
       | _, _, _ => Err IndexError
       end) (seq 0 (length ns)) = Ok axes /\ map (@length T) axes = ns).
  { clear n Hn.
    assert (Ll : forall (a b : T) k, length (linspace a b k) = k).
    { intros a b [|[|k]]; [reflexivity|reflexivity|]. unfold linspace. rewrite app_length, map_length, zrange_length. cbn. lia. }
    assert (G : forall pa pb pn (sa sb : list T) (sn : list nat), length pa = length pn -> length pb = length pn ->
      length sa = length sn -> length sb = length sn -> exists axes, mapM (fun i =>
       match nth_error (pa ++ sa) i, nth_error (pb ++ sb) i, nth_error (pn ++ sn) i with
       | Some a, Some b, Some n => Ok (linspace a b n)
       | _, _, _ => Err IndexError
       end) (seq (length pn) (length sn)) = Ok axes /\ map (@length T) axes = sn).
    { intros pa pb pn sa sb sn La Lb. revert pa pb pn sa sb La Lb.
      induction sn as [|k sn IH]; intros pa pb pn sa sb La Lb L1 L2.
      - exists []. split; reflexivity.
      - destruct sa as [|a sa]; [discriminate|]. destruct sb as [|b sb]; [discriminate|].
        cbn [length] in L1, L2. apply Nat.succ_inj in L1. apply Nat.succ_inj in L2. cbn [length seq mapM].
        assert (E : forall A (l : list A) x r, nth_error (l ++ x :: r) (length l) = Some x).
        { intros A l x r. rewrite nth_error_app2 by lia. now rewrite Nat.sub_diag. }
        assert (Ea : nth_error (pa ++ a :: sa) (length pn) = Some a) by (rewrite <- La; apply E).
        assert (Eb : nth_error (pb ++ b :: sb) (length pn) = Some b) by (rewrite <- Lb; apply E).
        rewrite Ea, Eb, E. cbn [bind].
        destruct (IH (pa ++ [a]) (pb ++ [b]) (pn ++ [k]) sa sb) as (axes & E1 & E2); rewrite ?app_length; cbn [length]; try lia.
        rewrite !app_length in E1. cbn [length] in E1. replace (length pn + 1) with (S (length pn)) in E1 by lia.
        rewrite <- !app_assoc in E1. cbn [app] in E1. rewrite E1. cbn [bind]. eexists; split; [reflexivity|].
        cbn [map]. now rewrite Ll, E2. }
    exact (G [] [] [] smin smax ns eq_refl eq_refl H1 H2). }
  destruct A as (axes & -> & La). cbn [bind]. eexists; split; [reflexivity|]. rewrite map_length, seq_length. split; [reflexivity|].
  apply Forall_forall. intros r Hr. apply in_map_iff in Hr as (k & <- & _). rewrite map_length. subst ns. clear.
  induction axes as [|a axes IH]; cbn [cart map prodn fold_right]; [reflexivity|].
  rewrite flat_map_concat_map, (concat_length_const _ (prodn (map (@length T) axes))).
  - now rewrite map_length.
  - apply Forall_forall. intros l Hl. apply in_map_iff in Hl as (x & <- & _). now rewrite map_length.
Qed.
Print Assumptions C64_grid_partial.
Theorem C64_refuted : exists (smin smax : list R) ns, length smin = length ns /\ length smax = length ns /\
  Forall (fun n => 2 <= n) ns /\ ns <> [] /\ @mlinspace R RT smin smax ns = Err TypeError.
Proof. exists [0%R], [1%R], [5]. repeat split; try (repeat constructor; fail). discriminate. Qed.
Print Assumptions C64_refuted.
Theorem C64_one_dimension : forall {T} {N : NumOps T} (lo hi : T) n, mlinspace [lo] [hi] [n] = Err TypeError.
Proof. reflexivity. Qed.
Print Assumptions C64_one_dimension.

(** C81: positions of nodes and the number of points are C ints.
    From 2^31 points on, the number of points wraps around to a negative number: nothing is computed *)
Theorem C81_many_points : forall {T} {N : NumOps T} scheds empty (smin smax : list T) orders values s n,
  length s <= 4 -> (2147483648 <= Z.of_nat n < 4294967296)%Z -> run_ok n scheds empty values ->
  multilinear_interpolation scheds empty smin smax orders values s = Ok empty.
Proof.
  intros T N scheds empty smin smax orders values s n Hs Hn (A1 & A2 & A3 & A4).
  assert (E : Z.to_nat (cint (Z.of_nat n)) = 0).
  { unfold cint. rewrite <- (Z_mod_plus_full _ (-1)), Z.mod_small by lia. lia. }
  rewrite E in A4. cbn [zrange seq map] in A4.
  unfold multilinear_interpolation. destruct (Z.ltb_spec 4 (Z.of_nat (length s))); [lia|].
  clear -A1 A2 A4. revert empty scheds A1 A2 A4.
  induction values as [|v values IH]; intros [|e empty] [|sc scheds] A1 A2 A4; try discriminate; [reflexivity|].
  cbn [length] in A1, A2. inversion A4 as [|? ? P A5]; subst. apply Permutation_sym, Permutation_nil in P. subst sc.
  cbn [combine mapM]. rewrite IH by (auto; lia). cbn [prange].
  repeat (match goal with |- context [if ?b then _ else _] => destruct b end); reflexivity.
Qed.
Print Assumptions C81_many_points.

Section LargeGrid.
#[local] Existing Instance RT.
Lemma node_last n : (2 <= n)%nat -> node 0 1 n (n - 1) = 1%R.
Proof. intros Hn. destruct (INR_pred n Hn) as [P1 P2]. unfold node. field. lra. Qed.
(** the last node of a square grid *)
Lemma square_last (n : nat) V : (2 <= n)%nat -> (Z.of_nat n <= 100000)%Z ->
  let z := Z.of_nat n in
  ml (dims_of [0; 0]%R [1; 1]%R [z; z] [1; 1]%R) V 0 =
  let* a := rdi V (z * (z - 2) + (z - 2))%Z in let* b := rdi V (z * (z - 2) + (z - 1))%Z in
  let* c := rdi V (z * (z - 1) + (z - 2))%Z in rdi V (z * (z - 1) + (z - 1))%Z.
Proof.
  intros Hn Hm z.
  assert (N1 : node 0 1 n (n - 1) = 1%R).
  { now apply node_last. }
  pose proof (cell_node 0 1 n (n - 1) Hn ltac:(lra) ltac:(lia) ltac:(unfold int_max; lia)) as C. rewrite N1 in C. cbv zeta in C. fold z in C.
  destruct C as [(_ & _ & C)|(Q & L & _)]; [lia|].
  cbn [dims_of ml prodZ fold_right]. cbn [nadd nmul nsub nz ndiv RT] in *. rewrite L, Q. clear Q L.
  replace (Z.of_nat (n - 1)) with (z - 1)%Z by lia.
  replace (0 + z * 1 * (z - 1 - 1) + 1 * (z - 1 - 1))%Z with (z * (z - 2) + (z - 2))%Z by ring.
  replace (0 + z * 1 * (z - 1 - 1) + 1 * (z - 1 - 1 + 1))%Z with (z * (z - 2) + (z - 1))%Z by ring.
  replace (0 + z * 1 * (z - 1 - 1 + 1) + 1 * (z - 1 - 1))%Z with (z * (z - 1) + (z - 2))%Z by ring.
  replace (0 + z * 1 * (z - 1 - 1 + 1) + 1 * (z - 1 - 1 + 1))%Z with (z * (z - 1) + (z - 1))%Z by ring.
  destruct (rdi V (z * (z - 2) + (z - 2))%Z); cbn [bind]; [|reflexivity].
  destruct (rdi V (z * (z - 2) + (z - 1))%Z); cbn [bind]; [|reflexivity].
  destruct (rdi V (z * (z - 1) + (z - 2))%Z); cbn [bind]; [|reflexivity].
  destruct (rdi V (z * (z - 1) + (z - 1))%Z); cbn [bind]; [|reflexivity]. f_equal. ring.
Qed.

Lemma square_run n V out : (2 <= n)%nat -> (Z.of_nat n <= 100000)%Z ->
  let z := Z.of_nat n in
  multilinear_interpolation [[0%Z]] [[out]] [0; 0]%R [1; 1]%R [z; z] [V] [[1]; [1]]%R =
  let* v := ml (dims_of [0; 0]%R [1; 1]%R [z; z] [1; 1]%R) V 0 in Ok [[v]].
Proof.
  intros Hn Hm z. rewrite (run_generic 2 1); try reflexivity; try lia.
  - cbn [mapM seq column map nth]. destruct (ml _ V 0); reflexivity.
  - split; [reflexivity|]. constructor; [reflexivity|]. constructor; [reflexivity|constructor].
  - unfold few, int_max. lia.
  - constructor; [|constructor; [|constructor]]; unfold int_min, int_max; lia.
  - split; [reflexivity|]. split; [reflexivity|]. split; [constructor; [reflexivity|constructor]|]. constructor; [apply Permutation_refl|constructor].
Qed.

(** C81: the last node of a square grid of 46341 to 65536 nodes a side is looked for in front of the values *)
Theorem C81_large_grid : forall n V out, (46341 <= Z.of_nat n <= 65536)%Z -> length V = prodn [n; n] ->
  let z := Z.of_nat n in
  multilinear_interpolation [[0%Z]] [[out]] [0; 0]%R [1; 1]%R [z; z] [V] [[1]; [1]]%R = Err OutOfBounds.
Proof.
  intros n V out Hn HV z. unfold z. rewrite square_run by lia. rewrite square_last by lia. fold z.
  assert (E : rdi V (z * (z - 1) + (z - 1))%Z = Err OutOfBounds).
  { unfold rdi. apply rd1_err. unfold cint. rewrite <- (Z_mod_plus_full _ (-1)), Z.mod_small by nia. nia. }
  rewrite E.
  destruct (rdi_cases V (z * (z - 2) + (z - 2))%Z) as [[? ->]| ->]; cbn [bind]; [|reflexivity].
  destruct (rdi_cases V (z * (z - 2) + (z - 1))%Z) as [[? ->]| ->]; cbn [bind]; [|reflexivity].
  destruct (rdi_cases V (z * (z - 1) + (z - 2))%Z) as [[? ->]| ->]; cbn [bind]; reflexivity.
Qed.
Print Assumptions C81_large_grid.

(** C81: on a grid of 70000 x 70000 nodes it is found, but at another node: the value 1 of the last node comes out as 0 *)
Theorem C81_refuted : exists n V, length V = prodn [n; n] /\ nth (flat [n; n] [n - 1; n - 1]) V 0%R = 1%R /\
  nodes_of [0; 0]%R [1; 1]%R [n; n] [n - 1; n - 1] = [1; 1]%R /\
  forall out, multilinear_interpolation [[0%Z]] [[out]] [0; 0]%R [1; 1]%R [Z.of_nat n; Z.of_nat n] [V] [[1]; [1]]%R = Ok [[0%R]].
Proof.
  destruct (Z_of_nat_complete 70000 ltac:(lia)) as [n Hn]. exists n, (repeat 0%R (n * n - 1) ++ [1%R]).
  assert (L : length (repeat 0%R (n * n - 1) ++ [1%R]) = n * n) by (rewrite app_length, repeat_length; cbn [length]; nia).
  split; [cbn [prodn fold_right]; rewrite L; nia|]. split; [|split].
  - rewrite app_nth2; rewrite repeat_length; cbn [flat prodn fold_right]; [|nia].
    replace (_ - _) with 0 by nia. reflexivity.
  - cbn [nodes_of]. assert (N1 : node 0 1 n (n - 1) = 1%R); [|now rewrite N1].
    apply node_last; lia.
  - intros out. rewrite square_run by lia. rewrite square_last by lia.
    assert (R : forall i, (4294967296 <= i < Z.of_nat n * Z.of_nat n)%Z -> rdi (repeat 0%R (n * n - 1) ++ [1%R]) i = Ok 0%R).
    { intros i Hi. unfold rdi, cint. rewrite <- (Z_mod_plus_full _ (-1)), Z.mod_small by nia.
      rewrite (rd1_ok _ _ 0%R) by nia. rewrite app_nth1 by (rewrite repeat_length; nia). f_equal. apply nth_repeat. }
    rewrite !R by nia. reflexivity.
Qed.
Print Assumptions C81_refuted.
End LargeGrid.
Example C81_case : length (repeat 0%R (Z.to_nat 2147488281)) = prodn [Z.to_nat 46341; Z.to_nat 46341].
Proof. rewrite repeat_length. cbn [prodn fold_right]. lia. Qed.

(** the hypotheses of C27 - C29 for a 2 x 3 grid *)
Example C27_case : grid_ok [0; -1]%R [1; 3]%R [2; 3] /\ prodn [2; 3] = 6 /\ flat [2; 3] [1; 2] = 5 /\
  nodes_of [0; -1]%R [1; 3]%R [2; 3] [1; 2] = [1; 3]%R /\ inside [0; -1]%R [1; 3]%R [1 / 2; 0]%R.
Proof.
  split; [split; [|split; [|split; [|split]]]|split; [|split; [|split]]]; try reflexivity.
  - repeat constructor; cbn; unfold int_max; lia.
  - repeat constructor; lra.
  - cbn. unfold int_max. lia.
  - cbn. f_equal; [|f_equal]; unfold node; cbn; field.
  - repeat constructor; cbn; lra.
Qed.
