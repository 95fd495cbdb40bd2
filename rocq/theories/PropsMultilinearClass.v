(** C82, C83: class MultilinearInterpolator *)
From Coq Require Import ZArith List Bool Lia Permutation QArith Reals Lra.
From Verif Require Import Base Num Multilinear MultilinearProofs PropsMultilinear MultilinearClass.
Import ListNotations.
Open Scope nat_scope.

(** the values set last, before the k-th use *)
Fixpoint last_set {T} (v : option (array T)) (ops : list (op T)) : option (array T) :=
  match ops with
  | [] => v
  | OpSet w :: ops' => last_set (Some w) ops'
  | _ :: ops' => last_set v ops'
  end.

(** the answer to one use, given the arguments of the constructor and the values set last: no other state *)
Definition answer {T} {N : NumOps T} (smin smax : list T) (orders : list Z) (dt : fdtype) (v : option (array T)) (p : op T)
  : res (list (list T)) :=
  match p with
  | OpGrid => mlinspace_Z (map nst smin) (map nst smax) orders
  | OpSet _ => Ok []
  | OpCall scheds empty s =>
      match v, dt, s with
      | None, _, _ => Err AttributeError
      | _, AnotherDtype, _ => Err TypeError
      | Some (Array2 values), _, Array2 s =>
          multilinear_interpolation scheds empty (map nst smin) (map nst smax) orders (map (map nst) values) (map (map nst) s)
      | _, _, _ => Err ValueError
      end
  end.

(** C82, any arithmetic: every answer of every use of an object *)
Theorem C82_history : forall {T} {N : NumOps T} (smin smax : list T) orders v dt ops k p,
  nth_error ops k = Some p ->
  nth_error (run ops (init smin smax orders v dt)) k = Some (answer smin smax orders dt (last_set v (firstn k ops)) p).
Proof.
  intros T N smin smax orders v dt.
  assert (G : forall ops v (o : mlobj T) k p,
    o_smin o = map nst smin -> o_smax o = map nst smax -> o_orders o = orders -> o_dtype o = dt ->
    o_values o = option_map ascontiguousarray v ->
    (o_grid o = None \/ exists g, o_grid o = Some g /\ mlinspace_Z (map nst smin) (map nst smax) orders = Ok g) ->
    nth_error ops k = Some p -> nth_error (run ops o) k = Some (answer smin smax orders dt (last_set v (firstn k ops)) p)).
  { clear v. induction ops as [|q ops IH]; intros v o k p H1 H2 H3 H4 H5 H6 Hp; [destruct k; discriminate|].
    destruct k as [|k]; cbn [nth_error firstn last_set run] in *.
    - injection Hp as ->. f_equal. destruct p as [|w|scheds empty s]; cbn [step fst answer].
      + unfold grid. destruct H6 as [-> |(g & -> & E)]; [|now rewrite E].
        rewrite H1, H2, H3. destruct (mlinspace_Z _ _ _); reflexivity.
      + reflexivity.
      + unfold call. rewrite H5, H4, H1, H2, H3. destruct v as [[l|rows|]|]; cbn [option_map ascontiguousarray]; try reflexivity;
        destruct dt; try reflexivity; destruct s; reflexivity.
    - destruct q as [|w|scheds empty s]; cbn [step snd].
      + apply IH; auto; unfold grid; (destruct H6 as [E0|(g & E0 & E)]; rewrite E0; [|cbn; eauto; fail]);
        destruct (mlinspace_Z (o_smin o) (o_smax o) (o_orders o)) eqn:E; cbn; auto.
        right. rewrite H1, H2, H3 in E. eauto.
      + apply IH; auto.
      + apply IH; auto. }
  intros ops k p. apply (G ops v); destruct v; cbn; auto.
Qed.
Print Assumptions C82_history.
(** the answers to grid, spelled out: TypeError in one dimension whatever the order, then ValueError for a negative order *)
Theorem C82_grid : forall {T} {N : NumOps T} (smin smax : list T) orders v dt ops k,
  nth_error ops k = Some OpGrid ->
  let asked := nth_error (run ops (init smin smax orders v dt)) k in
  (length orders = 1 -> asked = Some (Err TypeError)) /\
  (length orders <> 1 -> Exists (fun n => n < 0)%Z orders -> asked = Some (Err ValueError)) /\
  (forall ns, orders = map Z.of_nat ns -> asked = Some (mlinspace (map nst smin) (map nst smax) ns)).
Proof.
  intros T N smin smax orders v dt ops k H asked. unfold asked. rewrite (C82_history smin smax orders v dt ops k OpGrid H). cbn [answer].
  unfold mlinspace_Z. repeat split.
  - intros L. rewrite L. cbn [Nat.eqb negb andb]. unfold mlinspace. now rewrite map_length, L.
  - intros L E. destruct (Nat.eqb_spec (length orders) 1); [contradiction|]. cbn [negb andb].
    assert (X : existsb (fun k => k <? 0)%Z orders = true).
    { apply existsb_exists. apply Exists_exists in E. destruct E as (x & I & Hx). exists x. split; [exact I|now apply Z.ltb_lt]. }
    now rewrite X.
  - intros ns ->. assert (X : existsb (fun k => k <? 0)%Z (map Z.of_nat ns) = false).
    { clear. induction ns as [|n ns IH]; [reflexivity|]. cbn [map existsb]. rewrite IH. destruct (Z.ltb_spec (Z.of_nat n) 0); [lia|reflexivity]. }
    rewrite X, andb_false_r, map_map. f_equal. f_equal. rewrite <- (map_id ns) at 2. apply map_ext. apply Nat2Z.id.
Qed.
Print Assumptions C82_grid.
Example C82_grid_case : @run Q QT [OpGrid] (@init Q QT [0]%Q [1]%Q [-3]%Z None Float64) = [Err TypeError] /\
  @run Q QT [OpGrid; OpGrid] (@init Q QT [0; 0]%Q [1; 1]%Q [2; -3]%Z None Float64) = [Err ValueError; Err ValueError].
Proof. vm_compute. split; reflexivity. Qed.

(** the grid twice, values replaced between two calls, a call before the values are set *)
Example C82_case : @run Q QT [OpCall [[0%Z]] [[9]%Q] (Array2 [[1 # 2]; [1 # 2]]%Q); OpGrid; OpSet (Array2 [[1; 2; 3; 4]%Q]); OpGrid;
    OpCall [[0%Z]] [[9]%Q] (Array2 [[1 # 2]; [1 # 2]]%Q); OpSet (Array2 [[5; 5; 5; 5]%Q]); OpCall [[0%Z]] [[7]%Q] (Array2 [[1 # 2]; [1 # 2]]%Q)]
    (@init Q QT [0; 0]%Q [1; 1]%Q [2; 2]%Z None Float64) =
  [Err AttributeError; Ok [[0; 0; 1; 1]; [0; 1; 0; 1]]%Q; Ok []; Ok [[0; 0; 1; 1]; [0; 1; 0; 1]]%Q; Ok [[5 # 2]]%Q; Ok []; Ok [[5]]%Q].
Proof. vm_compute. reflexivity. Qed.

(** C83: the numbers of values, bounds and nodes are not compared.
    Too many values, any arithmetic: the rest is ignored *)
Lemma ml_firstn {T} {N : NumOps T} smin smax orders p V off k :
  length smin = length orders -> length smax = length orders -> length p = length orders ->
  Forall (fun o => (2 <= o)%Z) orders -> (0 <= off)%Z -> (off + prodZ orders <= Z.of_nat k)%Z ->
  k <= length V -> (off + prodZ orders <= int_max + 1)%Z ->
  ml (dims_of smin smax orders p) (firstn k V) off = ml (dims_of smin smax orders p) V off.
Proof.
  revert smin smax p off; induction orders as [|o orders IH]; intros smin smax p off H1 H2 H3 Ho H0 HV HK HI.
  - destruct smin; [|discriminate]. cbn [prodZ fold_right dims_of ml] in *. destruct V as [|v0 V]; [cbn in HK; lia|].
    rewrite !(rdi_ok _ _ v0) by (rewrite ?firstn_length; lia). f_equal.
    rewrite <- (firstn_skipn k (v0 :: V)) at 2. now rewrite app_nth1 by (rewrite firstn_length; lia).
  - destruct smin as [|a smin]; [discriminate|]. destruct smax as [|b smax]; [discriminate|].
    destruct p as [|x p]; [discriminate|]. cbn [length] in H1, H2, H3.
    apply Nat.succ_inj in H1. apply Nat.succ_inj in H2. apply Nat.succ_inj in H3.
    pose proof (Forall_inv Ho) as Ho1. pose proof (Forall_inv_tail Ho) as Ho2. cbv beta in Ho1.
    cbn [dims_of ml]. set (sn := ndiv _ _). destruct (cell_range sn o Ho1) as [Q1 Q2].
    set (q := cell sn o) in *. clearbody q.
    assert (HP : (1 <= prodZ orders)%Z) by (apply prodZ_pos; eapply Forall_impl; [|exact Ho2]; cbv beta; lia).
    cbn [prodZ fold_right] in HV, HI. fold (prodZ orders) in HV, HI.
    rewrite !IH by (auto; nia). reflexivity.
Qed.

Theorem C83_too_many_values : forall {T} {N : NumOps T} scheds empty (smin smax : list T) orders values s d n,
  1 <= d <= 4 -> length smin = d -> length smax = d -> length orders = d -> points_ok d n s -> few n ->
  run_ok n scheds empty values -> Forall (fun o => (2 <= o)%Z) orders -> (prodZ orders <= int_max)%Z ->
  Forall (fun r => (prodZ orders <= Z.of_nat (length r))%Z) values ->
  multilinear_interpolation scheds empty smin smax orders values s =
  multilinear_interpolation scheds empty smin smax orders (map (firstn (Z.to_nat (prodZ orders))) values) s.
Proof.
  intros T N scheds empty smin smax orders values s d n Hd H1 H2 H3 Hs Hn Hr Ho HI Hv.
  rewrite (run_generic d n) by auto using orders_int.
  rewrite (run_generic d n) by (auto using orders_int; destruct Hr as (R1 & R2 & R3 & R4); unfold run_ok; rewrite map_length; auto).
  clear Hr. induction Hv as [|V values HV Hv IH]; cbn [map mapM]; [reflexivity|]. rewrite IH. f_equal.
  apply mapM_ext. intros i _. symmetry.
  assert (HP : (1 <= prodZ orders)%Z) by (apply prodZ_pos; eapply Forall_impl; [|exact Ho]; cbv beta; lia).
  apply ml_firstn; auto; try lia. unfold column. rewrite map_length. destruct Hs. lia.
Qed.
Print Assumptions C83_too_many_values.

(** too few bounds, any arithmetic: read out of bounds *)
Theorem C83_too_few_bounds : forall {T} {N : NumOps T} scheds empty (smin smax : list T) orders vals values s n,
  1 <= length s <= 4 -> length smin < length s \/ length smax < length s -> 1 <= n -> few n ->
  run_ok n scheds empty (vals :: values) ->
  multilinear_interpolation scheds empty smin smax orders (vals :: values) s = Err OutOfBounds.
Proof.
  intros T N scheds empty smin smax orders vals values s n Hd Hl Hn Hm HA. destruct (run_few n _ _ _ Hm HA) as (A1 & A2 & A3 & A4).
  rewrite (multilinear_rows (length s) n) by (auto; lia). cbn [mapM]. rewrite mapM_oob; [reflexivity| |].
  - intros i e. apply ml_body_err.
  - exists 0%Z. 
    assert (H : exists e, ml_body (length s) smin smax orders vals s 0 = Err e).
    { destruct (ml_body (length s) smin smax orders vals s 0) eqn:E; [exfalso|eauto].
      assert (L : forall (l : list T) k x, rd1 l k = Ok x -> (k < Z.of_nat (length l))%Z).
      { intros l k x Hx. destruct (Z.lt_ge_cases k (Z.of_nat (length l))); [auto|]. rewrite rd1_err in Hx by lia. discriminate. }
      assert (B : forall k, (0 <= k < Z.of_nat (length s))%Z -> (k < Z.of_nat (length smin))%Z /\ (k < Z.of_nat (length smax))%Z).
      { intros k Hk. destruct (length s) as [|[|[|[|[|d]]]]]; try lia; cbn [ml_body] in E; unfold ml_1d, ml_2d, ml_3d, ml_4d in E;
        repeat (apply bind_Ok in E; destruct E as (? & ? & E));
        (assert (k = 0 \/ k = 1 \/ k = 2 \/ k = 3)%Z as [-> |[-> |[-> | ->]]] by lia); try lia; split; eauto. }
      destruct Hl as [Hl|Hl]; destruct (B (Z.of_nat (length s) - 1)%Z); lia. }
    destruct H as [e He]. exists e. split; [apply In_zrange; lia|exact He].
Qed.
Print Assumptions C83_too_few_bounds.

(** too few values, real arithmetic: the last node is read out of bounds *)
Section Real.
#[local] Existing Instance RT.
Lemma ml_last smin smax ns V off v : length smin = length ns -> length smax = length ns ->
  Forall (fun n => 2 <= n /\ (Z.of_nat n <= int_max)%Z) ns -> Forall2 (fun a b => a < b)%R smin smax ->
  ml (dims_of smin smax (map Z.of_nat ns) smax) V off = Ok v -> exists w, rdi V (off + Z.of_nat (prodn ns) - 1)%Z = Ok w.
Proof.
  revert smin smax off v; induction ns as [|n ns IH]; intros smin smax off v H1 H2 Hn Hab E.
  - destruct smin; [|discriminate]. cbn [map dims_of ml prodn fold_right] in *. replace (off + Z.of_nat 1 - 1)%Z with off by lia. eauto.
  - destruct smin as [|a smin]; [discriminate|]. destruct smax as [|b smax]; [discriminate|]. cbn [length] in H1, H2.
    inversion Hn as [|? ? [Hn1 Hn2] Hn3]; subst. inversion Hab as [|? ? ? ? Hab1 Hab2]; subst. cbn [map dims_of ml] in E.
    rewrite prodZ_n in E.
    pose proof (cell_node a b n (n - 1) Hn1 ltac:(lra) ltac:(lia) Hn2) as C. cbv zeta in C.
    assert (NL : node a b n (n - 1) = b). { destruct (INR_pred n Hn1) as [P1 P2]. unfold node. field. lra. }
    rewrite NL in C. destruct C as [(_ & _ & C)|(Q & L & _)]; [lia|].
    cbn [nadd nmul nsub nz ndiv RT] in E, Q, L. rewrite L, Q in E.
    apply bind_Ok in E. destruct E as (x & _ & E). apply bind_Ok in E. destruct E as (y & E & _).
    apply IH in E; auto. destruct E as [w E]. exists w. rewrite <- E. f_equal. cbn [prodn fold_right]. fold (prodn ns).
    nia.
Qed.

Theorem C83_too_few_values : forall out smin smax ns vals, 1 <= length ns <= 4 -> grid_ok smin smax ns ->
  length vals < prodn ns ->
  multilinear_interpolation [[0%Z]] [[out]] smin smax (map Z.of_nat ns) [vals] (map (fun x => [x]) smax) = Err OutOfBounds.
Proof.
  intros out smin smax ns vals Hd (G1 & G2 & G3 & G4 & G5) Hv.
  rewrite (run_generic (length ns) 1); rewrite ?map_length; auto using F_I.
  - cbn [mapM seq]. assert (E : column (map (fun x : R => [x]) smax) 0 = smax).
    { unfold column. rewrite map_map. cbn [nth]. apply map_id. }
    rewrite E. destruct (ml (dims_of smin smax (map Z.of_nat ns) smax) vals 0) eqn:M; cbn [bind].
    + apply ml_last in M; auto. destruct M as [w M]. unfold rdi in M. rewrite cint_id in M by (unfold int_min; lia).
      rewrite rd1_err in M by lia. discriminate.
    + apply ml_err in M. now subst.
  - split; [now rewrite map_length|]. apply Forall_map. apply Forall_forall. reflexivity.
  - unfold few, int_max. lia.
  - split; [reflexivity|]. split; [reflexivity|]. split; [constructor; [reflexivity|constructor]|]. constructor; [apply Permutation_refl|constructor].
Qed.
Print Assumptions C83_too_few_values.

(** C83 is false: three values for a grid of 2 x 2 nodes are accepted and read beyond the end *)
Theorem C83_refuted : exists smin smax orders values s scheds empty,
  length (concat values) <> Z.to_nat (prodZ orders) /\
  run [OpCall scheds empty (Array2 s)] (init smin smax orders (Some (Array2 values)) Float64) = [Err OutOfBounds].
Proof.
  exists [0; 0]%R, [1; 1]%R, (map Z.of_nat [2; 2]), [[1; 2; 3]]%R, (map (fun x => [x]) [1; 1]%R), [[0%Z]], [[0%R]].
  split; [cbn; lia|]. cbn [run step fst snd]. f_equal. unfold call, init, set_values.
  cbn [o_values o_dtype o_smin o_smax o_orders ascontiguousarray].
  assert (M : forall l : list R, map nst l = l) by (intros l; apply map_id).
  assert (M2 : forall l : list (list R), map (map nst) l = l) by (intros l; induction l as [|r l IH]; cbn [map]; [reflexivity|]; now rewrite IH, M).
  rewrite !M2, !M. apply C83_too_few_values; cbn; [lia| |lia].
  split; [reflexivity|]. split; [reflexivity|]. split; [repeat constructor; cbn; unfold int_max; lia|].
  split; [constructor; [lra|constructor; [lra|constructor]]|]. cbn. unfold int_max. lia.
Qed.
Print Assumptions C83_refuted.
End Real.
Example C83_case : run_ok 1 [[0%Z]] [[9]%Q] [[1; 2; 3]%Q] /\ points_ok 1 1 [[1 # 2]%Q] /\ (prodZ [2] <= 3)%Z.
Proof.
  split; [|split].
  - split; [reflexivity|]. split; [reflexivity|]. split; [constructor; [reflexivity|constructor]|]. constructor; [apply Permutation_refl|constructor].
  - split; [reflexivity|]. constructor; [reflexivity|constructor].
  - cbn. lia.
Qed.
