(** C128: dtype of the tie data. C129: results already handed out. C130: GeoInterpolator. *)
From Coq Require Import ZArith QArith List Lia Bool Reals Lra.
From Flocq Require Import Core.Raux.
From Verif Require Import Spec Base Num Splits Geo GeoProofs Interp Legacy PlProofs BorderProofs InterpProofs LegacyProofs LegacyTie LegacyInst PropsLegacy PropsAnyOrder PropsBilinear PropsFailure Cubic InterpObj.
Import ListNotations.
#[local] Existing Instance RT.
Open Scope R_scope.

(** ** Shapes *)
Lemma interp_one_shape {T} {N : NumOps T} (spl1 spl2 : list T -> list T -> Z -> T -> T) st d r : interp_one spl1 spl2 st d = Ok r ->
  shaped (length (hrow_indices st)) (length (hcol_indices st)) r.
Proof.
  unfold interp_one. destruct (array_equal (hrow_indices st) (row_indices st)); intros E.
  - unfold interp1d_one in E. rewrite range0_map_of_nat, mapM_map in E. pose proof (mapM_length _ _ _ E) as L. rewrite seq_length in L. split; [exact L|].
    apply mapM_F2 in E. apply Forall_forall. intros x Hx. apply (In_nth _ _ []) in Hx. destruct Hx as (i & Hi & <-).
    pose proof (F2_nth _ _ _ i 0%nat [] E) as Er. rewrite seq_length in Er. specialize (Er ltac:(lia)). cbv beta in Er.
    apply bind_Ok in Er. destruct Er as (dr & _ & Er).
    repeat match type of Er with (if ?b then _ else _) = _ => destruct b; [discriminate|] end. injection Er as <-. now rewrite map_length.
  - unfold interp2d_one, rect_bivariate in E. repeat match type of E with (if ?b then _ else _) = _ => destruct b; [discriminate|] end. injection E as <-.
    split; [now rewrite map_length|]. apply Forall_map, Forall_forall. intros x _. now rewrite map_length.
Qed.

(** what fill_borders leaves alone, whether it raises or not *)
Definition kept {T} (st st' : istate T) : Prop :=
  hrow_indices st' = hrow_indices st /\ hcol_indices st' = hcol_indices st /\ kx_ st' = kx_ st /\ ky_ st' = ky_ st /\ new_data st' = new_data st.
Lemma run_dim_kept {T} {N : NumOps T} d (st st' : istate T) : run_dim d st = Ok st' -> kept st st'.
Proof.
  destruct d; cbn [run_dim]; [unfold fill_row_borders|unfold fill_col_borders|discriminate]; intros E;
    repeat match type of E with bind ?x _ = _ => let H := fresh "H" in destruct x eqn:H; [|discriminate]; cbn [bind] in E end; injection E as <-; repeat split.
Qed.
Lemma failed_dim_kept {T} {N : NumOps T} d (st : istate T) : kept st (failed_dim d st).
Proof.
  destruct d; unfold failed_dim; [repeat split| |repeat split].
  destruct (nth_res (col_indices st) 0), (nth_res (hcol_indices st) 0), (last_res (col_indices st)), (last_res (hcol_indices st)); repeat split.
Qed.
Lemma fill_borders_kept {T} {N : NumOps T} args (st : istate T) : kept st (snd (fill_borders args st)).
Proof.
  unfold fill_borders. destruct (resolve args) as [l|]; [|repeat split]. clear args. revert st. induction l as [|d l IH]; intros st; [repeat split|].
  cbn [run_dims]. destruct (run_dim d st) as [st1|] eqn:E; [|apply failed_dim_kept]. apply run_dim_kept in E. specialize (IH st1). unfold kept in *. intuition congruence.
Qed.

(** ** C128 *)
Section Dtypes.
Variables spl1 spl2 : list R -> list R -> Z -> R -> R.
Definition truncR (x : R) : R := IZR (Ztrunc x).
(** integers where the dtype says so *)
Definition integral (ts : tstate R) : Prop :=
  length (dtypes ts) = length (tie_data (core ts)) /\
  forall num i j, nth num (dtypes ts) VFloat = VInt -> exists v, at2 0 (nth num (tie_data (core ts)) []) i j = IZR v.

Lemma map2_store_float {T} {N : NumOps T} (trunc : T -> T) dts (out : list (mat T)) : length dts = length out -> Forall (fun d => d = VFloat) dts -> map2 (store trunc) dts out = out.
Proof.
  revert out. induction dts as [|d dts IH]; intros [|o out] L F; try discriminate; cbn [map2]; [reflexivity|]. inversion F; subst. cbn [store]. f_equal. apply IH; auto.
Qed.
Lemma out_length {T} {N : NumOps T} (s1 s2 : list T -> list T -> Z -> T -> T) (st : istate T) out : well_formed st -> fst (interpolate s1 s2 st) = Ok out -> length out = length (tie_data st).
Proof. intros W E. rewrite (proj1 (interpolate_spec s1 s2 st W)) in E. now apply mapM_length in E. Qed.

(** floating-point numbers: the values of the spline *)
Theorem C128_floats_partial : forall {T} {N : NumOps T} (trunc : T -> T) s1 s2 (ts : tstate T),
  well_formed (core ts) -> length (dtypes ts) = length (tie_data (core ts)) -> Forall (fun d => d = VFloat) (dtypes ts) ->
  t_interpolate trunc s1 s2 ts = fst (interpolate s1 s2 (core ts)).
Proof.
  intros T N trunc s1 s2 ts W L F. unfold t_interpolate. destruct (fst (interpolate s1 s2 (core ts))) as [out|e] eqn:E; [|reflexivity]. cbn [bind].
  destruct (array_equal _ _); [|reflexivity]. rewrite map2_store_float; auto. rewrite L. symmetry. eapply out_length; eauto.
Qed.
(** other rows than the tie rows: the values of the spline for all dtypes *)
Theorem C128_rows_differ_partial : forall {T} {N : NumOps T} (trunc : T -> T) s1 s2 (ts : tstate T),
  array_equal (hrow_indices (core ts)) (row_indices (core ts)) = false ->
  t_interpolate trunc s1 s2 ts = fst (interpolate s1 s2 (core ts)).
Proof.
  intros T N trunc s1 s2 ts D. unfold t_interpolate. rewrite D. destruct (fst (interpolate s1 s2 (core ts))); reflexivity.
Qed.
(** after a border has been filled: the values of the spline for all dtypes *)
Lemma widen_float {T} {N : NumOps T} d (st : istate T) dts : Forall (fun d => d = VFloat) dts -> Forall (fun d => d = VFloat) (widen d st dts).
Proof.
  intros F. assert (M : Forall (fun d => d = VFloat) (map (fun _ => VFloat) dts)) by (apply Forall_map, Forall_forall; auto).
  destruct d; cbn [widen]; auto. destruct (nth_res (col_indices st) 0), (nth_res (hcol_indices st) 0), (last_res (col_indices st)), (last_res (hcol_indices st)); auto.
  destruct (_ && _)%bool; auto.
Qed.
Lemma widen_length {T} {N : NumOps T} d (st : istate T) dts : length (widen d st dts) = length dts.
Proof.
  destruct d; cbn [widen]; rewrite ?map_length; auto. destruct (nth_res (col_indices st) 0), (nth_res (hcol_indices st) 0), (last_res (col_indices st)), (last_res (hcol_indices st)); auto.
  destruct (_ && _)%bool; auto. now rewrite map_length.
Qed.
Lemma t_run_core {T} {N : NumOps T} l (ts ts' : tstate T) : t_run l ts = Ok ts' -> run_dims l (core ts) = (Ok tt, core ts').
Proof.
  revert ts. induction l as [|d l IH]; intros ts E; cbn [t_run run_dims] in *; [injection E as ->; reflexivity|].
  apply bind_Ok in E. destruct E as (st & E1 & E). rewrite E1. now apply IH in E.
Qed.
Lemma t_run_float {T} {N : NumOps T} l (ts ts' : tstate T) : t_run l ts = Ok ts' -> Forall (fun d => d = VFloat) (dtypes ts) -> Forall (fun d => d = VFloat) (dtypes ts').
Proof.
  revert ts. induction l as [|d l IH]; intros ts E F; cbn [t_run] in *; [injection E as <-; exact F|].
  apply bind_Ok in E. destruct E as (st & E1 & E). apply IH in E; [exact E|]. cbn. now apply widen_float.
Qed.
Lemma t_run_length {T} {N : NumOps T} l (ts ts' : tstate T) : t_run l ts = Ok ts' -> length (dtypes ts') = length (dtypes ts).
Proof.
  revert ts. induction l as [|d l IH]; intros ts E; cbn [t_run] in *; [injection E as <-; reflexivity|].
  apply bind_Ok in E. destruct E as (st & E1 & E). apply IH in E. cbn in E. now rewrite widen_length in E.
Qed.
Lemma t_run_y {T} {N : NumOps T} l (ts ts' : tstate T) : In DimY l -> t_run l ts = Ok ts' -> Forall (fun d => d = VFloat) (dtypes ts').
Proof.
  revert ts. induction l as [|d l IH]; intros ts H E; [destruct H|]. cbn [t_run] in E. apply bind_Ok in E. destruct E as (st & E1 & E).
  destruct H as [->|H]; [|now apply IH in E]. eapply t_run_float; [exact E|]. cbn. apply Forall_map, Forall_forall. auto.
Qed.
Lemma resolve_same args l : resolve args = Ok l -> l = args.
Proof.
  revert l. induction args as [|d args IH]; intros l E; cbn [resolve] in E; [now injection E as <-|].
  destruct d; try discriminate; apply bind_Ok in E; destruct E as (l' & E1 & E); injection E as <-; f_equal; auto.
Qed.
Theorem C128_filled_partial : forall {T} {N : NumOps T} (trunc : T -> T) s1 s2 (ts ts' : tstate T) args,
  well_formed (core ts) -> length (dtypes ts) = length (tie_data (core ts)) -> t_fill args ts = Ok ts' ->
  fill_borders args (core ts) = (Ok tt, core ts') /\
  (In DimY args -> t_interpolate trunc s1 s2 ts' = fst (interpolate s1 s2 (core ts'))).
Proof.
  intros T N trunc s1 s2 ts ts' args W L E. unfold t_fill in E. apply bind_Ok in E. destruct E as (l & El & E). pose proof (resolve_same _ _ El) as ->.
  assert (EF : fill_borders args (core ts) = (Ok tt, core ts')) by (unfold fill_borders; rewrite El; now apply t_run_core).
  split; [exact EF|]. intros HY. apply C128_floats_partial.
  - replace (core ts') with (snd (fill_borders args (core ts))) by (now rewrite EF). now apply fill_borders_well_formed.
  - rewrite (t_run_length _ _ _ E), L. pose proof (fill_borders_well_formed args (core ts) W) as W'. rewrite EF in W'. cbn [snd] in W'.
    pose proof (fill_borders_kept args (core ts)) as (_ & _ & _ & _ & K). rewrite EF in K. cbn [snd] in K. unfold well_formed in *. congruence.
  - eapply t_run_y; eauto.
Qed.
(** the columns: only if one was missing *)
Theorem C128_filled_columns_partial : forall (trunc : R -> R) s1 s2 (ts ts' : tstate R) c0 h0,
  well_formed (core ts) -> length (dtypes ts) = length (tie_data (core ts)) -> t_fill [DimX] ts = Ok ts' ->
  hd_error (col_indices (core ts)) = Some c0 -> hd_error (hcol_indices (core ts)) = Some h0 ->
  c0 <> h0 \/ last (col_indices (core ts)) c0 <> last (hcol_indices (core ts)) h0 ->
  t_interpolate trunc s1 s2 ts' = fst (interpolate s1 s2 (core ts')).
Proof.
  intros trunc s1 s2 ts ts' c0 h0 W L E Hc Hh D. unfold t_fill in E. cbn [resolve bind t_run] in E. apply bind_Ok in E. destruct E as (st & E1 & E). assert (Q : ts' = mkT st (widen DimX (core ts) (dtypes ts))) by congruence. subst ts'. clear E.
  cbn [core]. apply C128_floats_partial; cbn [core dtypes].
  - pose proof (fill_borders_well_formed [DimX] (core ts) W) as W'. unfold fill_borders in W'. cbn [resolve bind run_dims] in W'. rewrite E1 in W'. exact W'.
  - rewrite widen_length, L. pose proof (run_dim_kept _ _ _ E1) as (_ & _ & _ & _ & K).
    pose proof (fill_borders_well_formed [DimX] (core ts) W) as W'. unfold fill_borders in W'. cbn [resolve bind run_dims] in W'. rewrite E1 in W'. cbn [snd] in W'. unfold well_formed in *. congruence.
  - cbn [widen]. destruct (col_indices (core ts)) as [|c cs] eqn:EC; [discriminate|]. destruct (hcol_indices (core ts)) as [|h hs] eqn:EH; [discriminate|].
    cbn in Hc, Hh. injection Hc as ->. injection Hh as ->.
    assert (LR : forall (a : R) l, last_res (a :: l) = Ok (last (a :: l) a)).
    { intros a l. destruct (exists_last (l := a :: l) ltac:(discriminate)) as (l' & x & ->). rewrite last_res_app, last_last. reflexivity. }
    rewrite !LR. rewrite !(nth_res_Ok _ _ 0) by (cbn [length]; lia). cbn [Z.to_nat nth]. 
    destruct (neqb c0 h0) eqn:Q1; cbn [andb]; [|apply Forall_map, Forall_forall; auto].
    destruct (neqb (last (c0 :: cs) c0) (last (h0 :: hs) h0)) eqn:Q2; [|apply Forall_map, Forall_forall; auto].
    apply Reqb_true in Q1. apply Reqb_true in Q2. tauto.
Qed.
Lemma truncR_b x : (exists v, truncR x = IZR v) /\ Rabs (truncR x - x) < 1 /\ Rabs (truncR x) <= Rabs x /\ (0 <= x -> 0 <= truncR x) /\ (x <= 0 -> truncR x <= 0).
Proof.
  split; [eexists; reflexivity|]. unfold truncR. destruct (Rle_or_lt 0 x) as [H|H].
  - rewrite Ztrunc_floor by exact H. pose proof (Zfloor_lb x). pose proof (Zfloor_ub x). assert (0 <= IZR (Zfloor x)) by (apply IZR_le, Zfloor_lub, H).
    rewrite (Rabs_pos_eq x), (Rabs_pos_eq (IZR (Zfloor x))) by lra. split; [apply Rabs_def1; lra|]. repeat split; lra.
  - rewrite Ztrunc_ceil by lra. pose proof (Zceil_ub x). pose proof (Zceil_lb x). assert (IZR (Zceil x) <= 0) by (apply IZR_le, Zceil_glb; lra).
    rewrite (Rabs_left1 x), (Rabs_left1 (IZR (Zceil x))) by lra. split; [apply Rabs_def1; lra|]. repeat split; lra.
Qed.
Lemma truncR_int v : truncR (IZR v) = IZR v.
Proof. unfold truncR. now rewrite Ztrunc_IZR. Qed.
(** integers on the tie rows: the values of the spline, cut towards zero *)
Lemma stored_at (trunc : R -> R) dts (exact : list (mat R)) n w num a b : length dts = length exact -> (num < length exact)%nat -> shaped n w (nth num exact []) -> (a < n)%nat -> (b < w)%nat ->
  at2 0 (nth num (map2 (store trunc) dts exact) []) a b =
  match nth num dts VFloat with VInt => trunc (at2 0 (nth num exact []) a b) | VFloat => at2 0 (nth num exact []) a b end.
Proof.
  intros L Hn S Ha Hb. rewrite (nth_map2 _ _ _ num VFloat []) by lia. destruct (nth num dts VFloat); cbn [store]; [|reflexivity].
  apply (at2_mat1 trunc n w); auto.
Qed.
Theorem C128_integers_partial : forall (ts : tstate R) out exact, well_formed (core ts) -> length (dtypes ts) = length (tie_data (core ts)) ->
  hrow_indices (core ts) = row_indices (core ts) ->
  t_interpolate truncR spl1 spl2 ts = Ok out -> fst (interpolate spl1 spl2 (core ts)) = Ok exact ->
  length out = length exact /\
  forall num a b, (num < length exact)%nat -> (a < length (hrow_indices (core ts)))%nat -> (b < length (hcol_indices (core ts)))%nat ->
  let o := at2 0 (nth num out []) a b in let e := at2 0 (nth num exact []) a b in
  (nth num (dtypes ts) VFloat = VFloat -> o = e) /\
  (nth num (dtypes ts) VFloat = VInt -> (exists v, o = IZR v) /\ Rabs (o - e) < 1 /\ Rabs o <= Rabs e /\ (0 <= e -> 0 <= o) /\ (e <= 0 -> o <= 0)).
Proof.
  intros ts out exact W L H E EX. unfold t_interpolate in E. rewrite EX in E. cbn [bind] in E. rewrite H, array_equal_refl in E. injection E as <-.
  pose proof (out_length _ _ _ _ W EX) as LX. split; [rewrite map2_length, L, LX; apply Nat.min_id|]. intros num a b Hn Ha Hb.
  rewrite (proj1 (interpolate_spec spl1 spl2 _ W)) in EX. apply mapM_F2 in EX. pose proof (F2_nth _ _ _ num [] [] EX ltac:(lia)) as En. apply interp_one_shape in En.
  cbv zeta. rewrite (stored_at truncR (dtypes ts) exact _ _ num a b ltac:(lia) Hn En Ha Hb). split; intros ->; [reflexivity|apply truncR_b].
Qed.
(** so tie points are still reproduced *)
Theorem C128_tie_points_partial : forall (ts : tstate R) out, interpolates spl1 -> interpolates spl2 -> well_formed (core ts) -> integral ts ->
  increasing (row_indices (core ts)) -> increasing (col_indices (core ts)) ->
  t_interpolate truncR spl1 spl2 ts = Ok out ->
  forall num i j a b, let st := core ts in (num < length (tie_data st))%nat ->
  (i < length (row_indices st))%nat -> (j < length (col_indices st))%nat -> (a < length (hrow_indices st))%nat -> (b < length (hcol_indices st))%nat ->
  nth a (hrow_indices st) 0 = nth i (row_indices st) 0 -> nth b (hcol_indices st) 0 = nth j (col_indices st) 0 ->
  at2 0 (nth num out []) a b = at2 0 (nth num (tie_data st) []) i j.
Proof.
  intros ts out H1 H2 W [LI I] Ir Ic E num i j a b st Hn Hi Hj Ha Hb Ea Eb. unfold t_interpolate in E. apply bind_Ok in E. destruct E as (exact & EX & E). fold st in EX.
  destruct (C85_tie_points spl1 spl2 H1 H2 st exact W Ir Ic EX) as [LX T]. specialize (T num i j a b Hn Hi Hj Ha Hb Ea Eb).
  destruct (array_equal (hrow_indices st) (row_indices st)) eqn:AE; fold st in E; rewrite AE in E; injection E as <-; [|exact T].
  pose proof EX as EX'. rewrite (proj1 (interpolate_spec spl1 spl2 _ W)) in EX'. apply mapM_F2 in EX'. pose proof (F2_nth _ _ _ num [] [] EX' Hn) as En. apply interp_one_shape in En.
  rewrite (stored_at truncR (dtypes ts) exact _ _ num a b ltac:(unfold st in *; congruence) ltac:(rewrite LX; exact Hn) En Ha Hb). rewrite T. destruct (nth num (dtypes ts) VFloat) eqn:D; [|reflexivity].
  destruct (I num i j D) as (v & V). fold st in V. rewrite V. apply truncR_int.
Qed.
End Dtypes.
Print Assumptions C128_floats_partial.
Print Assumptions C128_rows_differ_partial.
Print Assumptions C128_filled_partial.
Print Assumptions C128_filled_columns_partial.
Print Assumptions C128_integers_partial.
Print Assumptions C128_tie_points_partial.

(** the same integers at the same positions: cut if the target rows are the tie rows, exact with one row more *)
Definition truncQ (x : Q) : Q := inject_Z (Z.quot (Qnum x) (Zpos (Qden x))).
Definition cubic1 (ks vs : list Q) (_ : Z) (x : Q) : Q := Qred (@cubic_splev _ QT ks vs x).
Theorem C128_refuted : exists (data : list (list Q)) (cols hcols : list Q) r,
  let run dt hrows := @t_interpolate _ QT truncQ cubic1 cubic1 (t_make [(dt, data)] ([0; 1]%Q, cols) (hrows, hcols) 1 3 0) in
  data = [[0; 1; 2; 3]; [0; -1; -2; -3]]%Q /\ cols = [0; 2; 4; 6]%Q /\ hcols = [0; 1; 2; 3]%Q /\
  run VInt [0; 1]%Q = Ok [[[0; 0; 1; 1]; [0; 0; -1; -1]]]%Q /\
  run VInt [0; 1 # 2; 1]%Q = Ok [r] /\ map (map Qred) r = [[0; 1 # 2; 1; 3 # 2]; [0; 0; 0; 0]; [0; -1 # 2; -1; -3 # 2]]%Q /\
  run VFloat [0; 1]%Q = Ok [[[0; 1 # 2; 1; 3 # 2]; [0; -1 # 2; -1; -3 # 2]]]%Q.
Proof.
  exists [[0; 1; 2; 3]; [0; -1; -2; -3]]%Q, [0; 2; 4; 6]%Q, [0; 1; 2; 3]%Q. eexists. cbv zeta. do 3 (split; [reflexivity|]). split; [vm_compute; reflexivity|].
  split; [vm_compute; reflexivity|]. split; vm_compute; reflexivity.
Qed.
Print Assumptions C128_refuted.
(** filled columns make floating-point numbers of the integers *)
Example C128_case : let ts := t_make [(VInt, [[1; 2; 3]; [-1; -2; -3]])]%Q ([0; 1]%Q, [2; 4; 6]%Q) ([0; 1]%Q, [0; 1; 2; 3; 6]%Q) 1 3 0 in
  (let* ts' := @t_fill _ QT [DimX] ts in @t_interpolate _ QT truncQ cubic1 cubic1 ts') = Ok [[[0; 1 # 2; 1; 3 # 2; 3]; [0; -1 # 2; -1; -3 # 2; -3]]]%Q.
Proof. vm_compute. reflexivity. Qed.

(** ** C129 *)
Section Held.
Context {T : Type} {N : NumOps T}.
Variables s1 s2 : list T -> list T -> Z -> T -> T.
Lemma after_app cs cs' (st : istate T) : after_all s1 s2 (cs ++ cs') st = after_all s1 s2 cs' (after_all s1 s2 cs st).
Proof. unfold after_all. apply fold_left_app. Qed.
Lemma held_result (st : istate T) out : fst (interpolate s1 s2 st) = Ok out -> held_list (snd (interpolate s1 s2 st)) = out.
Proof. unfold interpolate, held_list. destruct (interp_loop s1 s2 st (tie_data st) (new_data st)) as [[u|e] nd]; cbn; [intros E; now injection E|discriminate]. Qed.
(** the list keeps its contents as long as no border is filled between two interpolations *)
Theorem C129_kept_partial : forall (st : istate T) out n fills, well_formed st -> fst (interpolate s1 s2 st) = Ok out ->
  held_list (after_all s1 s2 (repeat Interpolate n ++ map Fill fills) (snd (interpolate s1 s2 st))) = out.
Proof.
  intros st out n fills W E. rewrite after_app.
  assert (F : forall fs s, held_list (after_all s1 s2 (map Fill fs) s) = held_list s).
  { induction fs as [|f fs IH]; intros s; [reflexivity|]. cbn [map after_all fold_left]. unfold after_all in IH. rewrite IH. cbn [after]. apply (fill_borders_kept f s). }
  rewrite F. clear F fills. revert st W E. induction n as [|n IH]; intros st W E; [now apply held_result|]. cbn [repeat after_all fold_left after].
  destruct (interpolate_spec s1 s2 st W) as (_ & S & W'). apply IH; [exact W'|]. rewrite <- E. now apply interpolate_inputs.
Qed.
(** a new call of interpolate gives its result to all who hold a list *)
Theorem C129_shared : forall (st : istate T) cs out, let st' := after_all s1 s2 cs st in fst (interpolate s1 s2 st') = Ok out ->
  held_list (after_all s1 s2 (cs ++ [Interpolate]) st) = out.
Proof. intros st cs out st' E. rewrite after_app. cbn. now apply held_result. Qed.
End Held.
Print Assumptions C129_kept_partial.
Print Assumptions C129_shared.
(** constant continuation in the first result turns into the straight line when the borders are filled and interpolate() is called again *)
Definition line1 (ks vs : list Q) (_ : Z) (x : Q) : Q := Qred (@pl_eval _ QT ks vs x).
Theorem C129_refuted : exists (st : istate Q) r, let call := @interpolate _ QT line1 line1 st in
  st = @make Q [[[0; 1]; [0; 2]]]%Q ([0; 2]%Q, [1; 2]%Q) ([0; 1; 2]%Q, [0; 1; 2]%Q) 1 1 0 /\
  fst call = Ok r /\ map (map (map Qred)) r = [[[0; 0; 1]; [0; 0; 3 # 2]; [0; 0; 2]]]%Q /\
  map (map (map Qred)) (@held_list _ (@after_all _ QT line1 line1 [Fill [DimX]; Interpolate] (snd call))) = [[[-1; 0; 1]; [-3 # 2; 0; 3 # 2]; [-2; 0; 2]]]%Q.
Proof. eexists. eexists. cbv zeta. split; [reflexivity|]. split; [vm_compute; reflexivity|]. split; vm_compute; reflexivity. Qed.
Print Assumptions C129_refuted.

(** ** C130 *)
Theorem C130_swath : forall s1 s2 lons lats tg fg kx ky chunk args,
  geo_run s1 s2 (SwathObj lons lats (xyz_arrays lons lats)) tg fg kx ky chunk args = geo_run s1 s2 (SeqObj [lons; lats]) tg fg kx ky chunk args.
Proof. reflexivity. Qed.
Theorem C130_attributes : forall M (conv : M -> M -> M * M * M) lons lats xyz,
  geo_init conv (SwathObj lons lats xyz) = Ok (lons, lats, xyz) /\ geo_init conv (SeqObj [lons; lats]) = Ok (lons, lats, conv lons lats).
Proof. split; reflexivity. Qed.
Theorem C130_too_few : forall M (conv : M -> M -> M * M * M) l, (length l < 2)%nat -> geo_init conv (SeqObj l) = Err IndexError.
Proof. intros M conv [|a [|b l]] H; cbn in *; try lia; reflexivity. Qed.
(** accepted arguments: swath objects, and sequences of at least two arrays *)
Theorem C130_accepts : forall M (conv : M -> M -> M * M * M) o r, geo_init conv o = Ok r <->
  (exists lons lats xyz, o = SwathObj lons lats xyz /\ r = (lons, lats, xyz)) \/
  (exists lons lats l, o = SeqObj (lons :: lats :: l) /\ r = (lons, lats, conv lons lats)).
Proof.
  intros M conv o r. split.
  - destruct o as [lo la xyz|lo la|[|lo [|la l]]]; cbn; intros E; try discriminate; injection E as <-; [left|right]; do 3 eexists; split; reflexivity.
  - intros [(lo & la & xyz & -> & ->)|(lo & la & l & -> & ->)]; reflexivity.
Qed.
(** more than two arrays are not refused: the others are ignored *)
Theorem C130_extra_ignored : forall M (conv : M -> M -> M * M * M) lons lats l,
  geo_init conv (SeqObj (lons :: lats :: l)) = geo_init conv (SeqObj [lons; lats]).
Proof. reflexivity. Qed.
Theorem C130_refuted : exists l : list Z, length l = 3%nat /\ geo_init (fun a b => (a, b, a + b)%Z) (SeqObj l) = Ok (1, 2, (1, 2, 3))%Z.
Proof. exists [1; 2; 7]%Z. split; reflexivity. Qed.
Print Assumptions C130_swath.
Print Assumptions C130_attributes.
Print Assumptions C130_too_few.
Print Assumptions C130_accepts.
Print Assumptions C130_extra_ignored.
Print Assumptions C130_refuted.

Section GeoTie.
Variables s1 s2 : list R -> list R -> Z -> R -> R.
Hypothesis (H1 : interpolates s1) (H2 : interpolates s2).
Lemma geo_at (st : istate R) lo la x y z a b : well_formed st -> fst (interpolate s1 s2 st) = Ok [x; y; z] -> geo_interpolate s1 s2 st = Ok (lo, la) ->
  (a < length (hrow_indices st))%nat -> (b < length (hcol_indices st))%nat ->
  (at2 None lo a b, at2 None la a b) = @xyz2lonlat _ RN (Some (at2 0 x a b), Some (at2 0 y a b), Some (at2 0 z a b)).
Proof.
  intros W E G Ha Hb. unfold geo_interpolate in G. rewrite E in G. cbn [bind] in G. rewrite to_geo_eq in G. rewrite (surjective_pairing (geo3 _ _ _)) in G. apply Ok_pair_inj in G. destruct G as [<- <-].
  rewrite (proj1 (interpolate_spec s1 s2 st W)) in E. apply mapM_F2 in E.
  pose proof (F2_length _ _ _ E) as L. cbn [length] in L.
  pose proof (F2_nth _ _ _ 0%nat [] [] E ltac:(lia)) as Qx. pose proof (F2_nth _ _ _ 1%nat [] [] E ltac:(lia)) as Qy. pose proof (F2_nth _ _ _ 2%nat [] [] E ltac:(lia)) as Qz.
  apply interp_one_shape in Qx, Qy, Qz. apply (geo3_at (length (hrow_indices st)) (length (hcol_indices st))); auto.
Qed.
Theorem C130_tie_points : forall n w lons lats rows cols hrows hcols kx ky chunk args lo la,
  shaped n w lons -> shaped n w lats -> length rows = n -> length cols = w -> increasing rows -> increasing cols ->
  args = [] \/ args = [DimY; DimX] /\ (0 <= chunk)%Z /\ increasing hrows /\ Forall (fun r => 0 <= r < INR n) rows ->
  geo_run s1 s2 (SeqObj [lons; lats]) (rows, cols) (hrows, hcols) kx ky chunk args = Ok (lo, la) ->
  forall i j a b, (i < n)%nat -> (j < w)%nat -> (a < length hrows)%nat -> (b < length hcols)%nat ->
  nth a hrows 0 = nth i rows 0 -> nth b hcols 0 = nth j cols 0 ->
  -180 < at2 0 lons i j < 180 -> -90 < at2 0 lats i j < 90 ->
  at2 None lo a b = Some (at2 0 lons i j) /\ at2 None la a b = Some (at2 0 lats i j).
Proof.
  intros n w lons lats rows cols hrows hcols kx ky chunk args lo la S1 S2 Lr Lc Ir Ic HA E i j a b Hi Hj Ha Hb Ea Eb B1 B2.
  unfold geo_run in E. change (geo_object (SeqObj [lons; lats]) (rows, cols) (hrows, hcols) kx ky chunk) with
    (Ok (@make R [cx (lons, lats); cy (lons, lats); cz (lons, lats)] (rows, cols) (hrows, hcols) kx ky chunk)) in E. cbn [bind] in E.
  set (st := @make R [cx (lons, lats); cy (lons, lats); cz (lons, lats)] (rows, cols) (hrows, hcols) kx ky chunk) in E. assert (W : well_formed st) by reflexivity.
  destruct (c_shaped _ _ lons lats S1 S2) as (Cx & Cy & Cz).
  assert (RT : forall x y z, at2 0 x a b = at2 0 (cx (lons, lats)) i j -> at2 0 y a b = at2 0 (cy (lons, lats)) i j -> at2 0 z a b = at2 0 (cz (lons, lats)) i j ->
    (at2 None lo a b, at2 None la a b) = @xyz2lonlat _ RN (Some (at2 0 x a b), Some (at2 0 y a b), Some (at2 0 z a b)) ->
    at2 None lo a b = Some (at2 0 lons i j) /\ at2 None la a b = Some (at2 0 lats i j)).
  { intros x y z -> -> -> P. pose proof (geo_round_trip _ _ B1 B2) as G. pose proof (c_at n w lons lats i j S1 S2 Hi Hj) as CC. rewrite <- CC in G. rewrite G in P. now apply pair_inj. }
  destruct HA as [->|(-> & Hc & Ih & Fr)].
  - cbn [fill_borders resolve run_dims] in E. pose proof E as G. unfold geo_interpolate in E. apply bind_Ok in E. destruct E as (d & E & _).
    destruct (C85_tie_points s1 s2 H1 H2 st d W Ir Ic E) as [L T]. cbn [tie_data st make length] in L, T.
    destruct d as [|x [|y [|z [|? ?]]]]; try discriminate. apply (RT x y z).
    + apply (T 0%nat i j a b); cbn; auto; lia.
    + apply (T 1%nat i j a b); cbn; auto; lia.
    + apply (T 2%nat i j a b); cbn; auto; lia.
    + apply (geo_at st); auto.
  - destruct (fill_borders [DimY; DimX] st) as [[u|e] st2] eqn:EF; [|discriminate]. pose proof E as G. unfold geo_interpolate in E. apply bind_Ok in E. destruct E as (d & E & _).
    assert (FT : fill_then_interpolate s1 s2 st = Ok d) by (unfold fill_then_interpolate; rewrite EF; exact E).
    assert (W2 : well_formed st2) by (replace st2 with (snd (fill_borders [DimY; DimX] st)) by (now rewrite EF); now apply fill_borders_well_formed).
    pose proof (fill_borders_kept [DimY; DimX] st) as (K1 & K2 & _ & _ & K3). rewrite EF in K1, K2, K3. cbn [snd] in K1, K2, K3.
    pose proof (out_length _ _ _ _ W2 E) as L. unfold well_formed in W2. rewrite <- W2, K3 in L. cbn in L.
    destruct d as [|x [|y [|z [|? ?]]]]; try discriminate.
    assert (T : forall num, (num < 3)%nat -> at2 0 (nth num [x; y; z] []) a b = at2 0 (nth num (tie_data st) []) i j).
    { intros num Hn. apply (C85_filled s1 s2 H1 H2 st [x; y; z]); cbn; auto; try lia.
      - intros ->. cbn in Ha. lia.
      - intros ->. cbn in Lc. lia.
      - rewrite Forall_forall in Fr. rewrite <- INR_IZR_INZ, Lr. apply Fr, nth_In. lia. }
    apply (RT x y z); [apply (T 0%nat); lia|apply (T 1%nat); lia|apply (T 2%nat); lia|]. apply (geo_at st2); auto; rewrite ?K1, ?K2; auto.
Qed.
End GeoTie.
Print Assumptions C130_tie_points.
(** a case: a swath of 2 x 2 tie points and one row and column more between them *)
Example C130_case : forall s1 s2, interpolates s1 -> interpolates s2 ->
  exists lo la, geo_run s1 s2 (SeqObj [[[10; 20]; [11; 21]]; [[40; 41]; [50; 51]]]) ([0; 1], [0; 1]) ([0; 1 / 2; 1], [0; 1 / 2; 1]) 1 1 0 [] = Ok (lo, la) /\
    at2 None lo 0 2 = Some 20 /\ at2 None la 0 2 = Some 41 /\ at2 None lo 2 0 = Some 11 /\ at2 None la 2 0 = Some 50.
Proof.
  intros s1 s2 H1 H2. set (lons := [[10; 20]; [11; 21]]). set (lats := [[40; 41]; [50; 51]]).
  assert (I2 : increasing [0; 1]) by (intros i j; cbn [length]; intros Hij; destruct i as [|[|?]], j as [|[|?]]; try lia; cbn; lra).
  assert (I3 : increasing [0; 1 / 2; 1]) by (intros i j; cbn [length]; intros Hij; destruct i as [|[|[|?]]], j as [|[|[|?]]]; try lia; cbn; lra).
  assert (S1 : shaped 2 2 lons) by (split; [reflexivity|repeat constructor]). assert (S2 : shaped 2 2 lats) by (split; [reflexivity|repeat constructor]).
  destruct (c_shaped _ _ lons lats S1 S2) as (Cx & Cy & Cz).
  set (st := @make R [cx (lons, lats); cy (lons, lats); cz (lons, lats)] ([0; 1], [0; 1]) ([0; 1 / 2; 1], [0; 1 / 2; 1]) 1 1 0).
  destruct (C96_succeeds s1 s2 st) as (out & E); try reflexivity; auto.
  - repeat split; auto; cbn; lia.
  - cbn. intros Q. discriminate Q.
  - repeat constructor; auto; first [apply Cx|apply Cy|apply Cz].
  - pose proof (out_length s1 s2 st out eq_refl E) as L. cbn in L. destruct out as [|x [|y [|z [|? ?]]]]; try discriminate.
    assert (G : geo_run s1 s2 (SeqObj [lons; lats]) ([0; 1], [0; 1]) ([0; 1 / 2; 1], [0; 1 / 2; 1]) 1 1 0 [] = Ok (geo3 x y z)).
    { unfold geo_run. change (geo_object (SeqObj [lons; lats]) ([0; 1], [0; 1]) ([0; 1 / 2; 1], [0; 1 / 2; 1]) 1 1 0) with (Ok st). cbn [bind].
      change (fill_borders [] st) with (@Ok unit tt, st). cbn iota. unfold geo_interpolate. rewrite E. cbn [bind]. apply to_geo_eq. }
    exists (fst (geo3 x y z)), (snd (geo3 x y z)). rewrite <- surjective_pairing. split; [exact G|]. rewrite (surjective_pairing (geo3 x y z)) in G.
    pose proof (C130_tie_points s1 s2 H1 H2 2 2 lons lats [0; 1] [0; 1] _ _ 1 1 0 [] _ _ S1 S2 eq_refl eq_refl I2 I2 (or_introl eq_refl) G) as T.
    destruct (T 0 1 0 2)%nat as [T1 T2]; cbn; try lia; try lra. destruct (T 1 0 2 0)%nat as [T3 T4]; cbn; try lia; try lra. auto.
Qed.
