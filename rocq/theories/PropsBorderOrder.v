(** C132: the order of the dimensions passed to fill_borders. C133: fill_borders('y') called twice. *)
From Coq Require Import ZArith QArith List Bool Arith Lia Reals Lra.
From Verif Require Import Spec Base Num Splits Interp InterpProofs BorderProofs PropsBilinear.
Import ListNotations.
Open Scope R_scope.
#[local] Existing Instance RT.

(** ** C132 *)
(** [E] may be applied before or after an extrapolation *)
Definition linear_map (w : nat) (E : list R -> list R) : Prop :=
  forall p q x a b, length a = w -> length b = w -> E (map2 (lin_at p q x) a b) = map2 (lin_at p q x) (E a) (E b).

Lemma map2_len {A B C} (f : A -> B -> C) a : forall b n, length a = n -> length b = n -> length (map2 f a b) = n.
Proof. induction a as [|x a IH]; intros [|y b] [|n] Ha Hb; cbn in *; try lia. f_equal. apply IH; lia. Qed.
Lemma map2_app' {A B C} (f : A -> B -> C) a1 : forall b1 a2 b2, length a1 = length b1 -> map2 f (a1 ++ a2) (b1 ++ b2) = map2 f a1 b1 ++ map2 f a2 b2.
Proof. induction a1 as [|x a IH]; intros [|y b] a2 b2 H; cbn in *; try lia; [reflexivity|]. f_equal. apply IH. lia. Qed.
Lemma map2_nth' (f : R -> R -> R) a : forall b k, length a = length b -> (k < length a)%nat -> nth k (map2 f a b) 0 = f (nth k a 0) (nth k b 0).
Proof. induction a as [|x a IH]; intros [|y b] [|k] H Hk; cbn in *; try lia; [reflexivity|]. apply IH; lia. Qed.

Lemma lin_at_swap p q x p' q' x' a b c d :
  lin_at p q x (lin_at p' q' x' a b) (lin_at p' q' x' c d) = lin_at p' q' x' (lin_at p q x a c) (lin_at p q x b d).
Proof. unfold lin_at. cbn [nadd nsub nmul ndiv nz RT]. ring. Qed.

Lemma ext_row_linear cols hcols w : (2 <= w)%nat -> linear_map w (ext_row cols hcols).
Proof.
  intros Hw p q x a b La Lb. unfold ext_row. rewrite (map2_len _ _ _ w La Lb), La, Lb.
  rewrite !map2_nth' by lia.
  destruct (need_first cols hcols), (need_last cols hcols); cbn [app map2]; rewrite ?app_nil_r; try reflexivity.
  - f_equal; [apply lin_at_swap|]. rewrite map2_app' by lia. f_equal. cbn [map2]. f_equal. apply lin_at_swap.
  - f_equal. apply lin_at_swap.
  - rewrite map2_app' by lia. f_equal. cbn [map2]. f_equal. apply lin_at_swap.
Qed.

Section Commute.
Variables (w : nat) (E : list R -> list R).
Hypothesis HE : linear_map w E.
Notation wide := (Forall (fun r : list R => length r = w)).

Lemma nth_res_map {A B} (f : A -> B) l i : nth_res (map f l) i = rmap f (nth_res l i).
Proof. unfold nth_res. destruct (i <? 0)%Z; [reflexivity|]. rewrite nth_error_map. destruct (nth_error l (Z.to_nat i)); reflexivity. Qed.
Lemma nth_res_in {A} (l : list A) i a : nth_res l i = Ok a -> In a l.
Proof.
  unfold nth_res. destruct (i <? 0)%Z; [discriminate|]. destruct (nth_error l (Z.to_nat i)) eqn:H; [|discriminate]. intros K. injection K as <-. eapply nth_error_In; eauto.
Qed.
Lemma mapM_rmap {A B C} (f : A -> res B) (g : B -> C) l : mapM (fun a => rmap g (f a)) l = rmap (map g) (mapM f l).
Proof.
  induction l as [|a l IH]; [reflexivity|]. cbn [mapM]. destruct (f a); cbn [rmap bind]; [|reflexivity]. rewrite IH. destruct (mapM f l); reflexivity.
Qed.
Lemma mapM_in {A B} (f : A -> res B) (P : B -> Prop) l l' : (forall a b, f a = Ok b -> P b) -> mapM f l = Ok l' -> Forall P l'.
Proof.
  intros H. revert l'. induction l as [|a l IH]; intros l' K; cbn [mapM] in K; [injection K as <-; constructor|].
  apply bind_Ok in K as (b & Eb & K). apply bind_Ok in K as (bs & Ebs & K). injection K as <-. constructor; [eapply H; eauto|auto].
Qed.

Lemma linear_extrapolate_map pos a b x : length a = w -> length b = w ->
  linear_extrapolate pos [E a; E b] x = rmap E (linear_extrapolate pos [a; b] x).
Proof. intros La Lb. unfold linear_extrapolate. destruct pos as [|p [|q [|? ?]]]; try reflexivity. cbn [rmap]. now rewrite HE. Qed.

Lemma wide_in data r : wide data -> In r data -> length r = w.
Proof. rewrite Forall_forall. auto. Qed.

Lemma extrapolate_rows_map data rowidx f l : wide data -> extrapolate_rows (map E data) rowidx f l = rmap (map E) (extrapolate_rows data rowidx f l).
Proof.
  intros W. unfold extrapolate_rows. destruct data as [|r0 data]; [reflexivity|]. destruct data as [|r1 data]; [reflexivity|].
  change (map E (r0 :: r1 :: data)) with (E r0 :: E r1 :: map E data) at 1.
  set (dd := r0 :: r1 :: data) in *. rewrite !nth_res_map, !map_length.
  destruct (nth_res dd 0) as [d0|] eqn:E0; [|reflexivity]. destruct (nth_res dd 1) as [d1|] eqn:E1; [|reflexivity]. cbn [rmap bind].
  rewrite linear_extrapolate_map by (eapply wide_in; [exact W|eapply nth_res_in; eauto]).
  destruct (linear_extrapolate (first2 rowidx) [d0; d1] f) as [fr|]; [|reflexivity]. cbn [rmap bind].
  destruct (nth_res dd (Z.of_nat (length dd) - 2)) as [e0|] eqn:E2; [|reflexivity]. cbn [rmap bind].
  destruct (nth_res dd (Z.of_nat (length dd) - 1)) as [e1|] eqn:E3; [|reflexivity]. cbn [rmap bind].
  rewrite linear_extrapolate_map by (eapply wide_in; [exact W|eapply nth_res_in; eauto]).
  destruct (linear_extrapolate (last2 rowidx) [e0; e1] l) as [lr|]; [|reflexivity]. cbn [rmap bind]. do 2 f_equal. unfold dd. cbn [map app]. now rewrite map_app.
Qed.

Lemma linear_extrapolate_len pos a b x r : length a = w -> length b = w -> linear_extrapolate pos [a; b] x = Ok r -> length r = w.
Proof.
  intros La Lb K. unfold linear_extrapolate in K. destruct pos as [|p [|q [|? ?]]]; try discriminate. injection K as <-. now apply map2_len.
Qed.
Lemma extrapolate_rows_wide data rowidx f l d' : wide data -> extrapolate_rows data rowidx f l = Ok d' -> wide d'.
Proof.
  intros W K. unfold extrapolate_rows in K. destruct data as [|r0 data]; [discriminate|]. destruct data as [|r1 data]; [discriminate|].
  set (dd := r0 :: r1 :: data) in *.
  destruct (nth_res dd 0) as [d0|] eqn:E0; [|discriminate]. destruct (nth_res dd 1) as [d1|] eqn:E1; [|discriminate]. cbn [bind] in K.
  destruct (linear_extrapolate (first2 rowidx) [d0; d1] f) as [fr|] eqn:E4; [|discriminate]. cbn [bind] in K.
  destruct (nth_res dd (Z.of_nat (length dd) - 2)) as [e0|] eqn:E2; [|discriminate]. cbn [bind] in K.
  destruct (nth_res dd (Z.of_nat (length dd) - 1)) as [e1|] eqn:E3; [|discriminate]. cbn [bind] in K.
  destruct (linear_extrapolate (last2 rowidx) [e0; e1] l) as [lr|] eqn:E5; [|discriminate]. cbn [bind] in K. injection K as <-.
  assert (Q : forall r i, nth_res dd i = Ok r -> length r = w) by (intros r i H; eapply wide_in; [exact W|eapply nth_res_in; eauto]).
  constructor; [eapply linear_extrapolate_len; [| |exact E4]; eauto|]. change (wide (dd ++ [lr])). apply Forall_app. split; [exact W|].
  constructor; [eapply linear_extrapolate_len; [| |exact E5]; eauto|constructor].
Qed.

(** the state with other columns and with [E] applied to the rows of the tie data *)
Definition with_rows (cols : list R) (st : istate R) : istate R :=
  mkI (row_indices st) cols (hrow_indices st) (hcol_indices st) (chunk_size st) (map (map E) (tie_data st)) (kx_ st) (ky_ st) (new_data st).

Definition both {A} (p : list (list (list R)) * A) : list (list (list R)) * A := (map (map E) (fst p), snd p).
Lemma fill_chunk_map cols st chunk factor index : Forall wide (tie_data st) ->
  fill_chunk (with_rows cols st) chunk factor index = rmap both (fill_chunk st chunk factor index).
Proof.
  intros W. unfold fill_chunk, with_rows. cbn [row_indices hrow_indices tie_data].
  set (sel := window (row_indices st) (nz index / factor)%num (nz (index + chunk) / factor)%num).
  set (tiepos := map (fun i => nth i (row_indices st) (nz 0)) sel).
  match goal with |- context [mapM ?f (map (map E) (tie_data st))] => set (F := f) end.
  match goal with |- context [mapM ?g (tie_data st)] => change g with F end.
  assert (K : mapM F (map (map E) (tie_data st)) = rmap (map (map E)) (mapM F (tie_data st))).
  { rewrite <- mapM_rmap. induction W as [|data l Wd W IH]; [reflexivity|]. cbn [map mapM]. rewrite IH. f_equal. unfold F.
    replace (mapM (fun i => nth_res (map E data) (Z.of_nat i)) sel) with (rmap (map E) (mapM (fun i => nth_res data (Z.of_nat i)) sel))
      by (rewrite <- mapM_rmap; apply mapM_ext; intros; now rewrite nth_res_map).
    destruct (mapM (fun i => nth_res data (Z.of_nat i)) sel) as [te|] eqn:Et; [|reflexivity]. cbn [rmap bind].
    destruct sel; [reflexivity|]. destruct (nth_res (hrow_indices st) index); [|reflexivity]. cbn [bind].
    destruct (nth_res (hrow_indices st) (index + chunk - 1)); [|reflexivity]. cbn [bind]. apply extrapolate_rows_map.
    eapply mapM_in; [|exact Et]. cbv beta. intros i r H. eapply wide_in; [exact Wd|eapply nth_res_in; eauto]. }
  rewrite K. destruct (mapM F (tie_data st)) as [blocks|]; [|reflexivity]. cbn [rmap bind].
  destruct (nth_res (hrow_indices st) index); [|reflexivity]. cbn [bind].
  destruct (nth_res (hrow_indices st) (index + chunk - 1)); [|reflexivity]. reflexivity.
Qed.
Lemma fill_chunk_wide st chunk factor index r : Forall wide (tie_data st) -> fill_chunk st chunk factor index = Ok r -> Forall wide (fst r).
Proof.
  intros W K. unfold fill_chunk in K. apply bind_Ok in K as (blocks & Eb & K). apply bind_Ok in K as (h0 & _ & K). apply bind_Ok in K as (h1 & _ & K).
  injection K as <-. cbn [fst]. revert blocks Eb. induction W as [|data l Wd W IH]; intros blocks Eb; cbn [mapM] in Eb; [injection Eb as <-; constructor|].
  apply bind_Ok in Eb as (b & E1 & Eb). apply bind_Ok in Eb as (bs & E2 & Eb). injection Eb as <-. constructor; [|auto].
  apply bind_Ok in E1 as (te & Et & E1).
  assert (Wt : wide te) by (eapply mapM_in; [|exact Et]; cbv beta; intros i r H; eapply wide_in; [exact Wd|eapply nth_res_in; eauto]).
  destruct (window _ _ _); [injection E1 as <-; constructor|]. apply bind_Ok in E1 as (k0 & _ & E1). apply bind_Ok in E1 as (k1 & _ & E1).
  eapply extrapolate_rows_wide; eauto.
Qed.

Lemma vstack_map blocks : vstack_blocks (map (map E) blocks) = rmap (map E) (vstack_blocks blocks).
Proof. unfold vstack_blocks. rewrite <- concat_map. destruct (concat blocks); reflexivity. Qed.

Lemma fill_row_borders_map cols st : Forall wide (tie_data st) ->
  fill_row_borders (with_rows cols st) = rmap (with_rows cols) (fill_row_borders st).
Proof.
  intros W. unfold fill_row_borders. 
  change (tie_data (with_rows cols st)) with (map (map E) (tie_data st)). change (row_indices (with_rows cols st)) with (row_indices st).
  change (hrow_indices (with_rows cols st)) with (hrow_indices st). change (chunk_size (with_rows cols st)) with (chunk_size st).
  set (lines := Z.of_nat (length (hrow_indices st))). set (chunk := if (chunk_size st =? 0)%Z then lines else chunk_size st).
  match goal with |- bind ?f _ = rmap _ (bind ?f _) => destruct f as [factor|] end; [|reflexivity]. cbn [bind].
  destruct (py_range 0 lines chunk) as [idx|]; [|reflexivity]. cbn [bind].
  rewrite (mapM_ext _ (fun i => rmap both (fill_chunk st chunk factor i))) by (intros; now apply fill_chunk_map).
  rewrite mapM_rmap. destruct (mapM (fill_chunk st chunk factor) idx) as [chunks|]; [|reflexivity]. cbn [rmap bind]. rewrite map_length.
  rewrite (mapM_ext _ (fun num => rmap (map E) (vstack_blocks (map (fun cb => nth num (fst cb) []) chunks)))).
  2:{ intros num _. rewrite <- vstack_map. f_equal. rewrite !map_map. apply map_ext. intros cb. unfold both. cbn [fst].
      change (@nil (list R)) with (map E []). now rewrite map_nth. }
  rewrite mapM_rmap. destruct (mapM _ (seq 0 (length (tie_data st)))) as [td|]; [|reflexivity]. cbn [rmap bind]. unfold with_rows. cbn [row_indices col_indices hrow_indices hcol_indices chunk_size tie_data kx_ ky_ new_data].
  do 2 f_equal. rewrite map_map. reflexivity.
Qed.

Lemma fill_row_borders_wide st st' : Forall wide (tie_data st) -> fill_row_borders st = Ok st' ->
  Forall wide (tie_data st') /\ col_indices st' = col_indices st /\ hcol_indices st' = hcol_indices st.
Proof.
  intros W K. unfold fill_row_borders in K. apply bind_Ok in K as (factor & _ & K). apply bind_Ok in K as (idx & _ & K).
  apply bind_Ok in K as (chunks & Ec & K). apply bind_Ok in K as (td & Et & K). injection K as <-. cbn [tie_data col_indices hcol_indices]. split; [|auto].
  assert (C : Forall (fun cb => Forall wide (fst cb)) chunks) by (eapply mapM_in; [|exact Ec]; intros a b H; eapply fill_chunk_wide; eauto).
  eapply mapM_in; [|exact Et]. cbv beta. intros num d H. unfold vstack_blocks in H.
  assert (Q : wide (concat (map (fun cb : list (list (list R)) * list R => nth num (fst cb) []) chunks))).
  { apply Forall_concat. rewrite Forall_map. eapply Forall_impl; [|exact C]. cbv beta. intros cb Wc. destruct (le_lt_dec (length (fst cb)) num) as [L|L].
    - rewrite nth_overflow by exact L. constructor.
    - rewrite Forall_forall in Wc. apply Wc, nth_In, L. }
  destruct (concat _); [discriminate|]. injection H as <-. exact Q.
Qed.
End Commute.

(** tie data of one width *)
Definition rectangular (w : nat) (st : istate R) : Prop := Forall (Forall (fun r => length r = w)) (tie_data st).

Theorem C132_order : forall st w, rectangular w st -> (2 <= w)%nat -> (2 <= length (col_indices st))%nat -> hcol_indices st <> [] ->
  match fill_borders [DimY; DimX] st, fill_borders [DimX; DimY] st with
  | (Ok _, s1), (Ok _, s2) => s1 = s2
  | (Err e1, s1), (Err e2, _) => e1 = e2 /\ s1 = st
  | _, _ => False
  end.
Proof.
  intros st w W Hw Hc Hh. unfold fill_borders. cbn [resolve bind run_dims run_dim].
  pose proof (ext_row_linear (col_indices st) (hcol_indices st) w Hw) as L.
  assert (W2 : Forall (Forall (fun r : list R => (2 <= length r)%nat)) (tie_data st)).
  { eapply Forall_impl; [|exact W]. intros d F. eapply Forall_impl; [|exact F]. cbv beta. intros; lia. }
  rewrite (fill_col_borders_eq st Hc Hh W2).
  change (mkI (row_indices st) (ext_cols (col_indices st) (hcol_indices st)) (hrow_indices st) (hcol_indices st) (chunk_size st)
    (map (map (ext_row (col_indices st) (hcol_indices st))) (tie_data st)) (kx_ st) (ky_ st) (new_data st))
    with (with_rows (ext_row (col_indices st) (hcol_indices st)) (ext_cols (col_indices st) (hcol_indices st)) st).
  rewrite (fill_row_borders_map w _ L _ st W).
  destruct (fill_row_borders st) as [st'|e] eqn:E; cbn [rmap].
  - destruct (fill_row_borders_wide w st st' W E) as (W' & Ec & Eh).
    rewrite fill_col_borders_eq.
    + cbn [rmap]. unfold with_rows. rewrite Ec, Eh. reflexivity.
    + now rewrite Ec.
    + now rewrite Eh.
    + eapply Forall_impl; [|exact W']. intros d F. eapply Forall_impl; [|exact F]. cbv beta. intros; lia.
  - split; [reflexivity|]. unfold failed_dim. destruct (nth_res (col_indices st) 0); reflexivity.
Qed.
Print Assumptions C132_order.

(** ** C133 *)
Lemma strict_inc_cons (a : R) l : strict_inc (a :: l) = true -> strict_inc l = true.
Proof. destruct l; [reflexivity|]. cbn [strict_inc]. intros H. apply andb_true_iff in H. apply H. Qed.
Lemma strict_inc_hd (a : R) l x : strict_inc (a :: l) = true -> In x l -> a < x.
Proof.
  revert a. induction l as [|b l IH]; intros a H I; [contradiction|]. destruct I as [<-|I]; cbn [strict_inc] in H; apply andb_true_iff in H as [H1 H2]; apply Rltb_true in H1; auto.
  eapply Rlt_trans; [exact H1|]. auto.
Qed.
(** a number that occurs twice *)
Lemma strict_inc_twice (l : list R) x r : In x l -> strict_inc (l ++ x :: r) = false.
Proof.
  induction l as [|a l IH]; [contradiction|]. intros [->|I].
  - destruct (strict_inc ((x :: l) ++ x :: r)) eqn:E; [|reflexivity]. cbn [app] in E. assert (x < x); [|lra].
    apply (strict_inc_hd _ _ x E). apply in_or_app. right. now left.
  - destruct (strict_inc ((a :: l) ++ x :: r)) eqn:E; [|reflexivity]. cbn [app] in E. apply strict_inc_cons in E. rewrite (IH I) in E. discriminate.
Qed.
Lemma array_equal_true (a : list R) : forall b, array_equal a b = true -> a = b.
Proof.
  induction a as [|x a IH]; intros [|y b] H; cbn [array_equal] in H; try discriminate; [reflexivity|]. apply andb_true_iff in H as [H1 H2].
  apply Reqb_true in H1. f_equal; auto.
Qed.

(** size of the pieces *)
Definition piece (st : istate R) : Z := if (chunk_size st =? 0)%Z then Z.of_nat (length (hrow_indices st)) else chunk_size st.

Lemma py_range_first n c idx : (0 < n)%Z -> (0 < c)%Z -> py_range 0 n c = Ok idx -> exists idx', idx = 0%Z :: idx'.
Proof.
  intros Hn Hc E. unfold py_range in E. destruct (c =? 0)%Z eqn:Z0; [discriminate|]. injection E as <-.
  assert (D : (1 <= (n - 0 + c - 1) / c)%Z) by (apply Z.div_le_lower_bound; lia).
  unfold range0. destruct (Z.to_nat ((n - 0 + c - 1) / c)) as [|k] eqn:K; [lia|]. cbn [zrange map]. eexists. f_equal. lia.
Qed.

(** the rows after filling: those of the first piece come first *)
Lemma fill_rows_first st st' : (0 < length (hrow_indices st))%nat -> (0 < piece st)%Z -> fill_row_borders st = Ok st' ->
  exists rest, let lim := IZR (piece st) / (IZR (Z.of_nat (length (hrow_indices st))) / IZR (Z.of_nat (length (row_indices st)))) in
  exists sel, (forall r, In r (row_indices st) -> 0 <= r < lim -> In r sel) /\
  (Z.to_nat (piece st) <= length (hrow_indices st))%nat /\
  row_indices st' = nth 0 (hrow_indices st) 0 :: sel ++ nth (Z.to_nat (piece st) - 1) (hrow_indices st) 0 :: rest /\
  hrow_indices st' = hrow_indices st /\ piece st' = piece st /\ length (tie_data st') = length (tie_data st).
Proof.
  intros Hl Hp K. unfold fill_row_borders in K. cbv zeta in K. fold (piece st) in K. apply bind_Ok in K as (factor & Ef & K). apply bind_Ok in K as (idx & Ei & K).
  apply bind_Ok in K as (chunks & Ec & K). apply bind_Ok in K as (td & Et & K). injection K as <-. cbn [row_indices hrow_indices tie_data].
  assert (Hl' : (0 < Z.of_nat (length (hrow_indices st)))%Z) by lia. destruct (py_range_first _ _ _ Hl' Hp Ei) as [idx' ->]. cbn [mapM] in Ec. apply bind_Ok in Ec as (c0 & E0 & Ec). apply bind_Ok in Ec as (cs & Ecs & Ec). injection Ec as <-.
  assert (Hf : factor = IZR (Z.of_nat (length (hrow_indices st))) / IZR (Z.of_nat (length (row_indices st)))).
  { destruct (row_indices st); [discriminate|]. injection Ef as <-. reflexivity. }
  unfold fill_chunk in E0. apply bind_Ok in E0 as (blocks & _ & E0). apply bind_Ok in E0 as (h0 & H0 & E0). apply bind_Ok in E0 as (h1 & H1 & E0). injection E0 as <-.
  exists (concat (map snd cs)). cbv zeta. rewrite <- Hf.
  exists (map (fun i => nth i (row_indices st) 0) (window (row_indices st) (0 / factor) (IZR (piece st) / factor))).
  assert (Q : forall i h, (0 <= i)%Z -> nth_res (hrow_indices st) i = Ok h -> (Z.to_nat i < length (hrow_indices st))%nat /\ nth (Z.to_nat i) (hrow_indices st) 0 = h).
  { intros i h Hi H. unfold nth_res in H. destruct (i <? 0)%Z eqn:E; [apply Z.ltb_lt in E; lia|]. destruct (nth_error (hrow_indices st) (Z.to_nat i)) as [v|] eqn:Ev; [|discriminate].
    injection H as ->. split; [apply nth_error_Some; congruence|]. now apply nth_error_nth. }
  apply Q in H0; [|lia]. apply Q in H1; [|fold (piece st); lia]. fold (piece st) in H1. destruct H0 as [_ <-], H1 as [B1 <-].
  split.
  { intros r I [R0 R1]. apply (In_nth _ _ 0) in I as (i & Li & <-). apply in_map_iff. exists i. split; [reflexivity|]. unfold window. apply filter_In. split; [apply in_seq; lia|].
    cbv zeta. apply andb_true_iff. split; [apply Rleb_true|apply Rltb_true]; [|exact R1]. unfold Rdiv. rewrite Rmult_0_l. exact R0. }
  split; [lia|]. split; [|split; [reflexivity|split; [unfold piece; cbn [chunk_size hrow_indices]; reflexivity|]]].
  - cbn [map concat snd]. change (Z.to_nat 0) with 0%nat. rewrite Z.add_0_l. replace (Z.to_nat (piece st - 1)) with (Z.to_nat (piece st) - 1)%nat by lia.
    cbn [app]. rewrite <- app_assoc. reflexivity.
  - apply mapM_length in Et. now rewrite seq_length in Et.
Qed.

(** the second call puts the last row of the first piece twice; interpolate() then refuses *)
Theorem C133_twice : forall s1 s2 st st1 st2,
  fill_borders [DimY] st = (Ok tt, st1) -> fill_borders [DimY] st1 = (Ok tt, st2) ->
  increasing (hrow_indices st) -> hrow_indices st <> [] -> tie_data st <> [] -> (0 <= chunk_size st)%Z ->
  let lines := INR (length (hrow_indices st)) in let border := nth (Z.to_nat (piece st) - 1) (hrow_indices st) 0 in
  0 <= border -> border * lines < IZR (piece st) * INR (length (row_indices st1)) ->
  fst (interpolate s1 s2 st2) = Err ValueError.
Proof.
  intros s1 s2 st st1 st2 E1 E2 I Hne Td Hc lines border B0 B1. unfold fill_borders in E1, E2. cbn [resolve bind run_dims run_dim] in E1, E2.
  destruct (fill_row_borders st) as [t1|] eqn:F1; [|discriminate]. injection E1 as ->. destruct (fill_row_borders st1) as [t2|] eqn:F2; [|discriminate]. injection E2 as ->.
  assert (Hl : (0 < length (hrow_indices st))%nat) by (destruct (hrow_indices st); [congruence|cbn; lia]).
  assert (Hp : (0 < piece st)%Z) by (unfold piece; destruct (chunk_size st =? 0)%Z eqn:Z0; [lia|apply Z.eqb_neq in Z0; lia]).
  destruct (fill_rows_first st st1 Hl Hp F1) as (rest1 & sel1 & _ & L1 & R1 & H1 & P1 & T1).
  destruct (fill_rows_first st1 st2 ltac:(now rewrite H1) ltac:(now rewrite P1) F2) as (rest2 & sel2 & S2 & _ & R2 & H2 & P2 & T2).
  rewrite H1, P1 in *. fold border in R1, R2.
  assert (In border sel2) as IB.
  { apply S2; [rewrite R1; right; apply in_or_app; right; now left|]. split; [exact B0|]. rewrite <- !INR_IZR_INZ. fold lines.
    assert (Lp : 0 < lines) by (apply lt_0_INR; exact Hl).
    assert (Rp : 0 < INR (length (row_indices st1))) by (apply lt_0_INR; rewrite R1; cbn; lia).
    unfold Rdiv. rewrite Rinv_mult, Rinv_inv. rewrite (Rmult_comm (/ lines)), <- Rmult_assoc. apply Rmult_lt_reg_r with lines; [exact Lp|].
    rewrite Rmult_assoc, Rinv_l, Rmult_1_r by lra. exact B1. }
  assert (NS : strict_inc (row_indices st2) = false).
  { rewrite R2. change (strict_inc ((nth 0 (hrow_indices st) 0 :: sel2) ++ border :: rest2) = false). apply strict_inc_twice. now right. }
  assert (NA : array_equal (hrow_indices st2) (row_indices st2) = false).
  { destruct (array_equal _ _) eqn:A; [|reflexivity]. apply array_equal_true in A. rewrite <- A, H2 in NS.
    rewrite (strict_inc_of _ I) in NS. discriminate. }
  unfold interpolate. destruct (tie_data st2) as [|d td] eqn:ET; [exfalso; rewrite T1 in T2; destruct (tie_data st); [congruence|discriminate T2]|].
  cbn [interp_loop]. unfold interp_one. rewrite NA. unfold interp2d_one, rect_bivariate. rewrite NS. reflexivity.
Qed.
Print Assumptions C133_twice.

(** One scan of two tie rows every five pixels, a tie column every five: after one call interpolate() works, after two it fails. *)
Definition small_scan : istate Q :=
  @make Q [[[1; 2]; [4; 8]]%Q] ([2 # 5; 7 # 5]%Q, [2; 7]%Q) (map (fun k => (Z.of_nat k # 5)%Q) (seq 0 10), map (fun k => inject_Z (Z.of_nat k)) (seq 2 6)) 1 1 10.
Theorem C133_refuted : forall s1 s2, exists st1 st2 d,
  @fill_borders Q QT [DimY] small_scan = (Ok tt, st1) /\ fst (@interpolate Q QT s1 s2 st1) = Ok d /\
  @fill_borders Q QT [DimY] st1 = (Ok tt, st2) /\ fst (@interpolate Q QT s1 s2 st2) = Err ValueError.
Proof.
  intros s1 s2. do 3 eexists. split; [vm_compute; reflexivity|]. split; [vm_compute; reflexivity|]. split; [vm_compute; reflexivity|]. vm_compute. reflexivity.
Qed.
Print Assumptions C133_refuted.
(** rows and columns missing on all sides *)
Example C132_case : let st := @make Q [[[1; 2; 4]; [4; 8; 5]]%Q] ([2 # 5; 7 # 5]%Q, [1; 3; 4]%Q) (map (fun k => (Z.of_nat k # 5)%Q) (seq 0 10), map (fun k => inject_Z (Z.of_nat k)) (seq 0 6)) 1 1 10 in
  exists st', @fill_borders Q QT [DimY; DimX] st = (Ok tt, st') /\ @fill_borders Q QT [DimX; DimY] st = (Ok tt, st') /\ tie_data st' <> tie_data st /\ length (row_indices st') = 4%nat /\ length (col_indices st') = 5%nat.
Proof. cbv zeta. eexists. split; [vm_compute; reflexivity|]. split; [vm_compute; reflexivity|]. vm_compute. repeat split; congruence. Qed.
