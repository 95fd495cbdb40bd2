(** C123: what fill_borders leaves behind when it raises *)
From Coq Require Import ZArith QArith List Bool Lia.
From Verif Require Import Base Num Interp.
Import ListNotations.
Local Open Scope nat_scope.

Section Failure.
Context {T : Type} {N : NumOps T}.
Notation mat := (list (list T)).

(** a row with at most one value put before and at most one put behind it *)
Definition row_extended (r r' : list T) : Prop :=
  exists pre post, r' = pre ++ r ++ post /\ length pre <= 1 /\ length post <= 1.
(** an array whose rows are extended at the same ends *)
Definition array_extended (d d' : mat) : Prop := Forall2 row_extended d d'.
(** nothing but the tie data differs *)
Definition same_but_data (st st' : istate T) : Prop :=
  row_indices st' = row_indices st /\ col_indices st' = col_indices st /\ hrow_indices st' = hrow_indices st /\
  hcol_indices st' = hcol_indices st /\ chunk_size st' = chunk_size st /\ kx_ st' = kx_ st /\ ky_ st' = ky_ st /\
  new_data st' = new_data st.

Lemma run_one d (st : istate T) e st' :
  d <> DimOther -> fill_borders [d] st = (Err e, st') -> st' = failed_dim d st /\ run_dim d st = Err e.
Proof.
  intros Hd. unfold fill_borders. destruct d; [| |congruence]; cbn [resolve bind run_dims];
  destruct (run_dim _ st) as [s|e'] eqn:E; cbn [run_dims]; intros H; inversion H; subst; split; auto.
Qed.

Theorem C123_rows_partial : forall (st st' : istate T) e,
  fill_borders [DimY] st = (Err e, st') -> st' = st.
Proof. intros st st' e H. apply run_one in H; [|discriminate]. now destruct H as [-> _]. Qed.

Lemma map2_len {A B C} (f : A -> B -> C) l1 l2 : length (map2 f l1 l2) = Nat.min (length l1) (length l2).
Proof. revert l2. induction l1; destruct l2; cbn; auto. Qed.

Lemma mapM_len {A B} (f : A -> res B) l l' : mapM f l = Ok l' -> length l' = length l.
Proof.
  revert l'. induction l as [|a l IH]; intros l'; cbn.
  - intros H; now inversion H.
  - destruct (f a); cbn; [|discriminate]. destruct (mapM f l); cbn; [|discriminate]. intros H; inversion H; subst.
    cbn. now rewrite (IH _ eq_refl).
Qed.

Lemma lin_len pos d0 d1 x r : linear_extrapolate pos [d0; d1] x = Ok r -> length r = Nat.min (length d0) (length d1).
Proof.
  unfold linear_extrapolate. destruct pos as [|? [|? [|? ?]]]; try discriminate. intros H; inversion H. apply map2_len.
Qed.

Lemma extend_front (f : list T) (d : mat) : length f = length d ->
  Forall2 (fun r r' => exists a, r' = a :: r) d (map2 (fun f r => f :: r) f d).
Proof. revert f. induction d as [|r d IH]; intros [|a f] H; cbn in *; try discriminate; constructor; eauto. Qed.
Lemma extend_back (f : list T) (d : mat) : length f = length d ->
  Forall2 (fun r r' => exists a, r' = r ++ [a]) d (map2 (fun r l => r ++ [l]) d f).
Proof. revert f. induction d as [|r d IH]; intros [|a f] H; cbn in *; try discriminate; constructor; eauto. Qed.

Lemma F2_compose {A} (P Q S : A -> A -> Prop) l1 l2 l3 :
  (forall a b c, P a b -> Q b c -> S a c) -> Forall2 P l1 l2 -> Forall2 Q l2 l3 -> Forall2 S l1 l3.
Proof.
  intros H F. revert l3. induction F; intros l3 G; inversion G; subst; constructor; eauto.
Qed.
Lemma F2_refl {A} (P : A -> A -> Prop) l : (forall a, P a a) -> Forall2 P l l.
Proof. intros H. induction l; constructor; auto. Qed.
Lemma F2_len {A B} (P : A -> B -> Prop) l1 l2 : Forall2 P l1 l2 -> length l1 = length l2.
Proof. induction 1; cbn; auto. Qed.

Lemma extrapolate_cols_extended (st : istate T) d b1 b2 d' :
  extrapolate_cols st d b1 b2 = Ok d' -> array_extended d d'.
Proof.
  unfold extrapolate_cols, get_col, get_col_end. intros H.
  set (fc := if b1 then _ else Ok []) in H. destruct fc as [f|] eqn:Ef; [|discriminate]. cbn [bind] in H.
  set (lc := if b2 then _ else Ok []) in H. destruct lc as [l|] eqn:El; [|discriminate]. cbn [bind] in H.
  assert (Lf : b1 = true -> length f = length d).
  { intros ->. subst fc. destruct (mapM _ d) as [c0|] eqn:E0; [|discriminate]. cbn [bind] in Ef.
    destruct (mapM _ d) as [c1|] eqn:E1 in Ef; [|discriminate]. cbn [bind] in Ef.
    destruct (nth_res _ _) in Ef; [|discriminate]. cbn [bind] in Ef. apply lin_len in Ef.
    apply mapM_len in E0, E1. lia. }
  assert (Ll : b2 = true -> length l = length d).
  { intros ->. subst lc. destruct (mapM _ d) as [c0|] eqn:E0 in El; [|discriminate]. cbn [bind] in El.
    destruct (mapM _ d) as [c1|] eqn:E1 in El; [|discriminate]. cbn [bind] in El.
    destruct (last_res _) in El; [|discriminate]. cbn [bind] in El. apply lin_len in El.
    apply mapM_len in E0, E1. lia. }
  clear fc lc Ef El. inversion H; subst d'; clear H. unfold array_extended.
  eapply F2_compose with (P := fun r r' => exists pre, r' = pre ++ r /\ length pre <= 1)
                         (Q := fun r r' => exists post, r' = r ++ post /\ length post <= 1)
                         (l2 := if b1 then map2 (fun f r => f :: r) f d else d).
  - intros a b c (pre & -> & Hp) (post & -> & Hq). exists pre, post. now rewrite app_assoc.
  - destruct b1.
    + eapply F2_compose; [|apply F2_refl with (P := eq); reflexivity|apply (extend_front f d); auto].
      intros a b c -> [x ->]. exists [x]. auto.
    + apply F2_refl. intros a. exists []. auto.
  - assert (L : length (if b1 then map2 (fun f r => f :: r) f d else d) = length d)
      by (destruct b1; [rewrite map2_len, Lf by reflexivity; lia|reflexivity]).
    destruct b2.
    + eapply F2_compose; [|apply F2_refl with (P := eq); reflexivity|apply (extend_back l); rewrite L; auto].
      intros a b c -> [x ->]. exists [x]. auto.
    + apply F2_refl. intros a. exists []. rewrite app_nil_r. auto.
Qed.

(** a failure of the columns: a prefix of the arrays is extended, nothing else changes *)
Theorem C123_columns_partial : forall (st st' : istate T) e,
  fill_borders [DimX] st = (Err e, st') ->
  same_but_data st st' /\
  exists k, k <= length (tie_data st) /\
    Forall2 array_extended (firstn k (tie_data st)) (firstn k (tie_data st')) /\
    skipn k (tie_data st') = skipn k (tie_data st).
Proof.
  intros st st' e H. apply run_one in H; [|discriminate]. destruct H as [-> _]. unfold failed_dim.
  assert (B : same_but_data st st /\ exists k, k <= length (tie_data st) /\
    Forall2 array_extended (firstn k (tie_data st)) (firstn k (tie_data st)) /\
    skipn k (tie_data st) = skipn k (tie_data st)).
  { split; [repeat split|]. exists 0. repeat split; [lia|constructor]. }
  destruct (nth_res (col_indices st) 0) as [c0|]; [|exact B]. destruct (nth_res (hcol_indices st) 0) as [h0|]; [|exact B].
  destruct (last_res (col_indices st)) as [c1|]; [|exact B]. destruct (last_res (hcol_indices st)) as [h1|]; [|exact B].
  clear B. split; [repeat split|]. cbn [tie_data].
  generalize (negb (neqb c0 h0)) (negb (neqb c1 h1)). intros b1 b2. induction (tie_data st) as [|d l IH].
  - exists 0. repeat split; constructor.
  - cbn [cols_until_error]. destruct (extrapolate_cols st d b1 b2) as [d'|] eqn:E.
    + destruct IH as (k & Hk & F & S). exists (Datatypes.S k). cbn [length firstn skipn]. split; [lia|]. split; [|exact S].
      constructor; [|exact F]. eapply extrapolate_cols_extended; eauto.
    + exists 0. cbn [firstn skipn]. repeat split; [lia|constructor].
Qed.

(** arrays of the same number (at least one) of columns, each with at least one row: nothing at all changes *)
Lemma get_col_same (d1 d2 : mat) w j :
  Forall (fun r => length r = w) d1 -> Forall (fun r => length r = w) d2 -> d1 <> [] -> d2 <> [] ->
  forall c, get_col d1 j = Ok c -> exists c', get_col d2 j = Ok c'.
Proof.
  intros F1 F2 N1 N2 c H. assert (B : forall r : list T, length r = w -> exists x, nth_res r j = Ok x).
  { destruct d1 as [|r d1]; [congruence|]. unfold get_col in H. cbn [mapM] in H. inversion F1; subst.
    destruct (nth_res r j) as [x|] eqn:E; [|discriminate]. intros r' Hr'. unfold nth_res in *.
    destruct (j <? 0)%Z; [discriminate|]. destruct (nth_error r' (Z.to_nat j)) eqn:E'; [eauto|].
    apply nth_error_None in E'. rewrite Hr' in E'. apply nth_error_None in E'. rewrite E' in E. discriminate. }
  clear -B F2. unfold get_col. induction F2 as [|r d Hr F IH]; [cbn; eauto|]. cbn [mapM].
  destruct (B r Hr) as [x ->]. cbn [bind]. destruct IH as [c' ->]. cbn [bind]. eauto.
Qed.
Lemma get_col_end_eq (d : mat) w j : Forall (fun r => length r = w) d -> get_col_end d j = get_col d (Z.of_nat w - j).
Proof.
  intros F. unfold get_col_end, get_col. induction F as [|r d Hr F IH]; [reflexivity|]. cbn [mapM]. now rewrite Hr, IH.
Qed.
Lemma lin_same pos (a b a' b' : list T) x r : linear_extrapolate pos [a; b] x = Ok r ->
  exists r', linear_extrapolate pos [a'; b'] x = Ok r'.
Proof. unfold linear_extrapolate. destruct pos as [|? [|? [|? ?]]]; try discriminate. eauto. Qed.

Lemma extrapolate_cols_same (st : istate T) w d1 d2 b1 b2 r :
  Forall (fun r => length r = w) d1 -> Forall (fun r => length r = w) d2 -> d1 <> [] -> d2 <> [] ->
  extrapolate_cols st d1 b1 b2 = Ok r -> exists r', extrapolate_cols st d2 b1 b2 = Ok r'.
Proof.
  intros F1 F2 N1 N2. unfold extrapolate_cols. rewrite !(get_col_end_eq d1 w), !(get_col_end_eq d2 w) by assumption.
  intros H.
  assert (A : exists f, (if b1 then
       let* c0 := get_col d2 0 in let* c1 := get_col d2 1 in
       let* h := nth_res (hcol_indices st) 0 in linear_extrapolate (first2 (col_indices st)) [c0; c1] h
     else Ok []) = Ok f).
  { destruct b1; [|eauto].
    destruct (get_col d1 0) as [c0|] eqn:E0; [|discriminate]. cbn [bind] in H.
    destruct (get_col d1 1) as [c1|] eqn:E1; [|discriminate]. cbn [bind] in H.
    destruct (nth_res (hcol_indices st) 0) as [h|]; [|discriminate]. cbn [bind] in H.
    destruct (linear_extrapolate _ _ _) eqn:EL in H; [|discriminate].
    destruct (get_col_same _ d2 _ _ F1 F2 N1 N2 _ E0) as [c0' ->].
    destruct (get_col_same _ d2 _ _ F1 F2 N1 N2 _ E1) as [c1' ->]. cbn [bind]. eapply lin_same; eauto. }
  destruct A as [f A].
  assert (A' : exists f, (if b2 then
       let* c0 := get_col d2 (Z.of_nat w - 2) in let* c1 := get_col d2 (Z.of_nat w - 1) in
       let* h := last_res (hcol_indices st) in linear_extrapolate (last2 (col_indices st)) [c0; c1] h
     else Ok []) = Ok f).
  { destruct b2; [|eauto]. match type of H with (bind ?x _) = _ => destruct x; [|discriminate] end. cbn [bind] in H.
    destruct (get_col d1 (Z.of_nat w - 2)) as [c0|] eqn:E0; [|discriminate]. cbn [bind] in H.
    destruct (get_col d1 (Z.of_nat w - 1)) as [c1|] eqn:E1; [|discriminate]. cbn [bind] in H.
    destruct (last_res (hcol_indices st)) as [h|]; [|discriminate]. cbn [bind] in H.
    destruct (linear_extrapolate _ _ _) eqn:EL in H; [|discriminate].
    destruct (get_col_same _ d2 _ _ F1 F2 N1 N2 _ E0) as [c0' ->].
    destruct (get_col_same _ d2 _ _ F1 F2 N1 N2 _ E1) as [c1' ->]. cbn [bind]. eapply lin_same; eauto. }
  destruct A' as [f' A']. cbv zeta. rewrite A. cbn [bind]. rewrite A'. cbn [bind]. eauto.
Qed.

Theorem C123_same_width_partial : forall (st st' : istate T) e w,
  Forall (fun d => d <> [] /\ Forall (fun r => length r = w) d) (tie_data st) ->
  fill_borders [DimX] st = (Err e, st') -> st' = st.
Proof.
  intros st st' e w W H. apply run_one in H; [|discriminate]. destruct H as [-> E]. unfold failed_dim.
  cbn [run_dim] in E. unfold fill_col_borders in E.
  destruct (nth_res (col_indices st) 0) as [c0|]; [|reflexivity]. destruct (nth_res (hcol_indices st) 0) as [h0|]; [|reflexivity].
  destruct (last_res (col_indices st)) as [c1|]; [|reflexivity]. destruct (last_res (hcol_indices st)) as [h1|]; [|reflexivity].
  cbn [bind] in E. cbv zeta in E. revert E. generalize (negb (neqb c0 h0)) (negb (neqb c1 h1)). intros b1 b2 E.
  enough (C : cols_until_error st b1 b2 (tie_data st) = tie_data st) by (rewrite C; now destruct st).
  destruct (tie_data st) as [|d l]; [reflexivity|]. cbn [cols_until_error].
  destruct (extrapolate_cols st d b1 b2) as [d'|] eqn:Ed; [|reflexivity]. exfalso.
  inversion W as [|? ? [Nd Fd] Wl]; subst.
  assert (A : exists l', mapM (fun d => extrapolate_cols st d b1 b2) l = Ok l').
  { clear E. induction Wl as [|x l [Nx Fx] Wl IH]; [cbn; eauto|]. cbn [mapM].
    destruct (extrapolate_cols_same _ _ _ x _ _ _ Fd Fx Nd Nx Ed) as [x' ->]. cbn [bind].
    destruct IH as [l' ->]; [inversion W; subst; constructor; [assumption|now inversion H2]|]. cbn [bind]. eauto. }
  destruct A as [l' A]. cbn [mapM] in E. rewrite Ed in E. cbn [bind] in E. rewrite A in E. cbn [bind] in E. discriminate.
Qed.
End Failure.

(** the full statement is false: the rows are filled, then the columns fail (one column of tie points only) ... *)
#[local] Existing Instance QT.
Definition c123_rows_then_columns : istate Q :=
  make [[[1]; [3]]]%Q ([0; 1]%Q, [1]%Q) ([0 # 1; 1 # 2; 1 # 1; 3 # 2]%Q, [0; 1; 2]%Q) 1 1 0.
(** ... or the second array has fewer columns than the first *)
Definition c123_widths : istate Q :=
  make [[[1; 2]; [3; 4]]; [[1]; [3]]]%Q ([0; 1]%Q, [1; 2]%Q) ([0; 1]%Q, [0; 1; 2]%Q) 1 1 0.
Theorem C123_refuted :
  (exists (st st' : istate Q) e, fill_borders [DimY; DimX] st = (Err e, st') /\ st' <> st) /\
  (exists (st st' : istate Q) e, fill_borders [DimX] st = (Err e, st') /\ st' <> st).
Proof.
  split.
  - exists c123_rows_then_columns. eexists. eexists. split; [vm_compute; reflexivity|].
    intros H. apply (f_equal (fun s => length (row_indices s))) in H. discriminate H.
  - exists c123_widths. eexists. eexists. split; [vm_compute; reflexivity|].
    intros H. apply (f_equal (fun s => map (map (@length Q)) (tie_data s))) in H. discriminate H.
Qed.

(** failures meeting the hypotheses: one tie row in the window of a scan, one tie column *)
Example C123_case_rows : fst (fill_borders [DimY] (make [[[1; 2]]]%Q ([0]%Q, [0; 1]%Q) ([0; 1]%Q, [0; 1]%Q) 1 1 0)) = Err IndexError.
Proof. vm_compute. reflexivity. Qed.
Example C123_case_columns : exists st' : istate Q, fill_borders [DimX] c123_widths = (Err IndexError, st') /\
  tie_data st' = [[[0; 1; 2]; [2; 3; 4]]; [[1]; [3]]]%Q /\ col_indices st' = [1; 2]%Q.
Proof. eexists. split; [vm_compute; reflexivity|]. split; vm_compute; reflexivity. Qed.
Example C123_case_width : fst (fill_borders [DimX] (make [[[1]; [3]]; [[2]; [2]]]%Q ([0; 1]%Q, [1]%Q) ([0; 1]%Q, [0; 1; 2]%Q) 1 1 0)) = Err IndexError.
Proof. vm_compute. reflexivity. Qed.

Print Assumptions C123_rows_partial.
Print Assumptions C123_columns_partial.
Print Assumptions C123_same_width_partial.
Print Assumptions C123_refuted.
