(** C84, C85: class Interpolator for any positions, chunk size and spline orders. *)
From Coq Require Import ZArith QArith List Lia Bool Reals Lra.
From Verif Require Import Spec Base Num Splits Interp Legacy PlProofs BorderProofs InterpProofs LegacyTie LegacyInst PropsLegacy.
Import ListNotations.
#[local] Existing Instance RT.
Open Scope R_scope.

Lemma mapM_F2 {A B} (f : A -> res B) l bs : mapM f l = Ok bs -> Forall2 (fun a b => f a = Ok b) l bs.
Proof.
  revert bs. induction l as [|a l IH]; intros bs E; cbn [mapM] in E.
  - injection E as <-. constructor.
  - apply bind_Ok in E. destruct E as (b & E1 & E). apply bind_Ok in E. destruct E as (bs' & E2 & E). injection E as <-. constructor; auto.
Qed.
Lemma nth_res_inv {A} (l : list A) i a d : nth_res l i = Ok a -> (0 <= i < Z.of_nat (length l))%Z /\ a = nth (Z.to_nat i) l d.
Proof.
  intros E. destruct (Z.lt_ge_cases i 0); [rewrite nth_res_Err in E by lia; discriminate|].
  destruct (Z.lt_ge_cases i (Z.of_nat (length l))); [|rewrite nth_res_Err in E by lia; discriminate].
  rewrite (nth_res_Ok _ _ d) in E by lia. injection E as <-. auto.
Qed.

(** ** one chunk *)
Definition in_window (lo hi r : R) : Prop := lo <= r < hi.
Lemma window_In rows lo hi i : In i (window rows lo hi) <-> (i < length rows)%nat /\ in_window lo hi (nth i rows 0).
Proof.
  unfold window, in_window. rewrite filter_In, in_seq. cbn [nleb nltb nz RT]. rewrite andb_true_iff.
  assert (L : forall a b, Rleb a b = true <-> a <= b) by (intros a b; unfold Rleb; destruct (Rle_dec a b); split; intros; auto; discriminate || lra).
  assert (L' : forall a b, Rltb a b = true <-> a < b) by (intros a b; unfold Rltb; destruct (Rlt_dec a b); split; intros; auto; discriminate || lra).
  rewrite L, L'. intuition lia.
Qed.

Lemma fill_chunk_inv st chunk factor index blocks ps : fill_chunk st chunk factor index = Ok (blocks, ps) ->
  let sel := window (row_indices st) (IZR index / factor) (IZR (index + chunk) / factor) in
  (0 <= index)%Z /\ (0 <= index + chunk - 1 < Z.of_nat (length (hrow_indices st)))%Z /\
  ps = nth (Z.to_nat index) (hrow_indices st) 0 :: map (fun i => nth i (row_indices st) 0) sel ++ [nth (Z.to_nat (index + chunk - 1)) (hrow_indices st) 0] /\
  Forall2 (fun d b => (sel = [] /\ b = []) \/ exists f l, b = f :: map (fun i => nth i d []) sel ++ [l]) (tie_data st) blocks.
Proof.
  intros E sel. unfold fill_chunk in E. apply bind_Ok in E. destruct E as (bl & E1 & E).
  apply bind_Ok in E. destruct E as (h0 & E2 & E). apply bind_Ok in E. destruct E as (h1 & E3 & E). injection E as <- <-.
  apply (nth_res_inv _ _ _ 0) in E2. apply (nth_res_inv _ _ _ 0) in E3. destruct E2 as [B0 ->]. destruct E3 as [B1 ->].
  split; [lia|]. split; [lia|]. split; [reflexivity|].
  apply mapM_F2 in E1. eapply Forall2_impl; [|exact E1]. cbv beta. intros d b Eb.
  cbn [ndiv nz RT] in Eb. fold sel in Eb. apply bind_Ok in Eb. destruct Eb as (t & Et & Eb).
  assert (T : t = map (fun i => nth i d []) sel).
  { clear -Et. apply mapM_F2 in Et. induction Et as [|i r l rs H Et IH]; [reflexivity|]. cbn [map]. rewrite <- IH. f_equal.
    apply (nth_res_inv _ _ _ []) in H. destruct H as [_ ->]. now rewrite Nat2Z.id. }
  destruct sel as [|i sel'] eqn:S; [left; injection Eb as <-; auto|right].
  apply bind_Ok in Eb. destruct Eb as (h0 & _ & Eb). apply bind_Ok in Eb. destruct Eb as (h1 & _ & Eb).
  unfold extrapolate_rows in Eb. rewrite T in Eb. cbn [map] in Eb. destruct sel' as [|i' sel']; [discriminate|].
  cbn [map] in Eb. repeat (apply bind_Ok in Eb; destruct Eb as (? & ? & Eb)). injection Eb as <-. eexists _, _. reflexivity.
Qed.

(** ** all chunks *)
Lemma nth_concat_at {A} (ls : list (list A)) c j d : (c < length ls)%nat -> (j < length (nth c ls []))%nat ->
  nth (length (concat (firstn c ls)) + j) (concat ls) d = nth j (nth c ls []) d.
Proof.
  intros Hc Hj. revert c Hc Hj; induction ls as [|l ls IH]; intros c Hc Hj; [cbn in Hc; lia|].
  destruct c as [|c]; cbn [firstn concat nth length] in *.
  - now rewrite app_nth1 by lia.
  - rewrite app_length, app_nth2 by lia. replace (_ - _)%nat with (length (concat (firstn c ls)) + j)%nat by lia. apply IH; lia.
Qed.
Lemma concat_at_length {A} (ls : list (list A)) c j : (c < length ls)%nat -> (j < length (nth c ls []))%nat ->
  (length (concat (firstn c ls)) + j < length (concat ls))%nat.
Proof.
  revert c; induction ls as [|l ls IH]; intros c Hc Hj; [cbn in Hc; lia|].
  destruct c as [|c]; cbn [firstn concat nth length] in *; rewrite ?app_length; [lia|]. specialize (IH c ltac:(lia) Hj). lia.
Qed.
Lemma align {A B} (bs : list (list A)) (ps : list (list B)) : Forall2 (fun b p => b = [] \/ length b = length p) bs ps ->
  (length (concat bs) <= length (concat ps))%nat /\
  (length (concat bs) = length (concat ps) -> Forall2 (fun b p => length b = length p) bs ps).
Proof.
  induction 1 as [|b p bs ps H F [IH1 IH2]]; cbn [concat]; [split; [cbn; lia|constructor]|]. rewrite !app_length.
  assert (H' : (length b <= length p)%nat) by (destruct H as [-> | ->]; cbn; lia). split; [lia|]. intros E. constructor; [lia|]. apply IH2. lia.
Qed.
Lemma concat_firstn_length {A B} (bs : list (list A)) (ps : list (list B)) c : Forall2 (fun b p => length b = length p) bs ps ->
  length (concat (firstn c bs)) = length (concat (firstn c ps)).
Proof. intros F. revert c. induction F; intros [|c]; cbn [firstn concat]; try reflexivity. rewrite !app_length. rewrite (IHF c). lia. Qed.
Lemma F2_nth {A B} (P : A -> B -> Prop) l1 l2 i a b : Forall2 P l1 l2 -> (i < length l1)%nat -> P (nth i l1 a) (nth i l2 b).
Proof. intros F. revert i. induction F as [|x y l1 l2 H F IH]; intros i Hi; [cbn in Hi; lia|]. destruct i; cbn [nth length] in *; [exact H|apply IH; lia]. Qed.
Lemma F2_length {A B} (P : A -> B -> Prop) l1 l2 : Forall2 P l1 l2 -> length l1 = length l2.
Proof. induction 1; cbn; auto. Qed.

(** what fill_borders("y") leaves: the chunks *)
Lemma fill_row_borders_inv st st' : (0 <= chunk_size st)%Z -> hrow_indices st <> [] -> fill_row_borders st = Ok st' ->
  exists (C : Z) (chunks : list (list (mat R) * list R)), let n := length (row_indices st) in let L := length (hrow_indices st) in
  (1 <= n)%nat /\ (1 <= C)%Z /\ Z.of_nat L = (C * Z.of_nat (length chunks))%Z /\
  (forall c, (c < length chunks)%nat ->
     fill_chunk st C (IZR (Z.of_nat L) / IZR (Z.of_nat n)) (C * Z.of_nat c) = Ok (nth c chunks ([], []))) /\
  row_indices st' = concat (map snd chunks) /\
  length (tie_data st') = length (tie_data st) /\
  (forall num, (num < length (tie_data st))%nat -> nth num (tie_data st') [] = concat (map (fun cb => nth num (fst cb) []) chunks)) /\
  col_indices st' = col_indices st /\ hrow_indices st' = hrow_indices st /\ hcol_indices st' = hcol_indices st /\
  kx_ st' = kx_ st /\ ky_ st' = ky_ st /\ new_data st' = new_data st /\ chunk_size st' = chunk_size st.
Proof.
  intros Hc Hh E. unfold fill_row_borders in E. set (C := if _ =? 0 then _ else _) in E. exists C.
  assert (HL : (1 <= length (hrow_indices st))%nat) by (destruct (hrow_indices st); [contradiction|cbn; lia]).
  assert (HC : (1 <= C)%Z). { unfold C. destruct (Z.eqb_spec (chunk_size st) 0); lia. }
  clearbody C. apply bind_Ok in E. destruct E as (factor & Ef & E). apply bind_Ok in E. destruct E as (idx & Ei & E).
  apply bind_Ok in E. destruct E as (chunks & Ec & E). apply bind_Ok in E. destruct E as (td & Et & E). injection E as <-.
  exists chunks. cbn [row_indices tie_data col_indices hrow_indices hcol_indices kx_ ky_ new_data chunk_size]. cbv zeta.
  assert (Hn : (1 <= length (row_indices st))%nat /\ factor = IZR (Z.of_nat (length (hrow_indices st))) / IZR (Z.of_nat (length (row_indices st)))).
  { destruct (row_indices st); [discriminate|]. injection Ef as <-. cbn [length]. split; [lia|reflexivity]. }
  destruct Hn as [Hn ->].
  unfold py_range in Ei. destruct (Z.eqb_spec C 0); [lia|]. injection Ei as Ei.
  set (L := Z.of_nat (length (hrow_indices st))) in *. set (k := ((L - 0 + C - 1) / C)%Z) in *.
  assert (Hk : (1 <= k)%Z). { unfold k. apply Z.div_le_lower_bound; lia. }
  assert (Hk2 : (L <= C * k)%Z). { unfold k. pose proof (Z.div_mod (L - 0 + C - 1) C ltac:(lia)). pose proof (Z.mod_pos_bound (L - 0 + C - 1) C ltac:(lia)). lia. }
  assert (Li : length idx = Z.to_nat k).
  { rewrite <- Ei, map_length. unfold range0. now rewrite zrange_length. }
  pose proof (mapM_F2 _ _ _ Ec) as F. pose proof (F2_length _ _ _ F) as Lc. rewrite Li in Lc.
  assert (G : forall c, (c < length chunks)%nat -> fill_chunk st C (IZR L / IZR (Z.of_nat (length (row_indices st)))) (C * Z.of_nat c) = Ok (nth c chunks ([], []))).
  { intros c Hc'. assert (I : nth c idx 0%Z = (C * Z.of_nat c)%Z).
    { rewrite <- Ei. replace k with (Z.of_nat (Z.to_nat k)) by lia. rewrite range0_map_of_nat, map_map.
      rewrite (nth_map' _ _ _ 0%nat) by (rewrite seq_length; lia). rewrite seq_nth by lia. lia. }
    rewrite <- I. apply (F2_nth _ _ _ c 0%Z ([], []) F). lia. }
  split; [exact Hn|]. split; [exact HC|]. split.
  { destruct (nth (length chunks - 1) chunks ([], [])) as [b p] eqn:El.
    pose proof (G (length chunks - 1)%nat ltac:(lia)) as H. rewrite El in H. apply fill_chunk_inv in H. cbv zeta in H.
    destruct H as (_ & H & _). fold L in H. nia. }
  split; [exact G|]. split; [reflexivity|].
  assert (Ft := mapM_F2 _ _ _ Et). pose proof (F2_length _ _ _ Ft) as Lt. rewrite seq_length in Lt.
  split; [lia|]. split; [|repeat (split; [reflexivity|]); reflexivity].
  intros num Hnum. pose proof (F2_nth _ _ _ num 0%nat [] Ft) as H. rewrite seq_length in H. specialize (H Hnum). cbv beta in H.
  rewrite seq_nth in H by exact Hnum. cbn [Nat.add] in H. unfold vstack_blocks in H.
  destruct (concat _) eqn:Ecat; [discriminate|]. injection H as <-. reflexivity.
Qed.

(** a block of data is as long as its positions, or empty *)
Lemma blocks_align st C factor chunks num :
  (forall c, (c < length chunks)%nat -> fill_chunk st C factor (C * Z.of_nat c) = Ok (nth c chunks ([], []))) -> (num < length (tie_data st))%nat ->
  Forall2 (fun (b : mat R) (p : list R) => b = [] \/ length b = length p) (map (fun cb : list (mat R) * list R => nth num (fst cb) []) chunks) (map snd chunks).
Proof.
  intros G Hnum.
  assert (Ga : forall c', (c' < length chunks)%nat -> let cb := nth c' chunks ([], []) in nth num (fst cb) [] = [] \/ length (nth num (fst cb) []) = length (snd cb)).
  { intros c' Hc'. cbv zeta. specialize (G c' Hc'). destruct (nth c' chunks ([], [])) as [bl' ps']. apply fill_chunk_inv in G. cbv zeta in G. cbn [fst snd].
    destruct G as (_ & _ & -> & F'). pose proof (F2_nth _ _ _ num [] [] F' Hnum) as Hb. cbv beta in Hb. destruct Hb as [[_ ->]|(f & l & ->)]; [now left|right].
    cbn [length]. rewrite !app_length, !map_length. reflexivity. }
  clear -Ga. induction chunks as [|cb chunks IH]; cbn [map]; constructor.
  - apply (Ga 0%nat). cbn. lia.
  - apply IH. intros c' Hc'. apply (Ga (S c')). cbn. lia.
Qed.

(** C84: every tie row at a position r with 0 <= r < number of tie rows is kept, with its data (provided that positions and
    data still have the same length; otherwise interpolate() raises) *)
Theorem C84_kept_partial : forall (st st' : istate R), (0 <= chunk_size st)%Z -> hrow_indices st <> [] ->
  fill_borders [DimY] st = (Ok tt, st') ->
  Forall (fun d' => length d' = length (row_indices st')) (tie_data st') ->
  forall i, let n := length (row_indices st) in let r := nth i (row_indices st) 0 in
  (i < n)%nat -> 0 <= r < IZR (Z.of_nat n) ->
  exists q, (q < length (row_indices st'))%nat /\ nth q (row_indices st') 0 = r /\
    Forall2 (fun d d' => nth q d' [] = nth i d []) (tie_data st) (tie_data st').
Proof.
  intros st st' Hc Hh E Hlen i n r Hi Hr. cbn [fill_borders resolve bind run_dims run_dim] in E.
  unfold fill_borders in E. cbn [resolve bind run_dims run_dim] in E.
  destruct (fill_row_borders st) as [st1|e] eqn:E1; [|discriminate]. injection E as ->.
  destruct (fill_row_borders_inv st st' Hc Hh E1) as (C & chunks & Hn & HC & HL & G & Er & El & Et & _). cbv zeta in *. fold n in Hn, G.
  assert (Hk : (1 <= length chunks)%nat). { destruct (hrow_indices st); [contradiction|]. cbn [length] in HL. lia. }
  assert (Pn : 0 < IZR (Z.of_nat n)) by (apply IZR_lt; lia). assert (PC : 0 < IZR C) by (apply IZR_lt; lia).
  assert (PL : 0 < IZR (Z.of_nat (length (hrow_indices st)))) by (apply IZR_lt; nia).
  set (t := r * (IZR (Z.of_nat (length (hrow_indices st))) / IZR (Z.of_nat n)) / IZR C).
  assert (Ht : 0 <= t < IZR (Z.of_nat (length chunks))).
  { assert (Et' : t = r / IZR (Z.of_nat n) * IZR (Z.of_nat (length chunks))).
    { unfold t. rewrite HL, mult_IZR. field. split; lra. }
    rewrite Et'. assert (0 <= r / IZR (Z.of_nat n) < 1).
    { split; [apply Rmult_le_pos; [lra|apply Rlt_le, Rinv_0_lt_compat; lra]|]. apply (Rmult_lt_reg_r (IZR (Z.of_nat n))); [lra|]. unfold Rdiv. rewrite Rmult_assoc, Rinv_l by lra. lra. }
    assert (1 <= IZR (Z.of_nat (length chunks))) by (apply IZR_le; lia). nra. }
  assert (HF : exists c, (c < length chunks)%nat /\ IZR (Z.of_nat c) <= t < IZR (Z.of_nat c) + 1).
  { exists (Z.to_nat (Rfloor t)). assert (F : IZR (Rfloor t) <= t < IZR (Rfloor t) + 1).
    { unfold Rfloor. destruct (archimed t). rewrite minus_IZR. lra. }
    assert (F0 : (-1 < Rfloor t)%Z) by (apply lt_IZR; lra). assert (F1 : (Rfloor t < Z.of_nat (length chunks))%Z) by (apply lt_IZR; lra).
    split; [lia|]. rewrite Z2Nat.id by lia. exact F. }
  destruct HF as (c & Hcl & Hct). specialize (G c Hcl) as Gc. destruct (nth c chunks ([], [])) as [bl ps] eqn:Ech.
  apply fill_chunk_inv in Gc. cbv zeta in Gc. destruct Gc as (_ & _ & Eps & Fbl).
  set (factor := IZR (Z.of_nat (length (hrow_indices st))) / IZR (Z.of_nat n)) in *.
  assert (Pf : 0 < factor). { unfold factor. apply Rmult_lt_0_compat; [lra|apply Rinv_0_lt_compat; lra]. }
  set (sel := window (row_indices st) (IZR (C * Z.of_nat c) / factor) (IZR (C * Z.of_nat c + C) / factor)) in *.
  assert (Hs : In i sel).
  { apply window_In. split; [exact Hi|]. fold r. unfold in_window. rewrite plus_IZR, mult_IZR.
    assert (Er' : r = t * IZR C / factor) by (unfold t; field; lra). rewrite Er'.
    split; unfold Rdiv; [apply Rmult_le_compat_r; [apply Rlt_le, Rinv_0_lt_compat; lra|nra]|apply Rmult_lt_compat_r; [apply Rinv_0_lt_compat; lra|nra]]. }
  apply (In_nth _ _ 0%nat) in Hs. destruct Hs as (j & Hj & Ej).
  set (q := (length (concat (firstn c (map snd chunks))) + S j)%nat). exists q.
  assert (Lsel : length ps = S (S (length sel))) by (rewrite Eps; cbn [length]; rewrite app_length, map_length; cbn; lia).
  assert (Eps' : nth c (map snd chunks) [] = ps). { rewrite (nth_map' _ _ _ ([], [])) by exact Hcl. now rewrite Ech. }
  assert (Q1 : (q < length (row_indices st'))%nat).
  { rewrite Er. apply concat_at_length; [now rewrite map_length|]. rewrite Eps'. lia. }
  assert (Q2 : nth q (row_indices st') 0 = r).
  { rewrite Er. unfold q. rewrite nth_concat_at by (rewrite ?map_length, ?Eps'; lia). rewrite Eps', Eps. cbn [nth].
    rewrite app_nth1 by (rewrite map_length; lia). rewrite (nth_map' _ _ _ 0%nat) by lia. now rewrite Ej. }
  split; [exact Q1|]. split; [exact Q2|].
  assert (All : forall num, (num < length (tie_data st))%nat -> nth q (nth num (tie_data st') []) [] = nth i (nth num (tie_data st) []) []).
  { intros num Hnum. rewrite Et by exact Hnum.
    set (bs := map (fun cb : list (mat R) * list R => nth num (fst cb) []) chunks).
    pose proof (blocks_align st C _ chunks num G Hnum) as A. fold bs in A.
    destruct (align _ _ A) as [_ A2]. assert (A3 : length (concat bs) = length (concat (map snd chunks))).
    { rewrite <- Er. unfold bs. rewrite <- Et by exact Hnum. rewrite Forall_forall in Hlen. apply Hlen, nth_In. rewrite El. exact Hnum. }
    specialize (A2 A3). unfold q. rewrite <- (concat_firstn_length _ _ c A2).
    assert (Ebs : nth c bs [] = nth num bl []). { unfold bs. rewrite (nth_map' _ _ _ ([], [])) by exact Hcl. now rewrite Ech. }
    pose proof (F2_nth _ _ _ c [] [] A2 ltac:(unfold bs; now rewrite map_length)) as Lb. cbv beta in Lb. rewrite Ebs, Eps' in Lb.
    rewrite nth_concat_at; [|unfold bs; now rewrite map_length|rewrite Ebs, Lb; lia]. rewrite Ebs.
    pose proof (F2_nth _ _ _ num [] [] Fbl Hnum) as Hb. cbv beta in Hb. destruct Hb as [[_ Hb]|(f & l & ->)]; [rewrite Hb in Lb; cbn in Lb; lia|].
    cbn [nth]. rewrite app_nth1 by (rewrite map_length; lia). rewrite (nth_map' _ _ _ 0%nat) by lia. now rewrite Ej. }
  clear -All El. revert All El. generalize (tie_data st') as l'. generalize (tie_data st) as l.
  induction l as [|d l IH]; intros [|d' l'] All El; try discriminate; constructor.
  - apply (All 0%nat). cbn. lia.
  - apply IH; [|cbn in El; lia]. intros num Hnum. apply (All (S num)). cbn. lia.
Qed.
Print Assumptions C84_kept_partial.

(** ... and no other: a position after the call is a target row or such a tie row *)
Theorem C84_only : forall (st st' : istate R), (0 <= chunk_size st)%Z -> hrow_indices st <> [] ->
  fill_borders [DimY] st = (Ok tt, st') ->
  Forall (fun r => In r (hrow_indices st) \/ In r (row_indices st) /\ 0 <= r < IZR (Z.of_nat (length (row_indices st)))) (row_indices st').
Proof.
  intros st st' Hc Hh E. unfold fill_borders in E. cbn [resolve bind run_dims run_dim] in E.
  destruct (fill_row_borders st) as [st1|e] eqn:E1; [|discriminate]. injection E as ->.
  destruct (fill_row_borders_inv st st' Hc Hh E1) as (C & chunks & Hn & HC & HL & G & Er & _). cbv zeta in *.
  set (n := length (row_indices st)) in *. rewrite Er. apply Forall_concat, Forall_map, Forall_forall. intros cb Hcb.
  apply (In_nth _ _ ([], [])) in Hcb. destruct Hcb as (c & Hcl & Ecb). specialize (G c Hcl). rewrite Ecb in G. destruct cb as [bl ps].
  apply fill_chunk_inv in G. cbv zeta in G. destruct G as (G1 & G2 & -> & _). cbn [snd].
  assert (Pn : 0 < IZR (Z.of_nat n)) by (apply IZR_lt; lia). assert (PC : 0 < IZR C) by (apply IZR_lt; lia).
  assert (PL : 0 < IZR (Z.of_nat (length (hrow_indices st)))) by (apply IZR_lt; lia).
  constructor; [left; apply nth_In; lia|]. apply Forall_app. split.
  - apply Forall_map, Forall_forall. intros i Hi. apply window_In in Hi. destruct Hi as [Hi [Hw1 Hw2]]. right. split; [now apply nth_In|].
    assert (Pk : (Z.of_nat c + 1 <= Z.of_nat (length chunks))%Z) by lia. apply IZR_le in Pk. rewrite plus_IZR in Pk. pose proof (IZR_le 0 (Z.of_nat c) ltac:(lia)) as P0'.
    rewrite HL, ?plus_IZR, ?mult_IZR in *.
    assert (K : 0 < IZR (Z.of_nat (length chunks))) by lra.
    replace (IZR C * IZR (Z.of_nat c) / (IZR C * IZR (Z.of_nat (length chunks)) / IZR (Z.of_nat n)))
      with (IZR (Z.of_nat c) * IZR (Z.of_nat n) / IZR (Z.of_nat (length chunks))) in Hw1 by (field; lra).
    replace ((IZR C * IZR (Z.of_nat c) + IZR C) / (IZR C * IZR (Z.of_nat (length chunks)) / IZR (Z.of_nat n)))
      with ((IZR (Z.of_nat c) + 1) / IZR (Z.of_nat (length chunks)) * IZR (Z.of_nat n)) in Hw2 by (field; lra).
    split.
    + eapply Rle_trans; [|exact Hw1]. apply Rmult_le_pos; [apply Rmult_le_pos; lra|apply Rlt_le, Rinv_0_lt_compat; lra].
    + eapply Rlt_le_trans; [exact Hw2|]. rewrite <- (Rmult_1_l (IZR (Z.of_nat n))) at 2. apply Rmult_le_compat_r; [lra|].
      apply (Rmult_le_reg_r (IZR (Z.of_nat (length chunks)))); [lra|]. unfold Rdiv. rewrite Rmult_assoc, Rinv_l by lra. lra.
  - constructor; [left; apply nth_In; lia|constructor].
Qed.
Print Assumptions C84_only.

(** C84 is false: the tie row at position 10, with value 100, is silently replaced by the extrapolation 3 of the rows before
    (exact rational arithmetic) *)
Theorem C84_refuted : exists st st' : istate Q,
  row_indices st = [0; 1; 2; 10]%Q /\ tie_data st = [[[0]; [1]; [2]; [100]]]%Q /\ hrow_indices st = [-1; 0; 1; 2; 3; 4; 5; 6; 7; 8; 9; 10]%Q /\
  chunk_size st = 0%Z /\ @fill_borders _ QT [DimY] st = (Ok tt, st') /\
  row_indices st' = [-1; 0; 1; 2; 10]%Q /\ tie_data st' = [[[-1]; [0]; [1]; [2]; [10]]]%Q.
Proof.
  exists (@make Q [[[0]; [1]; [2]; [100]]]%Q ([0; 1; 2; 10]%Q, [0]%Q) ([-1; 0; 1; 2; 3; 4; 5; 6; 7; 8; 9; 10]%Q, [0]%Q) 1 1 0).
  eexists. repeat (split; [vm_compute; reflexivity|]). split; vm_compute; reflexivity.
Qed.
Print Assumptions C84_refuted.

(** ** tie points *)
Section Tie.
Variables spl1 spl2 : list R -> list R -> Z -> R -> R.
Hypothesis (H1 : interpolates spl1) (H2 : interpolates spl2).

Lemma axis_knot ks vs k i : strict_inc ks = true -> length vs = length ks -> (1 <= k <= 5)%Z -> (k < Z.of_nat (length ks))%Z ->
  (i < length ks)%nat -> axis_spline spl2 ks vs k (nth i ks 0) = nth i vs 0.
Proof.
  intros S L K1 K2 Hi. unfold axis_spline. destruct (Z.eqb_spec k 1) as [-> |].
  - apply pl_eval_knot; auto. lia.
  - apply H2; auto. now apply strict_inc_increasing.
Qed.

Lemma array_equal_eq (l1 l2 : list R) : array_equal l1 l2 = true -> l1 = l2.
Proof.
  revert l2; induction l1 as [|a l1 IH]; intros [|b l2] E; try discriminate; [reflexivity|]. cbn [array_equal neqb RT] in E.
  apply andb_true_iff in E. destruct E as [E1 E2]. unfold Reqb in E1. destruct (Req_EM_T a b) as [-> |]; [|discriminate]. now rewrite (IH l2).
Qed.

Lemma increasing_inj l i j : increasing l -> (i < length l)%nat -> (j < length l)%nat -> nth i l 0 = nth j l 0 -> i = j.
Proof.
  intros H Hi Hj E. destruct (Nat.lt_trichotomy i j) as [L|[L|L]]; [|exact L|].
  - pose proof (H i j ltac:(lia)). lra.
  - pose proof (H j i ltac:(lia)). lra.
Qed.

Lemma interp_one_tie st d r i j a b : 
  (array_equal (hrow_indices st) (row_indices st) = true -> increasing (hrow_indices st) /\ (weak_inc (col_indices st) = true -> increasing (col_indices st))) ->
  interp_one spl1 spl2 st d = Ok r ->
  (i < length (row_indices st))%nat -> (j < length (col_indices st))%nat ->
  (a < length (hrow_indices st))%nat -> (b < length (hcol_indices st))%nat ->
  nth a (hrow_indices st) 0 = nth i (row_indices st) 0 -> nth b (hcol_indices st) 0 = nth j (col_indices st) 0 ->
  at2 0 r a b = at2 0 d i j /\ length (nth i d []) = length (col_indices st).
Proof.
  intros Hi1 E Hi Hj Ha Hb Ea Eb. unfold interp_one in E.
  destruct (array_equal (hrow_indices st) (row_indices st)) eqn:AE.
  - destruct (Hi1 eq_refl) as [I1 I2]. apply array_equal_eq in AE. rewrite <- AE in Hi, Ea.
    assert (a = i) as -> by (apply (increasing_inj (hrow_indices st)); auto).
    unfold interp1d_one in E. rewrite range0_map_of_nat, mapM_map in E. apply mapM_F2 in E.
    pose proof (F2_nth _ _ _ i 0%nat [] E) as Er. rewrite seq_length in Er. specialize (Er Ha). cbv beta in Er. rewrite seq_nth in Er by exact Ha. cbn [Nat.add] in Er.
    apply bind_Ok in Er. destruct Er as (dr & Ed & Er). apply (nth_res_inv _ _ _ []) in Ed. destruct Ed as [_ ->]. rewrite Nat2Z.id in Er.
    destruct (Nat.eqb_spec (length (col_indices st)) (length (nth i d []))) as [L|]; [|discriminate]. cbn [negb] in Er.
    destruct ((1 <=? ky_ st) && (ky_ st <=? 5) && (ky_ st <? Z.of_nat (length (col_indices st))))%Z eqn:K; [|discriminate]. cbn [negb] in Er.
    destruct (weak_inc (col_indices st)) eqn:W; [|discriminate]. cbn [negb] in Er. injection Er as Er.
    apply andb_true_iff in K. destruct K as [K K3]. apply andb_true_iff in K. destruct K as [K1 K2].
    apply Z.leb_le in K1, K2. apply Z.ltb_lt in K3.
    unfold at2. rewrite <- Er. rewrite (nth_map' _ _ _ 0) by exact Hb. rewrite Eb. split; [apply H1; auto|lia].
  - unfold interp2d_one, rect_bivariate in E.
    destruct (strict_inc (row_indices st)) eqn:S1; [|discriminate]. cbn [negb] in E.
    destruct (strict_inc (col_indices st)) eqn:S2; [|discriminate]. cbn [negb] in E.
    destruct (Nat.eqb_spec (length (row_indices st)) (length d)) as [L1|]; [|discriminate]. cbn [negb] in E.
    destruct (forallb (fun r => Nat.eqb (length (col_indices st)) (length r)) d) eqn:L2; [|discriminate]. cbn [negb] in E.
    destruct ((1 <=? kx_ st) && (kx_ st <=? 5) && (1 <=? ky_ st) && (ky_ st <=? 5))%Z eqn:K; [|discriminate]. cbn [negb] in E.
    destruct ((kx_ st <? Z.of_nat (length (row_indices st))) && (ky_ st <? Z.of_nat (length (col_indices st))))%Z eqn:K'; [|discriminate]. cbn [negb] in E.
    destruct (weak_inc (hrow_indices st) && weak_inc (hcol_indices st)); [|discriminate]. cbn [negb] in E. injection E as <-.
    repeat rewrite andb_true_iff in K. rewrite andb_true_iff in K'. destruct K as [[[K1 K2] K3] K4]. destruct K' as [K5 K6].
    apply Z.leb_le in K1, K2, K3, K4. apply Z.ltb_lt in K5, K6.
    unfold at2. rewrite (nth_map' _ _ _ 0) by exact Ha. rewrite (nth_map' _ _ _ 0) by exact Hb. rewrite Ea, Eb.
    assert (Lr : length (nth i d []) = length (col_indices st)) by (rewrite forallb_forall in L2; symmetry; apply Nat.eqb_eq, L2, nth_In; lia).
    split; [|exact Lr]. rewrite axis_knot by (auto; rewrite map_length; lia). rewrite (nth_map' _ _ _ []) by lia.
    apply axis_knot; auto.
Qed.

(** C85: data at the tie points is reproduced, for all orders kx, ky from 1 to 5 *)
Theorem C85_tie_points : forall (st : istate R) out, well_formed st -> increasing (row_indices st) -> increasing (col_indices st) ->
  fst (interpolate spl1 spl2 st) = Ok out ->
  length out = length (tie_data st) /\
  forall num i j a b, (num < length (tie_data st))%nat ->
  (i < length (row_indices st))%nat -> (j < length (col_indices st))%nat ->
  (a < length (hrow_indices st))%nat -> (b < length (hcol_indices st))%nat ->
  nth a (hrow_indices st) 0 = nth i (row_indices st) 0 -> nth b (hcol_indices st) 0 = nth j (col_indices st) 0 ->
  at2 0 (nth num out []) a b = at2 0 (nth num (tie_data st) []) i j.
Proof.
  intros st out W I1 I2 E. rewrite (proj1 (interpolate_spec spl1 spl2 st W)) in E. pose proof (mapM_F2 _ _ _ E) as F.
  pose proof (F2_length _ _ _ F) as L. split; [lia|]. intros num i j a b Hnum Hi Hj Ha Hb Ea Eb.
  eapply proj1, (interp_one_tie st (nth num (tie_data st) []) (nth num out []) i j a b); auto.
  - intros AE. split; [|auto]. apply array_equal_eq in AE. now rewrite AE.
  - apply (F2_nth _ _ _ num [] [] F Hnum).
Qed.

(** the columns after fill_borders("x") *)
Lemma extrapolate_cols_inv st data first last data' : extrapolate_cols st data first last = Ok data' ->
  Forall2 (fun r r' => exists rp rq, r' = rp ++ r ++ rq /\ length rp = (if first then 1 else 0)%nat /\ length rq = (if last then 1 else 0)%nat) data data'.
Proof.
  intros E. unfold extrapolate_cols in E. apply bind_Ok in E. destruct E as (fc & E1 & E). apply bind_Ok in E. destruct E as (lc & E2 & E). injection E as <-.
  assert (LE : forall p c0 c1 h col, linear_extrapolate p [c0; c1] h = Ok col -> length c0 = length data -> length c1 = length data -> length col = length data).
  { intros p c0 c1 h col El L0 L1. unfold linear_extrapolate in El. destruct p as [|p0 [|p1 [|p2 p]]]; try discriminate. injection El as <-.
    rewrite map2_length. lia. }
  assert (L1 : first = true -> length fc = length data).
  { intros ->. repeat (apply bind_Ok in E1; destruct E1 as (? & ? & E1)). apply LE in E1; auto; unfold get_col in *; eapply mapM_length; eauto. }
  assert (L2 : last = true -> length lc = length data).
  { intros ->. repeat (apply bind_Ok in E2; destruct E2 as (? & ? & E2)). apply LE in E2; auto; unfold get_col_end in *; eapply mapM_length; eauto. }
  clear E1 E2 LE. set (d1 := if first then map2 (fun f r => f :: r) fc data else data).
  assert (F1 : Forall2 (fun r r' => exists rp, r' = rp ++ r /\ length rp = (if first then 1 else 0)%nat) data d1).
  { unfold d1. destruct first.
    - specialize (L1 eq_refl). clear -L1. revert fc L1. induction data as [|r data IH]; intros [|f fc] L; try discriminate; cbn [map2]; constructor.
      + exists [f]. auto.
      + apply IH. cbn in L. lia.
    - clear. induction data; constructor; auto. exists []. auto. }
  clearbody d1. destruct last.
  - specialize (L2 eq_refl). clear -L2 F1. revert lc L2. induction F1 as [|r r1 data d1 (rp & -> & Hrp) F1 IH]; intros [|l lc] L; try discriminate; cbn [map2]; constructor.
    + exists rp, [l]. rewrite <- app_assoc. auto.
    + apply IH. cbn in L. lia.
  - eapply Forall2_impl; [|exact F1]. cbv beta. intros r r' (rp & -> & Hrp). exists rp, []. rewrite app_nil_r. auto.
Qed.

Lemma weak_inc_snoc l h : l <> [] -> weak_inc (l ++ [h]) = true -> weak_inc l = true /\ last l 0 <= h.
Proof.
  induction l as [|a l IH]; intros Hl E; [contradiction|]. destruct l as [|b l].
  - cbn in E. unfold Rleb in E. destruct (Rle_dec a h); [|discriminate]. cbn. auto.
  - cbn [app weak_inc nleb RT] in E. apply andb_true_iff in E. destruct E as [E1 E2]. destruct (IH ltac:(discriminate) E2) as [W L].
    split; [|exact L]. cbn [weak_inc nleb RT]. rewrite E1. exact W.
Qed.
Lemma increasing_cons h l : l <> [] -> increasing l -> h < hd 0 l -> increasing (h :: l).
Proof.
  intros Hl I Hh i j Hij. destruct j as [|j]; [lia|]. cbn [length] in Hij. destruct i as [|i]; cbn [nth].
  - destruct l as [|a l]; [contradiction|]. cbn [hd] in Hh. destruct j as [|j]; [exact Hh|]. pose proof (I 0%nat (S j) ltac:(lia)) as K. cbn [nth] in *. lra.
  - apply I. lia.
Qed.
Lemma increasing_snoc l h : l <> [] -> increasing l -> last l 0 < h -> increasing (l ++ [h]).
Proof.
  intros Hl I Hh i j Hij. rewrite app_length in Hij. cbn [length] in Hij.
  assert (Hi : nth i (l ++ [h]) 0 = nth i l 0) by (apply app_nth1; lia). rewrite Hi.
  destruct (Nat.eq_dec j (length l)) as [-> |Hj].
  - rewrite app_nth2 by lia. rewrite Nat.sub_diag. cbn [nth]. rewrite last_nth in Hh.
    destruct (Nat.eq_dec i (length l - 1)) as [-> |]; [exact Hh|]. pose proof (I i (length l - 1)%nat ltac:(lia)). lra.
  - rewrite app_nth1 by lia. apply I. lia.
Qed.

Lemma fill_col_borders_inv st st' : increasing (col_indices st) -> col_indices st <> [] -> fill_col_borders st = Ok st' ->
  exists pre post, col_indices st' = pre ++ col_indices st ++ post /\
  (weak_inc (col_indices st') = true -> increasing (col_indices st')) /\
  Forall2 (Forall2 (fun r r' => exists rp rq, r' = rp ++ r ++ rq /\ length rp = length pre /\ length rq = length post)) (tie_data st) (tie_data st') /\
  row_indices st' = row_indices st /\ hrow_indices st' = hrow_indices st /\ hcol_indices st' = hcol_indices st /\ new_data st' = new_data st.
Proof.
  intros I Hne E. unfold fill_col_borders in E.
  apply bind_Ok in E. destruct E as (c0 & Ec0 & E). apply bind_Ok in E. destruct E as (h0 & Eh0 & E).
  apply bind_Ok in E. destruct E as (c1 & Ec1 & E). apply bind_Ok in E. destruct E as (h1 & Eh1 & E).
  apply bind_Ok in E. destruct E as (td & Et & E). injection E as <-. cbn [row_indices tie_data col_indices hrow_indices hcol_indices new_data].
  cbn [neqb RT] in *. set (first := negb (Reqb c0 h0)) in *. set (last_ := negb (Reqb c1 h1)) in *.
  exists (if first then [h0] else []), (if last_ then [h1] else []).
  assert (X0 : c0 = hd 0 (col_indices st)). { apply (nth_res_inv _ _ _ 0) in Ec0. destruct Ec0 as [_ ->]. now rewrite hd_nth. }
  assert (X1 : c1 = last (col_indices st) 0). { rewrite last_res_eq in Ec1 by exact Hne. now injection Ec1. }
  split; [|split; [|split; [|auto]]].
  - destruct first, last_; cbn [app]; rewrite ?app_nil_r; reflexivity.
  - assert (N0 : first = true -> c0 <> h0). { unfold first. cbn [neqb RT]. unfold Reqb. destruct (Req_EM_T c0 h0); [discriminate|auto]. }
    assert (N1 : last_ = true -> c1 <> h1). { unfold last_. cbn [neqb RT]. unfold Reqb. destruct (Req_EM_T c1 h1); [discriminate|auto]. }
    set (cf := if first then h0 :: col_indices st else col_indices st).
    assert (Hcf : cf <> []) by (unfold cf; destruct first; [discriminate|exact Hne]).
    assert (Lcf : last cf 0 = c1). { rewrite X1. unfold cf. destruct first; [|reflexivity]. destruct (col_indices st); [contradiction|reflexivity]. }
    assert (If : weak_inc cf = true -> increasing cf).
    { unfold cf. destruct first; [|auto]. intros W. apply increasing_cons; auto. destruct (col_indices st) as [|c l] eqn:Ec; [contradiction|].
      cbn [weak_inc nleb RT] in W. apply andb_true_iff in W. destruct W as [W _]. unfold Rleb in W. destruct (Rle_dec h0 c); [|discriminate].
      cbn [hd] in *. specialize (N0 eq_refl). lra. }
    clearbody cf. destruct last_; [|exact If]. intros W. apply weak_inc_snoc in W; [|exact Hcf]. destruct W as [W1 W2].
    apply increasing_snoc; auto. specialize (N1 eq_refl). rewrite Lcf in *. lra.
  - apply mapM_F2 in Et. eapply Forall2_impl; [|exact Et]. cbv beta. intros d d' Ed. apply extrapolate_cols_inv in Ed.
    eapply Forall2_impl; [|exact Ed]. cbv beta. intros r r' (rp & rq & -> & L & L'). exists rp, rq. split; [reflexivity|]. rewrite L, L'. now destruct first, last_.
Qed.

(** C85: the same after filling the borders in both directions *)
Theorem C85_filled : forall (st : istate R) out, well_formed st -> (0 <= chunk_size st)%Z ->
  hrow_indices st <> [] -> increasing (hrow_indices st) -> col_indices st <> [] -> increasing (col_indices st) ->
  fill_then_interpolate spl1 spl2 st = Ok out ->
  forall num i j a b, (num < length (tie_data st))%nat ->
  (i < length (row_indices st))%nat -> (j < length (col_indices st))%nat ->
  (a < length (hrow_indices st))%nat -> (b < length (hcol_indices st))%nat ->
  0 <= nth i (row_indices st) 0 < IZR (Z.of_nat (length (row_indices st))) ->
  nth a (hrow_indices st) 0 = nth i (row_indices st) 0 -> nth b (hcol_indices st) 0 = nth j (col_indices st) 0 ->
  at2 0 (nth num out []) a b = at2 0 (nth num (tie_data st) []) i j.
Proof.
  intros st out W Hc Hh Ih Hcn Ic E num i j a b Hnum Hi Hj Ha Hb Hr Ea Eb.
  unfold fill_then_interpolate in E. destruct (fill_borders [DimY; DimX] st) as [o st2] eqn:EF. destruct o as [u|e]; [|discriminate].
  assert (W2 : well_formed st2). { change st2 with (snd (Ok u, st2)). rewrite <- EF. now apply fill_borders_well_formed. }
  unfold fill_borders in EF. cbn [resolve bind run_dims run_dim] in EF.
  destruct (fill_row_borders st) as [st1|e] eqn:E1; [|discriminate].
  destruct (fill_col_borders st1) as [st2'|e] eqn:E2; [|discriminate]. injection EF as <- ->.
  destruct (fill_row_borders_inv st st1 Hc Hh E1) as (C & chunks & _ & _ & _ & G & Er1 & El1 & Et1 & Ec1 & Eh1 & Ehc1 & _). cbv zeta in *.
  destruct (fill_col_borders_inv st1 st2) as (pre & post & Ec2 & Iw & Ft & Er2 & Eh2 & Ehc2 & _); [now rewrite Ec1|now rewrite Ec1|exact E2|].
  rewrite (proj1 (interpolate_spec spl1 spl2 st2 W2)) in E. pose proof (mapM_F2 _ _ _ E) as F.
  assert (Lt2 : length (tie_data st2) = length (tie_data st1)) by (symmetry; apply (F2_length _ _ _ Ft)).
  (* positions and data have the same length, since the interpolation worked *)
  assert (NE : Forall (fun d' => length d' = length (row_indices st1)) (tie_data st1)).
  { apply Forall_forall. intros d1 Hd1. apply (In_nth _ _ []) in Hd1. destruct Hd1 as (m & Hm & <-).
    pose proof (F2_nth _ _ _ m [] [] F ltac:(lia)) as Fm. cbv beta in Fm. unfold interp_one in Fm.
    pose proof (F2_nth _ _ _ m [] [] Ft Hm) as Fr. apply F2_length in Fr. rewrite Fr.
    destruct (array_equal (hrow_indices st2) (row_indices st2)) eqn:AE.
    - apply array_equal_eq in AE. rewrite Er2, Eh2, Eh1 in AE. apply Nat.le_antisymm.
      + rewrite <- Fr, Et1, Er1 by lia. apply align, (blocks_align st C _ chunks m G). lia.
      + rewrite <- AE. unfold interp1d_one in Fm. rewrite range0_map_of_nat, mapM_map in Fm. apply mapM_F2 in Fm.
        destruct (hrow_indices st) as [|h hs] eqn:Eh; [contradiction|]. rewrite Eh2, Eh1 in Fm. cbn [length] in *.
        pose proof (F2_nth _ _ _ (length hs) 0%nat [] Fm) as Fl. rewrite seq_length in Fl. specialize (Fl ltac:(lia)). cbv beta in Fl. rewrite seq_nth in Fl by lia.
        apply bind_Ok in Fl. destruct Fl as (dr & Ed & _). apply (nth_res_inv _ _ _ []) in Ed. cbn [Nat.add] in Ed. lia.
    - unfold interp2d_one, rect_bivariate in Fm. destruct (strict_inc (row_indices st2)); [|discriminate]. cbn [negb] in Fm.
      destruct (strict_inc (col_indices st2)); [|discriminate]. cbn [negb] in Fm.
      destruct (Nat.eqb_spec (length (row_indices st2)) (length (nth m (tie_data st2) []))) as [L|]; [|discriminate]. now rewrite <- L, Er2. }
  destruct (C84_kept_partial st st1 Hc Hh) with (i := i) as (q & Hq & Eq & Fq); auto.
  { unfold fill_borders. cbn [resolve bind run_dims run_dim]. now rewrite E1. }
  assert (Hnum1 : (num < length (tie_data st1))%nat) by lia.
  pose proof (F2_nth _ _ _ num [] [] Fq Hnum) as Fd. cbv beta in Fd.
  pose proof (F2_nth _ _ _ num [] [] Ft Hnum1) as Fc. rewrite Forall_forall in NE.
  pose proof (F2_nth _ _ _ q [] [] Fc ltac:(rewrite NE; [lia|now apply nth_In])) as (rp & rq & Erow & Lrp & Lrq).
  assert (K : at2 0 (nth num out []) a b = at2 0 (nth num (tie_data st2) []) q (length pre + j) /\ length (nth q (nth num (tie_data st2) []) []) = length (col_indices st2)).
  { apply interp_one_tie.
    + intros _. split; [now rewrite Eh2, Eh1|exact Iw].
    + apply (F2_nth _ _ _ num [] [] F). lia.
    + now rewrite Er2.
    + rewrite Ec2, !app_length, Ec1. lia.
    + now rewrite Eh2, Eh1.
    + now rewrite Ehc2, Ehc1.
    + rewrite Eh2, Eh1, Er2, Eq. exact Ea.
    + rewrite Ehc2, Ehc1, Ec2, Ec1. rewrite app_nth2 by lia. rewrite app_nth1 by lia. replace (length pre + j - length pre)%nat with j by lia. exact Eb. }
  destruct K as [-> K]. rewrite Erow, Ec2, Ec1, !app_length in K. unfold at2. rewrite Erow. rewrite app_nth2 by lia. rewrite app_nth1 by lia.
  rewrite Fd. f_equal. lia.
Qed.
End Tie.
Print Assumptions C85_tie_points.
Print Assumptions C85_filled.

(** Concrete cases: an evaluator that interpolates exists (PropsLegacy); quadratic splines in both directions on a 3 x 3 grid;
    cubic splines along the rows after both borders were filled *)
Ltac rdec := repeat match goal with
  | |- context [Rltb ?a ?b] => let H := fresh in unfold Rltb at 1; destruct (Rlt_dec a b) as [H|H]; try (exfalso; clear -H; lra)
  | |- context [Rleb ?a ?b] => let H := fresh in unfold Rleb at 1; destruct (Rle_dec a b) as [H|H]; try (exfalso; clear -H; lra)
  | |- context [Reqb ?a ?b] => let H := fresh in unfold Reqb at 1; destruct (Req_EM_T a b) as [H|H]; try (exfalso; clear -H; lra)
  end.
Definition c85_spl (ks vs : list R) (_ : Z) (x : R) : R := lookup ks vs x.
Definition c85_st : istate R := make [[[5; 6; 7]; [7; 6; 5]; [0; 1; 2]]] ([0; 1; 2], [0; 1; 2]) ([0; 1/2; 1; 2], [0; 1; 3/2; 2]) 2 2 0.
Definition c85_filled_st : istate R := make [[[5; 6; 7]; [7; 6; 5]]] ([1/2; 3/2], [1; 2; 3]) ([0; 1/2; 3/2; 2], [0; 1; 2; 4]) 1 3 0.
Lemma c84_fill : exists r1 r2 r3 r4,
  fill_row_borders c85_filled_st = Ok (mkI [0; 1/2; 3/2; 2] [1; 2; 3] [0; 1/2; 3/2; 2] [0; 1; 2; 4] 0 [[r1; r2; r3; r4]] 1 3 [[]]) /\
  map (@length R) [r1; r2; r3; r4] = [3; 3; 3; 3]%nat.
Proof.
  assert (Wd : window (row_indices c85_filled_st) (IZR 0 / (4 / 2)) (IZR (0 + 4) / (4 / 2)) = [0; 1]%nat) by (cbn; rdec; reflexivity).
  assert (Fc : exists b p0, fill_chunk c85_filled_st 4 (4 / 2) 0 = Ok ([b], p0) /\ p0 = [0; 1/2; 3/2; 2] /\ map (@length R) b = [3; 3; 3; 3]%nat).
  { unfold fill_chunk. match goal with |- context [window ?a ?b ?c] => replace (window a b c) with [0; 1]%nat by (symmetry; exact Wd) end. cbn. eexists _, _. split; [reflexivity|]. split; reflexivity. }
  destruct Fc as (b & p0 & Fc & Ep & Lb).
  destruct b as [|r1 [|r2 [|r3 [|r4 [|r5 b]]]]]; try discriminate Lb.
  assert (E1 : fill_row_borders c85_filled_st = Ok (mkI p0 [1; 2; 3] [0; 1/2; 3/2; 2] [0; 1; 2; 4] 0 [[r1; r2; r3; r4]] 1 3 [[]])).
  { unfold fill_row_borders. cbn [length row_indices hrow_indices c85_filled_st make fst snd chunk_size]. change (py_range 0 (Z.of_nat 4) (if 0 =? 0 then Z.of_nat 4 else 0)) with (Ok [0%Z]).
    cbn [bind mapM]. change (nz (Z.of_nat 4) / nz (Z.of_nat 2))%num with (4 / 2). change (if (0 =? 0)%Z then Z.of_nat 4 else 0%Z) with 4%Z. fold c85_filled_st.
    rewrite Fc. cbn. now rewrite app_nil_r. }
  subst p0. exists r1, r2, r3, r4. split; assumption.
Qed.
Example C84_case : (0 <= chunk_size c85_filled_st)%Z /\ hrow_indices c85_filled_st <> [] /\ exists st',
  fill_borders [DimY] c85_filled_st = (Ok tt, st') /\ Forall (fun d' => length d' = length (row_indices st')) (tie_data st') /\
  0 <= nth 1 (row_indices c85_filled_st) 0 < IZR (Z.of_nat (length (row_indices c85_filled_st))).
Proof.
  split; [cbn; lia|]. split; [discriminate|]. destruct c84_fill as (r1 & r2 & r3 & r4 & E & _). eexists. split.
  - unfold fill_borders. cbn [resolve bind run_dims run_dim]. rewrite E. reflexivity.
  - split; [repeat constructor|]. cbn. lra.
Qed.
Example C85_case : interpolates c85_spl /\
  (well_formed c85_st /\ increasing (row_indices c85_st) /\ increasing (col_indices c85_st) /\ exists out, fst (interpolate c85_spl c85_spl c85_st) = Ok out) /\
  (well_formed c85_filled_st /\ increasing (hrow_indices c85_filled_st) /\ increasing (col_indices c85_filled_st) /\ exists out, fill_then_interpolate c85_spl c85_spl c85_filled_st = Ok out).
Proof.
  assert (I : forall a b c, a < b < c -> increasing [a; b; c]).
  { intros a b c H i j Hij. cbn [length] in Hij. destruct i as [|[|[|i]]], j as [|[|[|j]]]; cbn [nth]; try lia; lra. }
  assert (I4 : forall a b c d, a < b < c -> c < d -> increasing [a; b; c; d]).
  { intros a b c d H H' i j Hij. cbn [length] in Hij. destruct i as [|[|[|[|i]]]], j as [|[|[|[|j]]]]; cbn [nth]; try lia; lra. }
  split; [exact lookup_interpolates|]. split.
  - split; [reflexivity|]. split; [apply I; lra|]. split; [apply I; lra|].
    rewrite (proj1 (interpolate_spec c85_spl c85_spl c85_st eq_refl)). unfold c85_st, make. cbn [tie_data mapM]. unfold interp_one. cbn [hrow_indices row_indices fst snd].
    cbn [array_equal neqb RT]. rdec. cbn [andb]. unfold interp2d_one, rect_bivariate.
    cbn [strict_inc weak_inc nltb nleb RT row_indices col_indices hrow_indices hcol_indices kx_ ky_ fst snd]. rdec. cbn. eexists. reflexivity.
  - split; [reflexivity|]. split; [apply I4; lra|]. split; [apply I; lra|].
    destruct c84_fill as (r1 & r2 & r3 & r4 & E1 & Lb).
    unfold fill_then_interpolate, fill_borders. cbn [resolve bind run_dims run_dim]. rewrite E1.
    cbn [map] in Lb. injection Lb as L1 L2 L3 L4.
    destruct r1 as [|x1 [|x2 [|x3 [|? ?]]]]; try discriminate L1. destruct r2 as [|y1 [|y2 [|y3 [|? ?]]]]; try discriminate L2.
    destruct r3 as [|z1 [|z2 [|z3 [|? ?]]]]; try discriminate L3. destruct r4 as [|w1 [|w2 [|w3 [|? ?]]]]; try discriminate L4.
    unfold fill_col_borders, extrapolate_cols. cbn -[interpolate]. change (Pos.to_nat 1) with 1%nat. change (Pos.to_nat 2) with 2%nat. change (Pos.to_nat 3) with 3%nat. cbn -[interpolate]. unfold Reqb. destruct (Req_EM_T 1 0) as [H|H]; [lra|]. destruct (Req_EM_T 3 4) as [H'|H']; [lra|]. cbn -[interpolate].
    match goal with |- exists out, fst (interpolate _ _ ?s) = _ => rewrite (proj1 (interpolate_spec c85_spl c85_spl s eq_refl)) end.
    cbn [tie_data mapM]. unfold interp_one. cbn [hrow_indices row_indices]. rewrite array_equal_refl. unfold interp1d_one. cbn. rdec. cbn. eexists. reflexivity.
Qed.
