(** Statements about _linear_extrapolate, fill_borders and interpolate in terms of Spec. *)
From Coq Require Import ZArith List Lia Bool Reals Lra.
From Verif Require Import Spec Base Num Splits Interp PlProofs InterpProofs Legacy LegacyProofs LegacyInst LegacyTie.
Import ListNotations.
#[local] Existing Instance RT.
Open Scope R_scope.

Lemma lin_at_line p0 p1 x d0 d1 : p0 <> p1 -> lin_at p0 p1 x d0 d1 = straight_line p0 d0 p1 d1 x.
Proof. intros H. unfold lin_at, straight_line. rt. field. lra. Qed.

Lemma linear_extrapolate_line p0 p1 d0 d1 x :
  p0 <> p1 -> length d0 = length d1 ->
  exists r, linear_extrapolate [p0; p1] [d0; d1] x = Ok r /\ length r = length d0 /\
    (forall i, (i < length d0)%nat -> nth i r 0 = straight_line p0 (nth i d0 0) p1 (nth i d1 0) x).
Proof.
  intros Hp Hd. eexists. split; [reflexivity|]. rewrite map2_length. split; [lia|].
  intros i Hi. rewrite (nth_map2 _ _ _ i 0 0) by lia. now apply lin_at_line.
Qed.

Lemma linear_extrapolate_first p0 p1 d0 d1 :
  p0 <> p1 -> length d0 = length d1 -> linear_extrapolate [p0; p1] [d0; d1] p0 = Ok d0.
Proof.
  intros Hp Hd. cbn [linear_extrapolate]. f_equal. apply (list_eq_nth 0).
  - rewrite map2_length. lia.
  - intros i Hi. rewrite map2_length in Hi. rewrite (nth_map2 _ _ _ i 0 0) by lia.
    rewrite lin_at_line by exact Hp. unfold straight_line. ring.
Qed.
Lemma linear_extrapolate_second p0 p1 d0 d1 :
  p0 <> p1 -> length d0 = length d1 -> linear_extrapolate [p0; p1] [d0; d1] p1 = Ok d1.
Proof.
  intros Hp Hd. cbn [linear_extrapolate]. f_equal. apply (list_eq_nth 0).
  - rewrite map2_length. lia.
  - intros i Hi. rewrite map2_length in Hi. rewrite (nth_map2 _ _ _ i 0 0) by lia.
    rewrite lin_at_line by exact Hp. unfold straight_line. field. lra.
Qed.

Lemma linear_extrapolate_bad {T} {N : NumOps T} (pos : list T) (data : list (list T)) x :
  length pos <> 2%nat \/ length data <> 2%nat -> linear_extrapolate pos data x = Err ValueError.
Proof.
  intros H. destruct pos as [|p0 [|p1 [|p2 pos]]]; try reflexivity.
  destruct data as [|d0 [|d1 [|d2 data]]]; try reflexivity. simpl in H. lia.
Qed.

Lemma Forall2_map_r {A B} (P : A -> B -> Prop) (f : A -> B) l :
  Forall (fun a => P a (f a)) l -> Forall2 P l (map f l).
Proof. induction 1; simpl; constructor; auto. Qed.

(** C05 *)
Definition line_first (cols r : list R) (x : R) : R :=
  straight_line (nth 0 cols 0) (nth 0 r 0) (nth 1 cols 0) (nth 1 r 0) x.
Definition line_last (cols r : list R) (x : R) : R :=
  let n := length cols in
  straight_line (nth (n - 2) cols 0) (nth (n - 2) r 0) (nth (n - 1) cols 0) (nth (n - 1) r 0) x.

Lemma fill_x_spec (st : istate R) :
  let cols := col_indices st in let hcols := hcol_indices st in
  let h0 := hd 0 hcols in let h1 := last hcols 0 in
  (2 <= length cols)%nat -> hcols <> [] ->
  nth 0 cols 0 <> nth 1 cols 0 -> nth (length cols - 2) cols 0 <> nth (length cols - 1) cols 0 ->
  Forall (Forall (fun r => length r = length cols)) (tie_data st) ->
  exists st' pre post,
    fill_borders [DimX] st = (Ok tt, st') /\
    col_indices st' = pre ++ cols ++ post /\
    hd 0 (col_indices st') = h0 /\ last (col_indices st') 0 = h1 /\
    (hd 0 cols = h0 -> pre = []) /\ (hd 0 cols <> h0 -> pre = [h0]) /\
    (last cols 0 = h1 -> post = []) /\ (last cols 0 <> h1 -> post = [h1]) /\
    Forall2 (Forall2 (fun r r' => exists rp rq, r' = rp ++ r ++ rq /\
        length rp = length pre /\ Forall (fun v => v = line_first cols r h0) rp /\
        length rq = length post /\ Forall (fun v => v = line_last cols r h1) rq))
      (tie_data st) (tie_data st') /\
    row_indices st' = row_indices st /\ hrow_indices st' = hrow_indices st /\ hcol_indices st' = hcol_indices st /\
    chunk_size st' = chunk_size st /\ kx_ st' = kx_ st /\ ky_ st' = ky_ st /\ new_data st' = new_data st.
Proof.
  intros cols hcols h0 h1 H2 Hh Hd0 Hd1 Hw.
  exists (mkI (row_indices st) (ext_cols cols hcols) (hrow_indices st) hcols (chunk_size st)
     (map (map (ext_row cols hcols)) (tie_data st)) (kx_ st) (ky_ st) (new_data st)),
    (if need_first cols hcols then [h0] else []), (if need_last cols hcols then [h1] else []).
  assert (Hne : cols <> []) by (intros E; rewrite E in H2; simpl in H2; lia).
  split.
  { unfold fill_borders. cbn [resolve bind run_dims run_dim]. rewrite fill_col_borders_eq; [reflexivity|exact H2|exact Hh|].
    eapply Forall_impl; [|exact Hw]. intros d Hd. eapply Forall_impl; [|exact Hd]. cbv beta. intros r ->. exact H2. }
  split; [reflexivity|]. cbn [col_indices].
  assert (NF : need_first cols hcols = true <-> hd 0 cols <> h0).
  { unfold need_first. fold h0. destruct (Reqb (hd 0 cols) h0) eqn:E; cbn [negb].
    - apply Reqb_true in E. split; [discriminate|contradiction].
    - apply Reqb_false in E. tauto. }
  assert (NL : need_last cols hcols = true <-> last cols 0 <> h1).
  { unfold need_last. fold h1. destruct (Reqb (last cols 0) h1) eqn:E; cbn [negb].
    - apply Reqb_true in E. split; [discriminate|contradiction].
    - apply Reqb_false in E. tauto. }
  split.
  { unfold ext_cols. destruct (need_first cols hcols); [reflexivity|]. cbn [app].
    destruct (Req_EM_T (hd 0 cols) h0) as [E|E]; [|apply NF in E; discriminate].
    rewrite <- E. destruct cols; [congruence|reflexivity]. }
  split.
  { unfold ext_cols. destruct (need_last cols hcols).
    - rewrite app_assoc. apply last_last.
    - destruct (Req_EM_T (last cols 0) h1) as [E|E]; [|apply NL in E; discriminate].
      rewrite app_nil_r, <- E. destruct (need_first cols hcols); [|reflexivity]. cbn [app].
      destruct cols; [congruence|reflexivity]. }
  split. { intros E. destruct (need_first cols hcols); [|reflexivity]. exfalso. now apply NF. }
  split. { intros E. apply NF in E. now rewrite E. }
  split. { intros E. destruct (need_last cols hcols); [|reflexivity]. exfalso. now apply NL. }
  split. { intros E. apply NL in E. now rewrite E. }
  split.
  { cbn [tie_data]. apply Forall2_map_r. eapply Forall_impl; [|exact Hw]. intros d Hd. apply Forall2_map_r.
    eapply Forall_impl; [|exact Hd]. cbv beta. intros r Lr. unfold ext_row. do 2 eexists. split; [reflexivity|].
    split; [destruct (need_first cols hcols); reflexivity|].
    split.
    { destruct (need_first cols hcols); constructor; [|constructor]. unfold line_first. now apply lin_at_line. }
    split; [destruct (need_last cols hcols); reflexivity|].
    destruct (need_last cols hcols); constructor; [|constructor]. unfold line_last. cbv zeta. rewrite Lr. now apply lin_at_line. }
  repeat split.
Qed.

Lemma Ok_inj {A} (a b : A) : Ok a = Ok b -> a = b.
Proof. intros H. now injection H. Qed.

(** C06 *)
Lemma extrapolate_cols_none (st : istate R) data : extrapolate_cols st data false false = Ok data.
Proof. reflexivity. Qed.

Lemma nth_res_hd {A} (l : list A) a : nth_res l 0 = Ok a -> exists l', l = a :: l'.
Proof. destruct l; unfold nth_res; simpl; intros H; [discriminate|]. injection H as <-. eauto. Qed.

Lemma last_res_app {A} (l : list A) a : last_res (l ++ [a]) = Ok a.
Proof.
  unfold last_res. rewrite (nth_res_Ok _ _ a) by (rewrite app_length; simpl; lia).
  f_equal. rewrite app_length. simpl. rewrite app_nth2 by lia.
  replace (Z.to_nat (Z.of_nat (length l + 1) - 1) - length l)%nat with 0%nat by lia. reflexivity.
Qed.
Lemma last_res_cons {A} (x : A) l a : last_res l = Ok a -> last_res (x :: l) = Ok a.
Proof.
  intros H. destruct l as [|y l]; [discriminate|]. unfold last_res in *.
  rewrite (nth_res_Ok _ _ a) in H by (cbn [length]; lia). rewrite (nth_res_Ok _ _ a) by (cbn [length]; lia).
  rewrite <- H. f_equal.
  replace (Z.to_nat (Z.of_nat (length (x :: y :: l)) - 1)) with (S (Z.to_nat (Z.of_nat (length (y :: l)) - 1))) by (cbn [length]; lia).
  reflexivity.
Qed.

Lemma fill_x_idempotent (st st' : istate R) :
  fill_borders [DimX] st = (Ok tt, st') -> fill_borders [DimX] st' = (Ok tt, st').
Proof.
  unfold fill_borders. cbn [resolve bind run_dims run_dim].
  destruct (fill_col_borders st) as [s|e] eqn:E; [|discriminate]. intros H. injection H as <-.
  unfold fill_col_borders in E.
  destruct (nth_res (col_indices st) 0) as [c0|] eqn:E0; [|discriminate]. cbn [bind] in E.
  destruct (nth_res (hcol_indices st) 0) as [h0|] eqn:E1; [|discriminate]. cbn [bind] in E.
  destruct (last_res (col_indices st)) as [c1|] eqn:E2; [|discriminate]. cbn [bind] in E.
  destruct (last_res (hcol_indices st)) as [h1|] eqn:E3; [|discriminate]. cbn [bind] in E.
  destruct (mapM _ (tie_data st)) as [td|] eqn:E4; [|discriminate]. cbn [bind] in E. apply Ok_inj in E; subst s.
  set (first := negb (neqb c0 h0)) in *. set (last := negb (neqb c1 h1)) in *.
  set (ci := if first then h0 :: col_indices st else col_indices st) in *.
  set (ci' := if last then ci ++ [h1] else ci) in *.
  assert (A0 : nth_res ci' 0 = Ok h0).
  { destruct (nth_res_hd _ _ E0) as [l' El].
    assert (B : exists l, ci = h0 :: l).
    { unfold ci, first. rt. destruct (Reqb c0 h0) eqn:Ec; cbn [negb].
      - apply Reqb_true in Ec. subst. eauto.
      - eauto. }
    destruct B as [l B]. unfold ci'. rewrite B. destruct last; reflexivity. }
  assert (A1 : last_res ci' = Ok h1).
  { unfold ci', last. rt. destruct (Reqb c1 h1) eqn:Ec; cbn [negb].
    - apply Reqb_true in Ec. subst. unfold ci. destruct first; [now apply last_res_cons|assumption].
    - apply last_res_app. }
  unfold fill_col_borders. cbn [row_indices col_indices hrow_indices hcol_indices chunk_size tie_data kx_ ky_ new_data].
  rewrite A0, E1, A1, E3. cbn [bind]. rt. rewrite !Reqb_refl. cbn [negb].
  rewrite (mapM_Ok_map _ (fun d => d)) by reflexivity. rewrite map_id. reflexivity.
Qed.

(** C07 *)
Lemma fill_borders_unknown {T} {N : NumOps T} (args : list dim) (st : istate T) :
  In DimOther args -> fill_borders args st = (Err NameError, st).
Proof.
  intros H. unfold fill_borders. replace (resolve args) with (@Err (list dim) NameError); [reflexivity|].
  induction args as [|a args IH]; [destruct H|]. destruct a; cbn [resolve]; [| |reflexivity];
  (destruct H as [H|H]; [discriminate|]); now rewrite <- IH.
Qed.

(** C08 *)
Lemma nth_firstn_skipn_concat {A} m c (blocks : list (list A)) :
  Forall (fun b => length b = m) blocks -> (c < length blocks)%nat ->
  firstn m (skipn (c * m) (concat blocks)) = nth c blocks [].
Proof.
  intros F. revert c. induction F as [|b bs Hb F IH]; intros c Hc; [simpl in Hc; lia|].
  destruct c as [|c]; cbn [concat nth Nat.mul skipn].
  - rewrite firstn_app. rewrite Hb, Nat.sub_diag. cbn [firstn]. rewrite app_nil_r, <- Hb. apply firstn_all.
  - rewrite skipn_app. rewrite (skipn_all2 b) by lia. cbn [app]. replace (m + c * m - length b)%nat with (c * m)%nat by lia.
    apply IH. simpl in Hc. lia.
Qed.

Section FillY.
Variables (g m k w : nat) (delta o : R) (cols hcols : list R) (ky : Z) (nd : list (mat R)).
(** position of tie row [i] and target row [j], in units of tie rows *)
Let pos (i : nat) : R := IZR (Z.of_nat i) + delta.
Let hpos (j : nat) : R := (IZR (Z.of_nat j) - o) / IZR (Z.of_nat g).

Lemma fill_y_spec (data : list (list (mat R))) :
  (1 <= g)%nat -> (2 <= m)%nat -> (1 <= k)%nat -> 0 <= delta < 1 ->
  Forall (fun blocks => length blocks = k /\ Forall (shaped m w) blocks) data ->
  exists st' data',
    fill_borders [DimY] (mkI (map pos (seq 0 (k * m))) cols (map hpos (seq 0 (g * (k * m)))) hcols
                             (Z.of_nat (g * m)) (map (@concat _) data) 1 ky nd) = (Ok tt, st') /\
    row_indices st' = concat (map (fun c => hpos (c * (g * m)) :: map pos (seq (c * m) m) ++ [hpos (c * (g * m) + g * m - 1)]) (seq 0 k)) /\
    tie_data st' = map (@concat _) data' /\
    Forall2 (fun blocks blocks' => length blocks' = k /\ forall c, (c < k)%nat ->
       exists f l, nth c blocks' [] = f :: nth c blocks [] ++ [l] /\ length f = w /\ length l = w /\
         forall j, (j < w)%nat ->
           nth j f 0 = straight_line (pos (c * m)) (at2 0 (nth c blocks []) 0 j) (pos (c * m + 1)) (at2 0 (nth c blocks []) 1 j) (hpos (c * (g * m))) /\
           nth j l 0 = straight_line (pos (c * m + m - 2)) (at2 0 (nth c blocks []) (m - 2) j)
                                     (pos (c * m + m - 1)) (at2 0 (nth c blocks []) (m - 1) j) (hpos (c * (g * m) + g * m - 1)))
      data data' /\
    col_indices st' = cols /\ hcol_indices st' = hcols /\ hrow_indices st' = map hpos (seq 0 (g * (k * m))) /\
    chunk_size st' = Z.of_nat (g * m) /\ ky_ st' = ky /\ new_data st' = nd.
Proof.
  intros Hg Hm Hk Hdelta Hdata.
  change pos with (posn delta). change hpos with (hposn g o).
  change (map (posn delta) (seq 0 (k * m))) with (Pn delta (k * m)).
  change (map (hposn g o) (seq 0 (g * (k * m)))) with (Hn g o (g * (k * m))).
  exists (mkI (Pfilled g m delta o k) cols (Hn g o (g * (k * m))) hcols (Z.of_nat (g * m))
            (map (filled g m delta o k) (map (@concat _) data)) 1 ky nd),
    (map (fun blocks => map (fun c => fill1 g m delta o (nth c blocks [])) (seq 0 k)) data).
  assert (HL : Forall (fun d => length d = (k * m)%nat) (map (@concat (list R)) data)).
  { apply Forall_map. eapply Forall_impl; [|exact Hdata]. intros bl [L F].
    rewrite (concat_length_const _ m); [now rewrite L|]. eapply Forall_impl; [|exact F]. intros b Hb. apply Hb. }
  split.
  { unfold fill_borders. cbn [resolve bind run_dims run_dim].
    pose proof (fill_row_borders_whole g m delta o Hg Hm Hdelta cols hcols ky nd k (map (@concat _) data) Hk HL) as E.
    unfold st0 in E. rewrite E. reflexivity. }
  split.
  { cbn [row_indices]. unfold Pfilled. f_equal. apply map_ext. intros c. unfold P0, shift. cbn [map]. f_equal.
    - rewrite <- (hposn_shift g m o Hg Hm (c * m) 0). f_equal. lia.
    - rewrite map_app. f_equal.
      + unfold Pn. rewrite map_map, (seq_map_shift (c * m) m), map_map. apply map_ext. intros i. symmetry. apply posn_shift.
      + cbn [map]. rewrite <- (hposn_shift g m o Hg Hm (c * m) (g * m - 1)). do 2 f_equal. nia. }
  split.
  { cbn [tie_data]. rewrite !map_map. apply map_ext_in. intros bl Hbl. unfold filled. f_equal.
    apply map_ext_in. intros c Hc. apply in_seq in Hc. f_equal.
    rewrite Forall_forall in Hdata. destruct (Hdata bl Hbl) as [L F].
    apply nth_firstn_skipn_concat; [|lia]. eapply Forall_impl; [|exact F]. intros b Hb. apply Hb. }
  split.
  { clear HL. induction data as [|bl data IH]; cbn [map]; constructor.
    - clear IH. inversion Hdata as [|? ? [L F] ?]; subst.
      split; [now rewrite map_length, seq_length|]. intros c Hc.
      rewrite (nth_map' _ (seq 0 (length bl)) c 0%nat) by (now rewrite seq_length). rewrite seq_nth by exact Hc. cbn [Nat.add].
      set (b := nth c bl []).
      assert (Hb : shaped m w b).
      { rewrite Forall_forall in F. apply F. now apply nth_In. }
      unfold fill1. do 2 eexists. split; [reflexivity|].
      pose proof (shaped_row m w b 0 Hb ltac:(lia)). pose proof (shaped_row m w b 1 Hb ltac:(lia)).
      pose proof (shaped_row m w b (m - 2) Hb ltac:(lia)). pose proof (shaped_row m w b (m - 1) Hb ltac:(lia)).
      rewrite !map2_length. split; [lia|]. split; [lia|]. intros j Hj. unfold at2.
      rewrite !(nth_map2 _ _ _ j 0 0) by lia.
      assert (P : forall i, posn delta (c * m + i) = posn delta i + IZR (Z.of_nat (c * m))) by (intros; apply posn_shift).
      split.
      + rewrite <- (lin_at_shift _ _ _ _ _ (IZR (Z.of_nat (c * m)))).
        rewrite <- !P, Nat.add_0_r. rewrite <- (hposn_shift g m o Hg Hm (c * m) 0).
        replace (c * m * g + 0)%nat with (c * (g * m))%nat by lia.
        apply lin_at_line. pose proof (posn_lt g m delta Hg Hm (c * m) (c * m + 1) ltac:(lia)). lra.
      + rewrite <- (lin_at_shift _ _ _ _ _ (IZR (Z.of_nat (c * m)))).
        rewrite <- !P. rewrite <- (hposn_shift g m o Hg Hm (c * m) (g * m - 1)).
        replace (c * m * g + (g * m - 1))%nat with (c * (g * m) + g * m - 1)%nat by nia.
        replace (c * m + (m - 2))%nat with (c * m + m - 2)%nat by lia.
        replace (c * m + (m - 1))%nat with (c * m + m - 1)%nat by lia.
        apply lin_at_line. pose proof (posn_lt g m delta Hg Hm (c * m + m - 2) (c * m + m - 1) ltac:(lia)). lra.
    - apply IH. now inversion Hdata. }
  repeat split.
Qed.
End FillY.

(** C09 *)
Definition rows_covered (g m k : nat) (st : istate R) : Prop :=
  increasing (row_indices st) /\ length (row_indices st) = (k * (m + 2))%nat /\
  length (hrow_indices st) = (k * (g * m))%nat /\
  forall c j, (c < k)%nat -> (j < g * m)%nat ->
    nth (c * (m + 2)) (row_indices st) 0 <= nth (c * (g * m) + j) (hrow_indices st) 0 <= nth (c * (m + 2) + m + 1) (row_indices st) 0.

Lemma layout_covered g m k delta o cols hcols ky nd ties st' :
  (1 <= g)%nat -> (2 <= m)%nat -> (1 <= k)%nat -> 0 <= delta < 1 ->
  hposn g o 0 < posn delta 0 -> posn delta (m - 1) < hposn g o (g * m - 1) ->
  Forall (fun d => length d = (k * m)%nat) ties ->
  fill_borders [DimY; DimX] (st0 g m delta o cols hcols ky nd (k * m) ties) = (Ok tt, st') ->
  rows_covered g m k st'.
Proof.
  intros Hg Hm Hk Hdelta Hf Hl HL E.
  unfold fill_borders in E. cbn [resolve bind run_dims run_dim] in E.
  rewrite (fill_row_borders_whole g m delta o Hg Hm Hdelta cols hcols ky nd k) in E by assumption.
  destruct (fill_col_borders _) as [s|] eqn:Ec; [|discriminate]. injection E as <-.
  unfold fill_col_borders in Ec. cbn [row_indices col_indices hrow_indices hcol_indices chunk_size tie_data kx_ ky_ new_data] in Ec.
  repeat match type of Ec with bind ?x _ = _ => let E := fresh in destruct x eqn:E; [|discriminate]; cbn [bind] in Ec end.
  injection Ec as <-. unfold rows_covered. cbn [row_indices hrow_indices].
  change (Pfilled g m delta o k) with (Pfrom g m delta o 0 k).
  split; [apply strict_inc_increasing; now apply strict_inc_Pfrom|].
  split; [now apply Pfrom_length|]. split; [rewrite Hn_length; lia|].
  intros c j Hc Hj.
  assert (Nth : forall i, (i < m + 2)%nat -> nth (c * (m + 2) + i) (Pfrom g m delta o 0 k) 0 = nth i (P0 g m delta o) 0 + IZR (Z.of_nat (c * m))).
  { intros i Hi. unfold Pfrom. rewrite (nth_concat_const _ (m + 2)).
    - rewrite (nth_map' _ (seq 0 k) c 0%nat) by (now rewrite seq_length). rewrite seq_nth by exact Hc. cbn [Nat.add].
      unfold shift. rewrite (nth_map' _ _ i 0) by (rewrite P0_length; assumption). reflexivity.
    - apply Forall_map, Forall_forall. intros c' _. unfold shift. rewrite map_length. now apply P0_length.
    - exact Hi.
    - now rewrite map_length, seq_length. }
  assert (I1 : (c * (g * m) + j < g * (k * m))%nat) by nia. rewrite nth_Hn by exact I1.
  replace (c * (m + 2))%nat with (c * (m + 2) + 0)%nat at 1 by lia. rewrite Nth by lia.
  replace (c * (m + 2) + m + 1)%nat with (c * (m + 2) + (m + 1))%nat by lia. rewrite Nth by lia.
  replace (c * (g * m) + j)%nat with (c * m * g + j)%nat by lia. rewrite (hposn_shift g m o Hg Hm).
  replace (nth 0 (P0 g m delta o) 0) with (hposn g o 0) by reflexivity.
  assert (EL : nth (m + 1) (P0 g m delta o) 0 = hposn g o (g * m - 1)).
  { rewrite <- (last_P0 g m delta o), last_nth, P0_length by assumption. f_equal. lia. }
  rewrite EL.
  assert (A : forall a b, (a <= b)%nat -> hposn g o a <= hposn g o b).
  { intros x1 x2 Hab. destruct (Nat.eq_dec x1 x2) as [->|Hn]; [lra|]. apply Rlt_le, (hposn_lt g m o Hg Hm); lia. }
  pose proof (A 0%nat j ltac:(lia)). pose proof (A j (g * m - 1)%nat ltac:(lia)). lra.
Qed.

Lemma grid5_st0 n data :
  modis5km_grid (Z.of_nat n) data = st0 5 2 (2 / 5) 0 cols5 hcols5 3 (map (fun _ => []) data) n data.
Proof.
  unfold modis5km_grid, st0, make.
  rewrite (grid_2_5 1354 271) by (now vm_compute).
  change 1354%Z with (Z.of_nat 1354). change (grid_div 5) with (grid_div (T := R) (Z.of_nat 5)).
  rewrite (grid_div_Hn 5 1354) by lia.
  rewrite (grid_2_5 _ n) by (symmetry; apply Z.div_unique with (r := 2%Z); lia).
  replace (Z.of_nat n * 5)%Z with (Z.of_nat (5 * n)) by lia.
  rewrite (grid_div_Hn 5) by lia. reflexivity.
Qed.
Lemma grid500_st0 n data :
  modis500m_grid (Z.of_nat n) data = st0 2 10 0 (1 / 2) cols1 hcols500 3 (map (fun _ => []) data) n data.
Proof.
  unfold modis500m_grid, st0, make.
  change (1354 * 2)%Z with (Z.of_nat 2708). change 1354%Z with (Z.of_nat 1354). rewrite grid_of_Pn.
  change (grid_div 2) with (grid_div (T := R) (Z.of_nat 2)). rewrite (grid_div_Hn 2 2708) by lia.
  rewrite grid_of_Pn. replace (Z.of_nat n * 2)%Z with (Z.of_nat (2 * n)) by lia.
  change (grid_shift_div 1 2 2) with (grid_shift_div (T := R) 1 2 (Z.of_nat 2)).
  rewrite (grid_shift_Hn 2 1 2 (1 / 2)) by reflexivity. reflexivity.
Qed.
Lemma grid250_st0 n data :
  modis250m_grid (Z.of_nat n) data = st0 4 10 0 (3 / 2) cols1 hcols250 3 (map (fun _ => []) data) n data.
Proof.
  unfold modis250m_grid, st0, make.
  change (1354 * 4)%Z with (Z.of_nat (4 * 1354)). change 1354%Z with (Z.of_nat 1354). rewrite grid_of_Pn.
  change (grid_div 4) with (grid_div (T := R) (Z.of_nat 4)). rewrite (grid_div_Hn 4 (4 * 1354)) by lia.
  rewrite grid_of_Pn. replace (Z.of_nat n * 4)%Z with (Z.of_nat (4 * n)) by lia.
  change (grid_shift_div 3 2 4) with (grid_shift_div (T := R) 3 2 (Z.of_nat 4)).
  rewrite (grid_shift_Hn 4 3 2 (3 / 2)) by reflexivity. reflexivity.
Qed.

Lemma fill_legacy_ok g m k delta o cols hcols ky nd ties :
  (1 <= g)%nat -> (2 <= m)%nat -> (1 <= k)%nat -> 0 <= delta < 1 -> (2 <= length cols)%nat -> hcols <> [] ->
  Forall (shaped (k * m) (length cols)) ties ->
  exists st', fill_borders [DimY; DimX] (st0 g m delta o cols hcols ky nd (k * m) ties) = (Ok tt, st').
Proof.
  intros Hg Hm Hk Hdelta Hc Hh HS. unfold fill_borders. cbn [resolve bind run_dims run_dim].
  rewrite (fill_row_borders_whole g m delta o Hg Hm Hdelta cols hcols ky nd k).
  - rewrite fill_col_borders_eq; cbn [row_indices col_indices hrow_indices hcol_indices chunk_size tie_data kx_ ky_ new_data].
    + eexists. reflexivity.
    + exact Hc.
    + exact Hh.
    + apply Forall_map. rewrite Forall_forall in *. intros d Hd. destruct (HS d Hd) as [L W].
      apply Forall_forall. intros r Hr. unfold filled in Hr. apply in_concat in Hr. destruct Hr as (b & Hb & Hr).
      apply in_map_iff in Hb. destruct Hb as (c & <- & Hc'). apply in_seq in Hc'.
      set (b := firstn m (skipn (c * m) d)) in *.
      assert (Lb : length b = m).
      { unfold b. rewrite firstn_length, skipn_length. apply Nat.min_l. nia. }
      assert (Wb : forall r', In r' b -> length r' = length cols).
      { intros r' Hr'. rewrite Forall_forall in W. apply W. rewrite <- (firstn_skipn (c * m) d). apply in_or_app. right.
        rewrite <- (firstn_skipn m (skipn (c * m) d)). apply in_or_app. now left. }
      assert (Wn : forall i, (i < m)%nat -> length (nth i b []) = length cols).
      { intros i Hi. apply Wb, nth_In. now rewrite Lb. }
      unfold fill1 in Hr. destruct Hr as [<- | Hr].
      * rewrite map2_length, !Wn by lia. lia.
      * apply in_app_or in Hr. destruct Hr as [Hr | [<-|[]]].
        -- rewrite Wb by exact Hr. lia.
        -- rewrite map2_length, !Wn by lia. lia.
  - exact Hk.
  - eapply Forall_impl; [|exact HS]. intros d Hd. apply Hd.
Qed.

(** C14 *)
Section Repeat.
Context {T : Type} {N : NumOps T}.
Variables spl1 spl2 : list T -> list T -> Z -> T -> T.

(** everything but the work array new_data *)
Definition same_inputs (a b : istate T) : Prop :=
  row_indices a = row_indices b /\ col_indices a = col_indices b /\ hrow_indices a = hrow_indices b /\
  hcol_indices a = hcol_indices b /\ chunk_size a = chunk_size b /\ tie_data a = tie_data b /\
  kx_ a = kx_ b /\ ky_ a = ky_ b.
Definition well_formed (a : istate T) : Prop := length (new_data a) = length (tie_data a).

Lemma interp_loop_spec st data : forall nd, length nd = length data ->
  (exists e nd', mapM (interp_one spl1 spl2 st) data = Err e /\ interp_loop spl1 spl2 st data nd = (Err e, nd') /\ length nd' = length data) \/
  (exists r, mapM (interp_one spl1 spl2 st) data = Ok r /\ interp_loop spl1 spl2 st data nd = (Ok tt, r)).
Proof.
  induction data as [|d data IH]; intros nd L.
  - destruct nd; [|discriminate]. right. exists []. auto.
  - destruct nd as [|n0 nd]; [discriminate|]. cbn [mapM interp_loop].
    destruct (interp_one spl1 spl2 st d) as [r|e]; cbn [bind].
    + cbn [tl]. destruct (IH nd ltac:(simpl in L; lia)) as [(e & nd' & E1 & E2 & E3)|(rs & E1 & E2)].
      * left. exists e, (r :: nd'). rewrite E1, E2. cbn [bind]. repeat split. simpl. lia.
      * right. exists (r :: rs). rewrite E1, E2. auto.
    + left. exists e, (n0 :: nd). auto.
Qed.

Lemma interpolate_spec st : well_formed st ->
  fst (interpolate spl1 spl2 st) = mapM (interp_one spl1 spl2 st) (tie_data st) /\
  same_inputs (snd (interpolate spl1 spl2 st)) st /\ well_formed (snd (interpolate spl1 spl2 st)).
Proof.
  intros W. unfold interpolate.
  destruct (interp_loop_spec st (tie_data st) (new_data st) W) as [(e & nd' & E1 & E2 & E3)|(rs & E1 & E2)];
    rewrite E1, E2; cbn [fst snd]; unfold same_inputs, well_formed, set_new_data; cbn; repeat split; auto.
  now apply mapM_length in E1.
Qed.

Lemma interp_one_inputs a b d : same_inputs a b -> interp_one spl1 spl2 a d = interp_one spl1 spl2 b d.
Proof.
  intros (E1 & E2 & E3 & E4 & E5 & E6 & E7 & E8).
  unfold interp_one, interp1d_one, interp2d_one. rewrite E1, E2, E3, E4, E7, E8. reflexivity.
Qed.

Lemma interpolate_inputs a b : well_formed a -> well_formed b -> same_inputs a b ->
  fst (interpolate spl1 spl2 a) = fst (interpolate spl1 spl2 b).
Proof.
  intros Wa Wb S. rewrite (proj1 (interpolate_spec a Wa)), (proj1 (interpolate_spec b Wb)).
  assert (E : tie_data a = tie_data b) by apply S. rewrite E. apply mapM_ext. intros d _. now apply interp_one_inputs.
Qed.

(** the state after [n] calls *)
Fixpoint after_calls (n : nat) (st : istate T) : istate T :=
  match n with O => st | S n' => snd (interpolate spl1 spl2 (after_calls n' st)) end.

Lemma after_calls_same n st : well_formed st -> same_inputs (after_calls n st) st /\ well_formed (after_calls n st).
Proof.
  intros W. induction n as [|n [IH1 IH2]]; [split; [repeat split|exact W]|]. cbn [after_calls].
  destruct (interpolate_spec (after_calls n st) IH2) as (_ & S & W'). split; [|exact W'].
  unfold same_inputs in *. intuition congruence.
Qed.

Lemma interpolate_repeat n st : well_formed st ->
  fst (interpolate spl1 spl2 (after_calls n st)) = fst (interpolate spl1 spl2 st) /\
  same_inputs (after_calls n st) st.
Proof.
  intros W. destruct (after_calls_same n st W) as [S W']. split; [|exact S]. now apply interpolate_inputs.
Qed.

Lemma make_well_formed data tg fg kx ky chunk : well_formed (make data tg fg kx ky chunk).
Proof. unfold well_formed, make. cbn. apply map_length. Qed.

Lemma fill_borders_well_formed args st : well_formed st -> well_formed (snd (fill_borders args st)).
Proof.
  intros W. unfold fill_borders. destruct (resolve args) as [l|]; [|exact W].
  assert (D : forall d s s', run_dim d s = Ok s' -> well_formed s -> well_formed s').
  { intros [] s s' E Ws; cbn [run_dim] in E; [| |discriminate].
    - unfold fill_row_borders in E.
      repeat match type of E with bind ?x _ = _ => let H := fresh "H" in destruct x eqn:H; [|discriminate]; cbn [bind] in E end.
      injection E as <-. unfold well_formed in *. cbn.
      match goal with H : mapM _ (seq 0 _) = Ok _ |- _ => apply mapM_length in H; rewrite seq_length in H; rewrite H end.
      exact Ws.
    - unfold fill_col_borders in E.
      repeat match type of E with bind ?x _ = _ => let H := fresh "H" in destruct x eqn:H; [|discriminate]; cbn [bind] in E end.
      injection E as <-. unfold well_formed in *. cbn.
      match goal with H : mapM _ (tie_data s) = Ok _ |- _ => apply mapM_length in H; rewrite H end.
      exact Ws. }
  revert st W. induction l as [|d l IH]; intros st W; [exact W|]. cbn [run_dims].
  destruct (run_dim d st) eqn:E; [apply IH; eapply D; eauto|]. cbn [snd]. unfold failed_dim. destruct d; try exact W.
  destruct (nth_res (col_indices st) 0) as [c0|]; [|exact W]. destruct (nth_res (hcol_indices st) 0) as [h0|]; [|exact W].
  destruct (last_res (col_indices st)) as [c1|]; [|exact W]. destruct (last_res (hcol_indices st)) as [h1|]; [|exact W].
  unfold well_formed in *. cbn. rewrite W. generalize (tie_data st). intros t. induction t as [|x t IHt]; [reflexivity|].
  cbn [cols_until_error]. destruct (extrapolate_cols _ _ _ _); [|reflexivity]. cbn [length]. now rewrite <- IHt.
Qed.
End Repeat.
