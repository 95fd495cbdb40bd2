(** What the decorator scanline_mapblocks does with chunked arguments. *)
From Coq Require Import ZArith List Bool Lia Permutation.
From Verif Require Import Base Num Geo Mem Modis SimpleModis Mapblocks.
Import ListNotations.
Open Scope Z_scope.

Lemma zsum_app a b : zsum (a ++ b) = zsum a + zsum b.
Proof. induction a; cbn [app zsum fold_right]; [reflexivity|]. change (a + zsum (a0 ++ b) = a + zsum a0 + zsum b). lia. Qed.
Lemma zsum_repeat k m : zsum (repeat k m) = Z.of_nat m * k.
Proof. induction m; [reflexivity|]. cbn [repeat zsum fold_right]. change (k + zsum (repeat k m) = Z.of_nat (S m) * k). lia. Qed.
Lemma zsum_nonneg l : Forall (fun c => 0 <= c) l -> 0 <= zsum l.
Proof. induction 1; cbn [zsum fold_right]; [lia|]. change (0 <= x + zsum l). lia. Qed.

(** the new row chunks: whole scans that fill the axis *)
Definition whole (rps : Z) (ms : list Z) : Prop := Forall (fun m => 0 <= m /\ m mod rps = 0) ms.
Lemma blockdims_ok rps n c0 : 1 <= rps -> 0 <= n -> n mod rps = 0 -> n = 0 \/ rps <= c0 ->
  exists ms, blockdims n (c0 / rps * rps) = Ok ms /\ whole rps ms /\ zsum ms = n /\ ms <> [] /\ (0 < n -> Forall (fun m => 0 < m) ms).
Proof.
  intros Hr Hn Hm Hc. unfold blockdims. destruct (Z.eqb_spec n 0) as [E|E].
  - exists [0]. rewrite E. split; [reflexivity|]. split; [repeat constructor; try lia; apply Z.mod_0_l; lia|]. split; [reflexivity|]. split; [discriminate|lia].
  - destruct Hc as [Hc|Hc]; [contradiction|].
    assert (K : 1 <= c0 / rps) by (apply Z.div_le_lower_bound; lia). set (u := c0 / rps) in *.
    assert (KP : 0 < u * rps) by nia. destruct (Z.eqb_spec (u * rps) 0) as [?|_]; [lia|].
    pose proof (Z.div_mod n (u * rps) ltac:(lia)) as D. pose proof (Z.mod_pos_bound n (u * rps) KP) as B.
    assert (Q : 0 <= n / (u * rps)) by (apply Z.div_pos; lia).
    assert (MM : n mod (u * rps) mod rps = 0).
    { replace (n mod (u * rps)) with (n + (- (u * (n / (u * rps)))) * rps) by (rewrite Z.mod_eq by lia; ring). rewrite Z_mod_plus_full. exact Hm. }
    eexists. split; [reflexivity|].
    assert (W : Forall (fun m => 0 < m /\ m mod rps = 0) (repeat (u * rps) (Z.to_nat (n / (u * rps))) ++ (if n mod (u * rps) =? 0 then [] else [n mod (u * rps)]))).
    { apply Forall_app. split.
      - apply Forall_forall. intros x Hx. apply repeat_spec in Hx. subst x. split; [lia|]. apply Z_mod_mult.
      - destruct (Z.eqb_spec (n mod (u * rps)) 0); [constructor|]. repeat constructor; [lia|exact MM]. }
    assert (S : zsum (repeat (u * rps) (Z.to_nat (n / (u * rps))) ++ (if n mod (u * rps) =? 0 then [] else [n mod (u * rps)])) = n).
    { rewrite zsum_app, zsum_repeat, Z2Nat.id by exact Q. destruct (Z.eqb_spec (n mod (u * rps)) 0) as [E2|E2]; cbn [zsum fold_right]; lia. }
    split; [eapply Forall_impl; [|exact W]; cbn; intros; lia|]. split; [exact S|]. split; [|intros _; eapply Forall_impl; [|exact W]; cbn; intros; lia].
    intros C. rewrite C in S. cbn in S. lia.
Qed.

(** ** Calls with chunked arguments only *)
Definition dask_obj {T} (o : obj T) (d : darr T) : Prop := o = Arr (DA d) \/ o = XArr (DA d).
Definition chunks_ok (l : list Z) : Prop := Forall (fun c => 0 <= c) l.
Definition rows_wide {T} (w : Z) (d : darr T) (b : Z * Z) : ndarray T :=
  {| adt := ddt d; arows := snd b; acols := w; aat := fun i j => dat d (fst b + i) j |}.

Lemma extract_dask {T} (os : list (obj T)) ds : Forall2 dask_obj os ds -> map extract os = map (fun d => Arr (DA d)) ds.
Proof. induction 1 as [|o d os ds H F IH]; [reflexivity|]. cbn [map]. rewrite IH. f_equal. destruct H as [-> | ->]; reflexivity. Qed.
Lemma length_row_blocks s ms : length (row_blocks s ms) = length ms.
Proof. revert s. induction ms; intros s; [reflexivity|]. cbn [row_blocks length]. now rewrite IHms. Qed.

Lemma single_not_good (c : list Z) : match c with [x] => negb (x =? zsum c) | _ => false end = false.
Proof. destruct c as [|x [|y c]]; try reflexivity. cbn [zsum fold_right]. rewrite Z.add_0_r, Z.eqb_refl. reflexivity. Qed.

Lemma mapM_nth {A B} (f : nat -> res B) (g : A -> B) (l : list A) :
  forall s, (forall q a, nth_error l q = Some a -> f (s + q)%nat = Ok (g a)) -> mapM f (seq s (length l)) = Ok (map g l).
Proof.
  induction l as [|a l IH]; intros s H; [reflexivity|]. cbn [length seq mapM map].
  pose proof (H 0%nat a eq_refl) as H0. rewrite Nat.add_0_r in H0. rewrite H0. cbn [bind]. rewrite IH; [reflexivity|].
  intros q b Hq. rewrite Nat.add_succ_comm. apply (H (S q)). exact Hq.
Qed.

(** the answer, once the row chunks are known *)
Lemma wrapper_chunks {T G} (func : Z -> Z -> G -> list (barg T) -> res (ndarray T * ndarray T)) g coarse fine rps pp os o d ds n w ms :
  rows_per_scan_for_resolution coarse = Ok rps -> (fine = 250 /\ pp = 4 \/ fine = 500 /\ pp = 2 \/ fine = 1000 /\ pp = 1) ->
  dask_obj o d -> Forall2 dask_obj os ds ->
  Forall (fun e => drows e = n /\ dcols e = w) (d :: ds) -> 1 <= w -> 0 <= n -> n mod rps = 0 -> blockdims n (nth 0 (drow d) 0 / rps * rps) = Ok ms ->
    wrapper func g (Some coarse) (Some fine) (o :: os) =
    Ok (Lazy {| z_dt := ddt d; z_rows := map (fun m => m * (coarse / fine)) ms; z_cols := 1354 * pp; z_func := func coarse fine;
                z_tasks := map (fun b => map (fun e => BArr (rows_wide w e b)) (d :: ds)) (row_blocks 0 ms) |} (has_dims o)).
Proof.
  intros Hrps Hfine Ho Hos Hds Hw Hn Hm Bd.
  assert (Hd : drows d = n /\ dcols d = w) by (inversion Hds; assumption). destruct Hd as [Dn Dw].
  assert (F0 : first_array (o :: os) = Ok o) by (destruct Ho as [-> | ->]; reflexivity).
  unfold wrapper. rewrite F0. cbn [bind].
  replace (ndim o) with 2 by (destruct Ho as [-> | ->]; reflexivity). cbn [Z.eqb Pos.eqb negb].
  replace (has_compute o) with true by (destruct Ho as [-> | ->]; reflexivity). rewrite Hrps. cbn [bind].
  rewrite (extract_dask (o :: os) (d :: ds)) by (constructor; assumption).
  unfold rechunk_if_needed. cbn [map first_array filter has_ndim bind].
  rewrite Dn, Hm. cbn [Z.eqb negb].
  rewrite (single_not_good (dcol d) : match dcol d with [c] => negb (c =? dcols d) | _ => false end = false). rewrite andb_false_r. cbn [andb].
  set (re := fun e : darr T => {| ddt := ddt e; drow := ms; dcol := [w]; dat := dat e |}).
  assert (M : mapM (fun o => match o with Arr (DA d0) => let* d' := rechunk (nth 0 (drow d) 0 / rps * rps) d0 in Ok (Arr (DA d')) | _ => Ok o end)
      (map (fun e => Arr (DA e)) (d :: ds)) = Ok (map (fun e => Arr (DA (re e))) (d :: ds))).
  { clear - Hds Bd Hw. revert Hds. generalize (d :: ds). induction l as [|e l IH]; intros Hds; [reflexivity|]. apply Forall_cons_iff in Hds. destruct Hds as [[A B] F]. cbn [map mapM].
    unfold rechunk at 1. rewrite A, B. replace (w =? 0) with false by (symmetry; apply Z.eqb_neq; lia). rewrite andb_false_r.
    rewrite Bd. cbn [bind]. rewrite IH by exact F. reflexivity. }
  cbn [map] in M. rewrite M. clear M. cbn [bind].
  unfold call_map_blocks. cbn [map first_array filter has_ndim bind].
  replace (fine =? 0) with false by (destruct Hfine as [[-> _]|[[-> _]|[-> _]]]; reflexivity).
  replace (if fine =? 250 then Ok 4 else if fine =? 500 then Ok 2 else if fine =? 1000 then Ok 1 else Err KeyError) with (@Ok Z pp)
    by (destruct Hfine as [[-> ->]|[[-> ->]|[-> ->]]]; reflexivity).
  cbn [bind re drow ddt].
  change (Arr (DA (re d)) :: map (fun e => Arr (DA (re e))) ds) with (map (fun e => Arr (DA (re e))) (d :: ds)).
  rewrite <- (length_row_blocks 0 ms).
  rewrite (mapM_nth _ (fun b => map (fun e => BArr (rows_wide w e b)) (d :: ds)) (row_blocks 0 ms)); [reflexivity|].
  cbn [Nat.add]. intros q b Hq. rewrite length_row_blocks. clear - Hds Hq. revert Hds. generalize (d :: ds).
  induction l as [|e l IH]; intros Hds; [reflexivity|]. apply Forall_cons_iff in Hds. destruct Hds as [[A B] F]. cbn [map mapM]. unfold block_arg at 1. cbn [re drow dcol].
  rewrite length_row_blocks, Hq. cbn [length]. rewrite !Nat.eqb_refl. cbn [negb bind]. rewrite IH by exact F. cbn [bind].
  replace (rows_of (re e) b) with (rows_wide w e b); [reflexivity|].
  unfold rows_of, rows_wide, dcols, re. cbn [ddt dat dcol zsum fold_right]. rewrite Z.add_0_r. reflexivity.
Qed.
Theorem wrapper_lazy {T G} (func : Z -> Z -> G -> list (barg T) -> res (ndarray T * ndarray T)) g coarse fine rps pp os o d ds n w :
  rows_per_scan_for_resolution coarse = Ok rps -> (fine = 250 /\ pp = 4 \/ fine = 500 /\ pp = 2 \/ fine = 1000 /\ pp = 1) ->
  dask_obj o d -> Forall2 dask_obj os ds ->
  Forall (fun e => drows e = n /\ dcols e = w) (d :: ds) -> 1 <= w -> 0 <= n -> n mod rps = 0 -> n = 0 \/ rps <= nth 0 (drow d) 0 ->
  exists ms, whole rps ms /\ zsum ms = n /\ ms <> [] /\ (0 < n -> Forall (fun m => 0 < m) ms) /\
    wrapper func g (Some coarse) (Some fine) (o :: os) =
    Ok (Lazy {| z_dt := ddt d; z_rows := map (fun m => m * (coarse / fine)) ms; z_cols := 1354 * pp; z_func := func coarse fine;
                z_tasks := map (fun b => map (fun e => BArr (rows_wide w e b)) (d :: ds)) (row_blocks 0 ms) |} (has_dims o)).
Proof.
  intros Hrps Hfine Ho Hos Hds Hw Hn Hm Hc.
  assert (R1 : 1 <= rps).
  { unfold rows_per_scan_for_resolution in Hrps. repeat (match type of Hrps with (if ?b then _ else _) = _ => destruct b end; [injection Hrps; lia|]). discriminate. }
  destruct (blockdims_ok rps n (nth 0 (drow d) 0) R1 Hn Hm Hc) as (ms & Bd & Wh & Sm & Ne & Pos).
  exists ms. do 4 (split; [assumption|]).
  eapply wrapper_chunks; eassumption.
Qed.
Print Assumptions wrapper_lazy.

(** ** Computing it *)
Definition block_of {T} (dt : dtype) (f W : Z) (L : Z -> Z -> T) (b : Z * Z) (a : ndarray T) : Prop :=
  adt a = dt /\ arows a = f * snd b /\ acols a = W /\ forall i j, 0 <= i < f * snd b -> 0 <= j < W -> aat a i j = L (f * fst b + i) j.
Lemma stack_ok {T} dt f W (L : Z -> Z -> T) ms : 0 <= f -> Forall (fun m => 0 <= m) ms -> ms <> [] -> forall s l,
  Forall2 (block_of dt f W L) (row_blocks s ms) l -> exists A, stack l = Ok A /\ block_of dt f W L (s, zsum ms) A.
Proof.
  intros Hf Hms. induction Hms as [|m ms Hm Hms IH]; [congruence|]. intros _ s l F. cbn [row_blocks] in F.
  inversion F as [|? a ? l' BA F']. subst l. destruct BA as (A1 & A2 & A3 & A4). cbn [fst snd] in *.
  destruct ms as [|m' ms'].
  - cbn [row_blocks] in F'. inversion F'. subst l'. exists a. cbn [stack zsum fold_right]. rewrite Z.add_0_r. split; [reflexivity|]. repeat split; assumption.
  - destruct (IH ltac:(discriminate) _ _ F') as (B & E & B1 & B2 & B3 & B4). cbn [fst snd] in *.
    destruct l' as [|a' l']; [cbn [row_blocks] in F'; inversion F'|]. cbn [stack]. fold (@stack T). cbn [stack] in E. rewrite E. cbn [bind].
    rewrite A3, B3. rewrite Z.eqb_refl. eexists. split; [reflexivity|]. unfold block_of. cbn [adt arows acols aat fst snd].
    change (zsum (m :: m' :: ms')) with (m + zsum (m' :: ms')). split; [exact A1|]. split; [rewrite A2, B2; ring|]. split; [reflexivity|].
    intros i j Hi Hj. rewrite A2. destruct (Z.ltb_spec i (f * m)).
    + apply A4; lia.
    + rewrite B4 by lia. f_equal. ring.
Qed.

Lemma run_ok {T G} (func : G -> list (barg T) -> res (ndarray T * ndarray T)) (gs : nat -> G) {B} (args : B -> list (barg T)) (bs : list B)
    (good : B -> ndarray T * ndarray T -> Prop) :
  (forall g b, In b bs -> exists r, func g (args b) = Ok r /\ good b r) ->
  forall order p, (forall q, In q order -> (q < length bs)%nat) ->
  exists store, run_blocks func gs (map args bs) p order = Ok store /\
    forall q b, In q order -> nth_error bs q = Some b -> exists r, stored store q = Ok r /\ good b r.
Proof.
  intros H order. induction order as [|q rest IH]; intros p Hq.
  - exists []. split; [reflexivity|]. intros q b [].
  - destruct (IH (S p)) as (store & E & V); [intros q' I; apply Hq; now right|].
    destruct (nth_error bs q) as [b|] eqn:Eb; [|apply nth_error_None in Eb; pose proof (Hq q (or_introl eq_refl)); lia].
    destruct (H (gs p) b (nth_error_In _ _ Eb)) as (r & Er & Gr).
    exists ((q, r) :: store). cbn [run_blocks]. rewrite nth_error_map, Eb. cbn [option_map]. rewrite Er. cbn [bind]. rewrite E. split; [reflexivity|].
    intros q' b' I Eb'. unfold stored. cbn [find fst]. destruct (Nat.eqb_spec q q') as [->|D].
    + exists r. split; [reflexivity|]. rewrite Eb in Eb'. injection Eb' as ->. exact Gr.
    + destruct I as [->|I]; [contradiction|]. destruct (V q' b' I Eb') as (r' & Er' & Gr'). exists r'. split; [exact Er'|exact Gr'].
Qed.
Lemma stored_all {T B} (good : B -> ndarray T * ndarray T -> Prop) store : forall (bs : list B) s,
  (forall q b, nth_error bs q = Some b -> exists r, stored store (s + q) = Ok r /\ good b r) ->
  exists rs, mapM (stored store) (seq s (length bs)) = Ok rs /\ Forall2 good bs rs.
Proof.
  induction bs as [|b bs IH]; intros s H; [exists []; split; [reflexivity|constructor]|].
  destruct (H 0%nat b eq_refl) as (r & E & Gr). rewrite Nat.add_0_r in E.
  destruct (IH (S s)) as (rs & E' & F); [intros q b' Hq; rewrite Nat.add_succ_comm; apply (H (S q)); exact Hq|].
  exists (r :: rs). cbn [length seq mapM]. rewrite E. cbn [bind]. rewrite E'. split; [reflexivity|]. constructor; assumption.
Qed.

Theorem computed_ok {T G} (gs : nat -> G) (args : Z * Z -> list (barg T)) ms order (l : lazyres T G)
    dt f W (Lo La : Z -> Z -> T) :
  0 <= f -> Forall (fun m => 0 <= m) ms -> ms <> [] ->
  z_tasks l = map args (row_blocks 0 ms) -> Permutation order (seq 0 (length (z_tasks l))) ->
  (forall g b, In b (row_blocks 0 ms) -> exists r, z_func l g (args b) = Ok r /\ block_of dt f W Lo b (fst r) /\ block_of dt f W La b (snd r)) ->
  exists olon olat, computed gs order l = Ok (olon, olat) /\ block_of dt f W Lo (0, zsum ms) olon /\ block_of dt f W La (0, zsum ms) olat.
Proof.
  intros Hf Hms Ne Ht Hp H. unfold computed. rewrite Ht in *. rewrite map_length in *.
  destruct (run_ok (z_func l) gs args (row_blocks 0 ms) (fun b r => block_of dt f W Lo b (fst r) /\ block_of dt f W La b (snd r)) H order 0%nat) as (store & E & V).
  { intros q I. apply (Permutation_in _ Hp) in I. apply in_seq in I. lia. }
  rewrite E. cbn [bind].
  destruct (stored_all (fun b r => block_of dt f W Lo b (fst r) /\ block_of dt f W La b (snd r)) store (row_blocks 0 ms) 0%nat) as (rs & E' & F).
  { intros q b Hq. apply V; [|exact Hq]. apply (Permutation_in _ (Permutation_sym Hp)). apply in_seq. split; [lia|]. cbn. apply nth_error_Some. congruence. }
  rewrite E'. cbn [bind].
  destruct (stack_ok dt f W Lo ms Hf Hms Ne 0 (map fst rs)) as (A & EA & BA).
  { clear - F. induction F as [|b r bs rs [X Y] F IH]; constructor; assumption. }
  destruct (stack_ok dt f W La ms Hf Hms Ne 0 (map snd rs)) as (B & EB & BB).
  { clear - F. induction F as [|b r bs rs [X Y] F IH]; constructor; assumption. }
  rewrite EA. cbn [bind]. rewrite EB. cbn [bind]. eauto.
Qed.
Print Assumptions computed_ok.

(** blocks start and end at whole scans *)
Lemma row_blocks_in rps : 1 <= rps -> forall ms s, whole rps ms -> 0 <= s -> s mod rps = 0 -> forall b, In b (row_blocks s ms) ->
  s <= fst b /\ 0 <= snd b /\ fst b mod rps = 0 /\ snd b mod rps = 0 /\ fst b + snd b <= s + zsum ms.
Proof.
  intros Hr. induction ms as [|m ms IH]; intros s Hw Hs Hm b I; [destruct I|]. inversion Hw as [|? ? [M1 M2] W]; subst. cbn [row_blocks] in I.
  assert (0 <= zsum ms) by (apply zsum_nonneg; eapply Forall_impl; [|exact W]; cbn; lia).
  change (zsum (m :: ms)) with (m + zsum ms). destruct I as [<-|I]; [cbn [fst snd]; repeat split; lia|].
  destruct (IH (s + m) W ltac:(lia)) with (b := b) as (A & B & C & D & E); [|exact I|repeat split; try lia; assumption].
  rewrite Z.add_mod, Hm, M2 by lia. reflexivity.
Qed.
