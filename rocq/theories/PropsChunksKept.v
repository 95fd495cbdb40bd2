(** C155: the chunks of lazy results. *)
From Coq Require Import ZArith List Bool Lia Permutation.
From Verif Require Import Base Num Geo Mem Modis ModisProofs SimpleModis SimpleModisProofs Mapblocks MapblocksProofs PropsModis PropsSimple PropsMapblocks.
Import ListNotations.
Open Scope Z_scope.

(** ** Specification *)
(** chunks of c rows, the last one possibly smaller *)
Definition regular (c : Z) (cs : list Z) : Prop := exists q r, cs = repeat c q ++ r /\ (r = [] \/ exists m, r = [m] /\ 0 < m < c).
(** every chunk holds whole scans *)
Definition whole_scans (rps : Z) (cs : list Z) : Prop := Forall (fun c => 0 < c /\ c mod rps = 0) cs.
(** the number of rows of the whole scans that fit into the first chunk of an array *)
Definition scans_of_first {T} (rps : Z) (d : darr T) : Z := nth 0 (drow d) 0 - nth 0 (drow d) 0 mod rps.

(** ** Regular chunks are determined by their size and sum *)
Lemma regular_blockdims c n cs : 0 < c -> 0 < n -> regular c cs -> zsum cs = n -> blockdims n c = Ok cs.
Proof.
  intros Hc Hn (q & r & -> & Hr) Hs. rewrite zsum_app, zsum_repeat in Hs. unfold blockdims.
  destruct (Z.eqb_spec n 0) as [?|_]; [lia|]. destruct (Z.eqb_spec c 0) as [?|_]; [lia|]. f_equal.
  destruct Hr as [-> | (m & -> & Hm)].
  - cbn [zsum fold_right] in Hs. assert (En : n = Z.of_nat q * c) by lia.
    rewrite En, Z_div_mult, Z_mod_mult, Nat2Z.id by lia. reflexivity.
  - cbn [zsum fold_right] in Hs. assert (Ed : n / c = Z.of_nat q) by (symmetry; apply (Z.div_unique_pos _ _ _ m); lia).
    assert (Em : n mod c = m) by (symmetry; apply (Z.mod_unique_pos _ _ (Z.of_nat q)); lia).
    rewrite Ed, Em, Nat2Z.id. destruct (Z.eqb_spec m 0); [lia|reflexivity].
Qed.
Lemma blockdims_regular n c ms : 0 < c -> 0 < n -> blockdims n c = Ok ms -> regular c ms.
Proof.
  intros Hc Hn H. unfold blockdims in H. destruct (Z.eqb_spec n 0) as [?|_]; [lia|]. destruct (Z.eqb_spec c 0) as [?|_]; [lia|].
  injection H as <-. exists (Z.to_nat (n / c)), (if n mod c =? 0 then [] else [n mod c]). split; [reflexivity|].
  pose proof (Z.mod_pos_bound n c Hc). destruct (Z.eqb_spec (n mod c) 0); [now left|right]. exists (n mod c). split; [reflexivity|lia].
Qed.
Lemma regular_scale f c cs : 0 < f -> regular c cs -> regular (f * c) (map (fun m => m * f) cs).
Proof.
  intros Hf (q & r & -> & Hr). rewrite map_app. exists q, (map (fun m => m * f) r). split.
  - f_equal. clear. induction q as [|q IH]; [reflexivity|]. cbn [repeat map]. rewrite IH. f_equal. ring.
  - destruct Hr as [-> | (m & -> & Hm)]; [now left|right]. exists (m * f). split; [reflexivity|nia].
Qed.

(** ** The answer of the two entry points, once the chunks are known *)
Lemma modis_chunks {T} {N : NumOps T} k g n w lon lat satz (dlon dlat dsatz : darr T) ms :
  std_width k w -> 0 < n -> n mod scan_len k = 0 -> dask3 n w lon lat satz dlon dlat dsatz ->
  blockdims n (nth 0 (drow dlon) 0 / scan_len k * scan_len k) = Ok ms ->
  exists l x, modis_any k g lon lat satz = Ok (Lazy l x) /\ z_rows l = map (fun m => m * factor k) ms.
Proof.
  intros Hw Hn Hm (H1 & H2 & H3) Bd.
  assert (D : forall (o : obj T) (d : darr T), chunked Float32 n w o d -> dask_obj o d /\ drows d = n /\ dcols d = w) by (intros o d (A & _ & B & C); repeat split; assumption).
  destruct (D _ _ H1) as (O1 & N1), (D _ _ H2) as (O2 & N2), (D _ _ H3) as (O3 & N3).
  pose proof (wrapper_chunks (modis_func (if is_1km k then 0 else w)) g (coarse_of k) (fine_of k) (scan_len k) (fine_width k / 1354) [lat; satz] lon dlon [dlat; dsatz] n w ms) as E.
  assert (E' := E ltac:(destruct k; reflexivity) ltac:(destruct k; cbn; auto) O1 (Forall2_cons _ _ O2 (Forall2_cons _ _ O3 (Forall2_nil _)))
    (Forall_cons _ N1 (Forall_cons _ N2 (Forall_cons _ N3 (Forall_nil _)))) ltac:(destruct k; cbn in Hw; lia) ltac:(lia) Hm Bd). clear E.
  replace (coarse_of k / fine_of k) with (factor k) in E' by (destruct k; reflexivity).
  match type of E' with _ = Ok (Lazy ?l ?x) => exists l, x end. split; [|reflexivity].
  unfold modis_any. replace (modis_width k lon) with (@Ok Z (if is_1km k then 0 else w)); [exact E'|].
  destruct H1 as ([-> | ->] & _ & _ & W); destruct k; cbn; unfold dcols; rewrite ?W; reflexivity.
Qed.
Lemma simple_chunks {T} {N : NumOps T} k g dt n w lon lat (dlon dlat : darr T) ms :
  1 <= w -> 0 < n -> n mod 10 = 0 -> dask2 dt n w lon lat dlon dlat -> blockdims n (nth 0 (drow dlon) 0 / 10 * 10) = Ok ms ->
  exists l x, simple_any (fine_px k) g lon lat = Ok (Lazy l x) /\ z_rows l = map (fun m => m * fac2 k) ms.
Proof.
  intros Hw Hn Hm (H1 & H2) Bd.
  assert (D : forall (o : obj T) (d : darr T), chunked dt n w o d -> dask_obj o d /\ drows d = n /\ dcols d = w) by (intros o d (A & _ & B & C); repeat split; assumption).
  destruct (D _ _ H1) as (O1 & N1), (D _ _ H2) as (O2 & N2).
  pose proof (wrapper_chunks simple_func g 1000 (fine_px k) 10 (fac2 k) [lat] lon dlon [dlat] n w ms eq_refl ltac:(destruct k; cbn; auto) O1
    (Forall2_cons _ _ O2 (Forall2_nil _)) (Forall_cons _ N1 (Forall_cons _ N2 (Forall_nil _))) Hw ltac:(lia) Hm Bd) as E.
  replace (1000 / fine_px k) with (fac2 k) in E by (destruct k; reflexivity).
  eexists _, _. split; [exact E|reflexivity].
Qed.

Lemma first_scans {T} rps (d : darr T) : 0 < rps -> nth 0 (drow d) 0 / rps * rps = scans_of_first rps d.
Proof. intros. unfold scans_of_first. rewrite Z.mod_eq by lia. ring. Qed.
Lemma scans_pos {T} rps (d : darr T) : 0 < rps -> first_holds rps d -> 0 < scans_of_first rps d.
Proof. intros R F. rewrite <- first_scans by exact R. unfold first_holds in F. pose proof (Z.div_le_lower_bound (nth 0 (drow d) 0) rps 1 R ltac:(lia)) as Q. nia. Qed.
Lemma layout_blockdims {T} rps n (d : darr T) : 0 < rps -> 0 < n -> first_holds rps d ->
  exists ms, blockdims n (nth 0 (drow d) 0 / rps * rps) = Ok ms /\ regular (scans_of_first rps d) ms.
Proof.
  intros R Hn F. pose proof (scans_pos rps d R F) as P. rewrite first_scans by exact R.
  assert (B : exists ms, blockdims n (scans_of_first rps d) = Ok ms).
  { unfold blockdims. destruct (n =? 0); [eauto|]. destruct (Z.eqb_spec (scans_of_first rps d) 0); [lia|eauto]. }
  destruct B as (ms & B). exists ms. split; [exact B|]. exact (blockdims_regular n _ ms P Hn B).
Qed.

(** C155: the chunks of the result are those of a regular chunking, whatever the chunks of the arguments: the size comes from the first chunk of the first argument alone. *)
Theorem C155_modis_layout : forall {T} {N : NumOps T} k g n w lon lat satz (dlon dlat dsatz : darr T),
  std_width k w -> 0 < n -> n mod scan_len k = 0 -> first_holds (scan_len k) dlon -> dask3 n w lon lat satz dlon dlat dsatz ->
  exists l x, modis_any k g lon lat satz = Ok (Lazy l x) /\ regular (factor k * scans_of_first (scan_len k) dlon) (z_rows l) /\ zsum (z_rows l) = factor k * n.
Proof.
  intros T N k g n w lon lat satz dlon dlat dsatz Hw Hn Hm F D.
  destruct (layout_blockdims (scan_len k) n dlon ltac:(destruct k; cbn; lia) Hn F) as (ms & B & R).
  destruct (modis_chunks k g n w lon lat satz dlon dlat dsatz ms Hw Hn Hm D B) as (l & x & E & Z).
  destruct (modis_lazy k g n w lon lat satz dlon dlat dsatz) as (_ & _ & l' & _ & E' & _ & (_ & _ & _ & S & _) & _); auto; [lia|].
  rewrite E in E'. injection E' as <- _.
  exists l, x. split; [exact E|]. split; [|exact S]. rewrite Z. apply regular_scale; [destruct k; reflexivity|exact R].
Qed.
Print Assumptions C155_modis_layout.
Theorem C155_simple_layout : forall {T} {N : NumOps T} k g dt n w lon lat (dlon dlat : darr T),
  dt <> OtherDtype -> 2 <= w -> 0 < n -> n mod 10 = 0 -> first_holds 10 dlon -> dask2 dt n w lon lat dlon dlat ->
  exists l x, simple_any (fine_px k) g lon lat = Ok (Lazy l x) /\ regular (fac2 k * scans_of_first 10 dlon) (z_rows l) /\ zsum (z_rows l) = fac2 k * n.
Proof.
  intros T N k g dt n w lon lat dlon dlat Hdt Hw Hn Hm F D.
  destruct (layout_blockdims 10 n dlon ltac:(lia) Hn F) as (ms & B & R).
  destruct (simple_chunks k g dt n w lon lat dlon dlat ms ltac:(lia) Hn Hm D B) as (l & x & E & Z).
  destruct (simple_lazy k g dt n w lon lat dlon dlat) as (_ & _ & l' & _ & E' & _ & (_ & _ & _ & S & _) & _); auto; [lia|].
  rewrite E in E'. injection E' as <- _.
  exists l, x. split; [exact E|]. split; [|exact S]. rewrite Z. apply regular_scale; [destruct k; reflexivity|exact R].
Qed.
Print Assumptions C155_simple_layout.

(** Chunks of whole scans are kept. The full statement asks this of every chunking into whole scans (see C155_refuted); it holds for regular ones. *)
Lemma kept_blockdims {T} rps n c (d : darr T) : 0 < rps -> 0 < n -> zsum (drow d) = n -> whole_scans rps (drow d) -> regular c (drow d) -> nth 0 (drow d) 0 = c ->
  blockdims n (nth 0 (drow d) 0 / rps * rps) = Ok (drow d).
Proof.
  intros R Hn S W Rg H0. assert (Hc : 0 < c /\ c mod rps = 0).
  { destruct (drow d) as [|a l] eqn:E; [cbn in S; lia|]. cbn [nth] in H0. subst a. apply Forall_inv in W. exact W. }
  rewrite H0. replace (c / rps * rps) with c by (pose proof (Z.div_mod c rps ltac:(lia)); lia). apply regular_blockdims; tauto.
Qed.
Theorem C155_modis_kept_partial : forall {T} {N : NumOps T} k g n w lon lat satz (dlon dlat dsatz : darr T),
  std_width k w -> 0 < n -> dask3 n w lon lat satz dlon dlat dsatz ->
  whole_scans (scan_len k) (drow dlon) -> regular (nth 0 (drow dlon) 0) (drow dlon) ->
  exists l x, modis_any k g lon lat satz = Ok (Lazy l x) /\ z_rows l = map (fun m => m * factor k) (drow dlon).
Proof.
  intros T N k g n w lon lat satz dlon dlat dsatz Hw Hn D W R.
  assert (S : zsum (drow dlon) = n) by apply D.
  assert (R1 : 0 < scan_len k) by (destruct k; reflexivity).
  apply (modis_chunks k g n w lon lat satz dlon dlat dsatz); auto.
  - rewrite <- S. clear - W R1. induction W as [|a l [_ A] W IH]; [apply Z.mod_0_l; lia|].
    change (zsum (a :: l)) with (a + zsum l). rewrite Z.add_mod, A, IH by lia. apply Z.mod_0_l; lia.
  - eapply kept_blockdims; eauto.
Qed.
Print Assumptions C155_modis_kept_partial.
Theorem C155_simple_kept_partial : forall {T} {N : NumOps T} k g dt n w lon lat (dlon dlat : darr T),
  1 <= w -> 0 < n -> dask2 dt n w lon lat dlon dlat -> whole_scans 10 (drow dlon) -> regular (nth 0 (drow dlon) 0) (drow dlon) ->
  exists l x, simple_any (fine_px k) g lon lat = Ok (Lazy l x) /\ z_rows l = map (fun m => m * fac2 k) (drow dlon).
Proof.
  intros T N k g dt n w lon lat dlon dlat Hw Hn D W R.
  assert (S : zsum (drow dlon) = n) by apply D.
  apply (simple_chunks k g dt n w lon lat dlon dlat); auto.
  - rewrite <- S. clear - W. induction W as [|a l [_ A] W IH]; [reflexivity|].
    change (zsum (a :: l)) with (a + zsum l). rewrite Z.add_mod, A, IH by lia. reflexivity.
  - eapply kept_blockdims; eauto. lia.
Qed.
Print Assumptions C155_simple_kept_partial.

(** Identical chunks of whole scans in all three arguments, one chunk of columns: the blocks are laid out anew nevertheless, merged or split. *)
Theorem C155_refuted : exists k cs cs', std_width k 1354 /\ whole_scans (scan_len k) cs /\ whole_scans (scan_len k) cs' /\
  forall T (N : NumOps T) g (v : T),
    (exists l x, let o := Arr (DA (const_dask Float32 cs [1354] v)) in modis_any k g o o o = Ok (Lazy l x) /\ (length (z_rows l) < length cs)%nat) /\
    (exists l x, let o := Arr (DA (const_dask Float32 cs' [1354] v)) in modis_any k g o o o = Ok (Lazy l x) /\ (length cs' < length (z_rows l))%nat).
Proof.
  exists M1km_500m, [20; 10; 10], [10; 20]. split; [reflexivity|].
  split; [repeat constructor|]. split; [repeat constructor|]. intros T N g v.
  split; cbv zeta.
  - set (d := const_dask Float32 [20; 10; 10] [1354] v).
    destruct (modis_chunks M1km_500m g 40 1354 (Arr (DA d)) (Arr (DA d)) (Arr (DA d)) d d d [20; 20]) as (l & x & E & Z); try reflexivity; [repeat split; now left|].
    exists l, x. split; [exact E|]. rewrite Z. cbn. lia.
  - set (d := const_dask Float32 [10; 20] [1354] v).
    destruct (modis_chunks M1km_500m g 30 1354 (Arr (DA d)) (Arr (DA d)) (Arr (DA d)) d d d [10; 10; 10]) as (l & x & E & Z); try reflexivity; [repeat split; now left|].
    exists l, x. split; [exact E|]. rewrite Z. cbn. lia.
Qed.
Print Assumptions C155_refuted.

(** the hypotheses at work: 70 rows in chunks of 30, 30 and 10; the other arguments are chunked otherwise *)
Example C155_case : let d := const_dask Float32 [30; 30; 10] [1354] tt in let e := const_dask Float32 [5; 65] [1000; 354] tt in
  whole_scans 10 (drow d) /\ regular (nth 0 (drow d) 0) (drow d) /\ dask3 70 1354 (Arr (DA d)) (XArr (DA e)) (Arr (DA e)) d e e /\
  map (fun m => m * factor M1km_250m) (drow d) = [120; 120; 40].
Proof.
  cbv zeta. split; [repeat constructor|]. split; [|split; [|reflexivity]].
  - exists 2%nat, [10]. split; [reflexivity|right]. exists 10. split; [reflexivity|cbn; lia].
  - repeat split; cbn; auto.
Qed.
(** a first chunk that does not hold whole scans: 70 rows in chunks of 37 and 33 become blocks of 30, 30 and 10 *)
Example C155_layout_case : let d := const_dask Float32 [37; 33] [1354] tt in first_holds 10 d /\ scans_of_first 10 d = 30 /\ regular 30 [30; 30; 10].
Proof.
  cbv zeta. split; [unfold first_holds; cbn; lia|]. split; [reflexivity|]. exists 2%nat, [10]. split; [reflexivity|right]. exists 10. split; [reflexivity|lia].
Qed.
