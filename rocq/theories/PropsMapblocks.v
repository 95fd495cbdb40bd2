(** C41 - C46, C67: MODIS interpolation of chunked arrays and DataArrays. *)
From Coq Require Import ZArith List Bool Lia Permutation Reals Lra.
From Verif Require Import Base Num Geo Mem Modis ModisProofs SimpleModis SimpleModisProofs SimpleModisReal Mapblocks MapblocksProofs PropsModis PropsSimple.
Import ListNotations.
Open Scope Z_scope.

(** ** Specification *)
(** a chunked argument: dask array, or DataArray of one, of n x w elements of type dt, however it is chunked *)
Definition chunked {T} (dt : dtype) (n w : Z) (o : obj T) (d : darr T) : Prop :=
  (o = Arr (DA d) \/ o = XArr (DA d)) /\ ddt d = dt /\ zsum (drow d) = n /\ zsum (dcol d) = w.
(** the same data as a plain array *)
Definition as_plain {T} (d : darr T) : ndarray T := {| adt := ddt d; arows := zsum (drow d); acols := zsum (dcol d); aat := dat d |}.
(** m rows of it from row s on, all columns *)
Definition strip {T} (d : darr T) (s m : Z) : ndarray T :=
  {| adt := ddt d; arows := m; acols := zsum (dcol d); aat := fun i j => dat d (s + i) j |}.
Definition same_array {T} (a b : ndarray T) : Prop :=
  adt a = adt b /\ arows a = arows b /\ acols a = acols b /\ forall i j, 0 <= i < arows a -> 0 <= j < acols a -> aat a i j = aat b i j.
(** the first chunk of rows holds a scan *)
Definition first_holds {T} (rps : Z) (d : darr T) : Prop := rps <= nth 0 (drow d) 0.
(** the tasks get consecutive strips of whole scans of all arrays, from row s to row e *)
Fixpoint tiled {T} (rps : Z) (ds : list (darr T)) (s : Z) (tasks : list (list (barg T))) (e : Z) : Prop :=
  match tasks with
  | [] => s = e
  | t :: l => exists m, 0 < m /\ m mod rps = 0 /\ t = map (fun d => BArr (strip d s m)) ds /\ tiled rps ds (s + m) l e
  end.

(** ** Both kinds of interpolation *)
Lemma rows_wide_strip {T} w (d : darr T) b : zsum (dcol d) = w -> rows_wide w d b = strip d (fst b) (snd b).
Proof. intros <-. reflexivity. Qed.
Lemma tiled_blocks {T} rps w (ds : list (darr T)) : Forall (fun d => zsum (dcol d) = w) ds -> forall ms s, whole rps ms -> Forall (fun m => 0 < m) ms ->
  tiled rps ds s (map (fun b => map (fun e => BArr (rows_wide w e b)) ds) (row_blocks s ms)) (s + zsum ms).
Proof.
  intros Hw. induction ms as [|m ms IH]; intros s W P; [cbn; lia|]. apply Forall_cons_iff in P. destruct P as [P1 P2]. apply Forall_cons_iff in W. destruct W as [W1 W2].
  cbn [row_blocks map tiled]. exists m. split; [exact P1|]. split; [apply W1|]. split.
  - apply map_ext_in. intros d I. rewrite Forall_forall in Hw. rewrite rows_wide_strip by (now apply Hw). reflexivity.
  - change (zsum (m :: ms)) with (m + zsum ms). rewrite Z.add_assoc. apply IH; assumption.
Qed.
Lemma chunked_dask {T} dt n w (o : obj T) d : chunked dt n w o d -> dask_obj o d. Proof. intros [H _]. exact H. Qed.
Lemma nth_map_inv {A B} (f : A -> B) l q y : nth_error (map f l) q = Some y -> exists x, nth_error l q = Some x /\ y = f x.
Proof. rewrite nth_error_map. destruct (nth_error l q); [|discriminate]. injection 1 as <-. eauto. Qed.
Lemma row_blocks_nth ms : forall s q b, nth_error (row_blocks s ms) q = Some b -> nth_error ms q = Some (snd b).
Proof. induction ms; intros s [|q] b H; cbn in *; try discriminate; [injection H as <-; reflexivity|]. eapply IHms, H. Qed.

Lemma lazy_run {T G} (func : Z -> Z -> G -> list (barg T) -> res (ndarray T * ndarray T)) g coarse fine rps pp os o d ds n w dt W (Lo La : Z -> Z -> T) :
  rows_per_scan_for_resolution coarse = Ok rps -> (fine = 250 /\ pp = 4 \/ fine = 500 /\ pp = 2 \/ fine = 1000 /\ pp = 1) -> 0 <= coarse / fine ->
  chunked dt n w o d -> Forall2 (chunked dt n w) os ds -> 1 <= w -> 0 <= n -> n mod rps = 0 -> n = 0 \/ first_holds rps d ->
  (forall g b, 0 <= fst b -> 0 <= snd b -> fst b mod rps = 0 -> snd b mod rps = 0 -> fst b + snd b <= n ->
     exists r, func coarse fine g (map (fun e => BArr (rows_wide w e b)) (d :: ds)) = Ok r /\
       block_of dt (coarse / fine) W Lo b (fst r) /\ block_of dt (coarse / fine) W La b (snd r)) ->
  exists l, wrapper func g (Some coarse) (Some fine) (o :: os) = Ok (Lazy l (has_dims o)) /\
    (0 < n -> tiled rps (d :: ds) 0 (z_tasks l) n) /\
    (z_dt l = dt /\ z_cols l = 1354 * pp /\ length (z_tasks l) = length (z_rows l) /\ zsum (z_rows l) = coarse / fine * n /\
     forall q args m g', nth_error (z_tasks l) q = Some args -> nth_error (z_rows l) q = Some m ->
       exists a b, z_func l g' args = Ok (a, b) /\ adt a = dt /\ adt b = dt /\ arows a = m /\ arows b = m /\ acols a = W /\ acols b = W) /\
    forall gs order, Permutation order (seq 0 (length (z_tasks l))) ->
      exists olon olat, computed gs order l = Ok (olon, olat) /\ block_of dt (coarse / fine) W Lo (0, n) olon /\ block_of dt (coarse / fine) W La (0, n) olat.
Proof.
  intros Hrps Hfine Hf Ho Hos Hw Hn Hm Hc Hb.
  assert (R1 : 1 <= rps).
  { unfold rows_per_scan_for_resolution in Hrps. repeat (match type of Hrps with (if ?b then _ else _) = _ => destruct b end; [injection Hrps; lia|]). discriminate. }
  assert (Hall : Forall (fun e => drows e = n /\ dcols e = w) (d :: ds)).
  { constructor; [split; apply Ho|]. clear - Hos. induction Hos as [|x y l l' H F IH]; constructor; [split; apply H|exact IH]. }
  destruct (wrapper_lazy func g coarse fine rps pp os o d ds n w) as (ms & Wh & Sm & Ne & Pos & E); auto.
  { apply (chunked_dask _ _ _ _ _ Ho). }
  { clear - Hos. induction Hos; constructor; [eapply chunked_dask; eassumption|assumption]. }
  assert (Hin : forall b, In b (row_blocks 0 ms) -> 0 <= fst b /\ 0 <= snd b /\ fst b mod rps = 0 /\ snd b mod rps = 0 /\ fst b + snd b <= n).
  { intros b I. pose proof (row_blocks_in rps R1 ms 0 Wh ltac:(lia) ltac:(apply Z.mod_0_l; lia) b I) as (A1 & A2 & A3 & A4 & A5). repeat split; try assumption; lia. }
  match type of E with _ = Ok (Lazy ?x _) => set (l := x) in E end.
  exists l. split; [exact E|]. split.
  - intros Hp. cbn [l z_tasks]. pose proof (tiled_blocks rps w (d :: ds)) as X. specialize (X ltac:(eapply Forall_impl; [|exact Hall]; intros e [_ Y]; exact Y) ms 0 Wh (Pos Hp)).
    rewrite Z.add_0_l, Sm in X. exact X.
  - split.
    + cbn [l z_dt z_cols z_tasks z_rows z_func]. split; [apply Ho|]. split; [reflexivity|]. split; [rewrite !map_length; apply length_row_blocks|]. split.
      * rewrite <- Sm. clear. induction ms as [|m ms IH]; [cbn; lia|]. cbn [map]. change (m * (coarse / fine) + zsum (map (fun m => m * (coarse / fine)) ms) = coarse / fine * (m + zsum ms)).
        rewrite IH. ring.
      * intros q args m g' Hq Hr. apply nth_map_inv in Hq. destruct Hq as (b & Hq & ->). apply nth_map_inv in Hr. destruct Hr as (m' & Hr & ->).
        pose proof (row_blocks_nth _ _ _ _ Hq) as Hb'. rewrite Hr in Hb'. injection Hb' as ->.
        destruct (Hin b (nth_error_In _ _ Hq)) as (A1 & A2 & A3 & A4 & A5).
        destruct (Hb g' b A1 A2 A3 A4 A5) as ([a c] & Er & (X1 & X2 & X3 & _) & (Y1 & Y2 & Y3 & _)). cbn [fst snd] in *.
        exists a, c. split; [exact Er|]. repeat split; auto; rewrite Z.mul_comm; assumption.
    + intros gs order Hp.
      destruct (computed_ok gs (fun b => map (fun e => BArr (rows_wide w e b)) (d :: ds)) ms order l dt (coarse / fine) W Lo La Hf
        ltac:(eapply Forall_impl; [|exact Wh]; cbn; intros ? []; assumption) Ne eq_refl Hp) as (olon & olat & Ec & B1 & B2).
      { cbn [l z_func]. intros g' b I. destruct (Hin b I) as (A1 & A2 & A3 & A4 & A5). now apply Hb. }
      exists olon, olat. rewrite Sm in B1, B2. auto.
Qed.

(** plain arrays are handed on *)
Lemma modis_eager {T} {N : NumOps T} k g (lon lat satz : ndarray T) :
  modis_any k g (Arr (NP lon)) (Arr (NP lat)) (Arr (NP satz)) = let* r := modis k g lon lat satz in Ok (Eager r).
Proof.
  unfold modis_any, modis. replace (modis_width k (Arr (NP lon))) with (@Ok Z (width_kwarg k lon)) by (destruct k; reflexivity). cbn [bind].
  unfold wrapper. cbn [bind first_array filter has_ndim ndim Z.eqb Pos.eqb negb has_compute map plain_arg]. unfold modis_func. reflexivity.
Qed.

(** ** The blocks of the satellite-angle interpolation *)
Lemma modis_block {T} {N : NumOps T} k g0 n w (dlon dlat dsatz : darr T) olon olat :
  std_width k w -> 0 <= n -> n mod scan_len k = 0 ->
  Forall (fun e => ddt e = Float32 /\ zsum (drow e) = n /\ zsum (dcol e) = w) [dlon; dlat; dsatz] ->
  modis k g0 (as_plain dlon) (as_plain dlat) (as_plain dsatz) = Ok (olon, olat) ->
  forall g b, 0 <= fst b -> 0 <= snd b -> fst b mod scan_len k = 0 -> snd b mod scan_len k = 0 -> fst b + snd b <= n ->
    exists r, modis_func (if is_1km k then 0 else w) (coarse_of k) (fine_of k) g (map (fun e => BArr (rows_wide w e b)) [dlon; dlat; dsatz]) = Ok r /\
      block_of Float32 (coarse_of k / fine_of k) (fine_width k) (aat olon) b (fst r) /\
      block_of Float32 (coarse_of k / fine_of k) (fine_width k) (aat olat) b (snd r).
Proof.
  intros Hw Hn Hm HF O g [s m] Hs Hm0 Hsm Hmm Hle. cbn [fst snd] in *.
  inversion HF as [|? ? (D1 & R1 & C1) HF1]. inversion HF1 as [|? ? (D2 & R2 & C2) HF2]. inversion HF2 as [|? ? (D3 & R3 & C3) _]. clear HF HF1 HF2.
  assert (S0 : shaped Float32 n w (as_plain dlon) (as_plain dlat) (as_plain dsatz)) by (unfold shaped, as_plain; cbn; auto 12).
  assert (S1 : shaped Float32 m w (rows_wide w dlon (s, m)) (rows_wide w dlat (s, m)) (rows_wide w dsatz (s, m))) by (unfold shaped, rows_wide; cbn; auto 12).
  destruct (C48_memory_safe k g m w _ _ _ Hm0 Hw S1) as (a & b & E & SH).
  assert (FK : coarse_of k / fine_of k = factor k) by (destruct k; reflexivity).
  exists (a, b). cbn [map fst snd]. split.
  { unfold modis_func. replace (if is_1km k then 0 else w) with (width_kwarg k (rows_wide w dlon (s, m))) by (destruct k; reflexivity). exact E. }
  assert (K : 2 <= scan_len k /\ 2 <= factor k) by (destruct k; cbn; lia).
  assert (V : forall R i, 0 <= R < factor k * m -> 0 <= i < fine_width k -> aat a R i = aat olon (factor k * s + R) i /\ aat b R i = aat olat (factor k * s + R) i).
  { intros R i HR Hi. set (L := scan_len k) in *. set (F := factor k) in *.
    assert (FL : fine_len k = L * F) by reflexivity.
    pose proof (Z.div_mod s L ltac:(lia)) as Ds. pose proof (Z.div_mod m L ltac:(lia)) as Dm.
    assert (LF : 0 < L * F) by nia. destruct (off_split (L * F) R LF) as [ER HB]. set (u := R / (L * F)) in *. set (r := R mod (L * F)) in *.
    assert (U : 0 <= u < m / L) by (unfold u; split; [apply Z.div_pos; lia|apply Z.div_lt_upper_bound; [lia|nia]]).
    assert (SL : 0 <= s / L) by (apply Z.div_pos; lia).
    assert (SC : forall e : darr T, zsum (dcol e) = w -> same_scan k w u (s / L + u) (rows_wide w e (s, m)) (as_plain e)).
    { intros e _ i0 j Hi0 Hj. unfold rows_wide, as_plain. cbn [aat fst]. fold L. f_equal. nia. }
    destruct (C47_scanwise k g g0 m n w u (s / L + u) _ _ _ _ _ _ a b olon olat Hw S1 S0 ltac:(lia) ltac:(fold L; nia) ltac:(lia) ltac:(fold L; nia)
      (SC dlon C1) (SC dlat C2) (SC dsatz C3) E O r i ltac:(rewrite FL; exact HB) Hi) as [P1 P2].
    rewrite FL in P1, P2. replace (F * s + R) with ((s / L + u) * (L * F) + r) by nia. rewrite ER. split; assumption. }
  destruct SH as (A1 & A2 & _ & A4 & A5 & _ & A7 & A8 & _). rewrite FK.
  split; (split; [assumption|]; split; [cbn [snd]; rewrite ?A4, ?A5; apply Z.mul_comm|]; split; [assumption|]; intros i j Hi Hj; cbn [fst snd] in *; now apply V).
Qed.

Definition dask3 {T} (n w : Z) (lon lat satz : obj T) (dlon dlat dsatz : darr T) : Prop :=
  chunked Float32 n w lon dlon /\ chunked Float32 n w lat dlat /\ chunked Float32 n w satz dsatz.
Lemma modis_lazy {T} {N : NumOps T} k g n w lon lat satz (dlon dlat dsatz : darr T) :
  std_width k w -> 0 <= n -> n mod scan_len k = 0 -> n = 0 \/ first_holds (scan_len k) dlon -> dask3 n w lon lat satz dlon dlat dsatz ->
  exists olon olat l, (forall g0, exists olon0 olat0, modis k g0 (as_plain dlon) (as_plain dlat) (as_plain dsatz) = Ok (olon0, olat0) /\ same_array olon olon0 /\ same_array olat olat0) /\
    modis_any k g lon lat satz = Ok (Lazy l (has_dims lon)) /\
    (0 < n -> tiled (scan_len k) [dlon; dlat; dsatz] 0 (z_tasks l) n) /\
    (z_dt l = Float32 /\ z_cols l = fine_width k /\ length (z_tasks l) = length (z_rows l) /\ zsum (z_rows l) = factor k * n /\
     forall q args m g', nth_error (z_tasks l) q = Some args -> nth_error (z_rows l) q = Some m ->
       exists a b, z_func l g' args = Ok (a, b) /\ adt a = Float32 /\ adt b = Float32 /\ arows a = m /\ arows b = m /\ acols a = fine_width k /\ acols b = fine_width k) /\
    forall gs order, Permutation order (seq 0 (length (z_tasks l))) ->
      exists olon' olat', computed gs order l = Ok (olon', olat') /\ same_array olon olon' /\ same_array olat olat'.
Proof.
  intros Hw Hn Hm Hc (H1 & H2 & H3).
  assert (S0 : shaped Float32 n w (as_plain dlon) (as_plain dlat) (as_plain dsatz)).
  { destruct H1 as (_ & ? & ? & ?), H2 as (_ & ? & ? & ?), H3 as (_ & ? & ? & ?). unfold shaped, as_plain; cbn; auto 12. }
  destruct (C48_memory_safe k g n w _ _ _ Hn Hw S0) as (olon & olat & E & SH). exists olon, olat.
  destruct (lazy_run (modis_func (if is_1km k then 0 else w)) g (coarse_of k) (fine_of k) (scan_len k) (fine_width k / 1354) [lat; satz] lon dlon [dlat; dsatz] n w Float32
    (fine_width k) (aat olon) (aat olat)) as (l & E' & Ti & Sh & C); auto.
  - destruct k; reflexivity.
  - destruct k; cbn; auto.
  - destruct k; cbn; lia.
  - destruct k; cbn in Hw; lia.
  - apply (modis_block k g n w dlon dlat dsatz olon olat); auto.
    destruct H1 as (_ & ? & ? & ?), H2 as (_ & ? & ? & ?), H3 as (_ & ? & ? & ?). repeat constructor; assumption.
  - destruct SH as (A1 & A2 & _ & A4 & A5 & _ & A7 & A8 & _).
    assert (FK : coarse_of k / fine_of k = factor k) by (destruct k; reflexivity). rewrite FK in *.
    exists l. split; [|split; [|split; [exact Ti|split; [|]]]].
    + intros g0. destruct (C48_memory_safe k g0 n w _ _ _ Hn Hw S0) as (olon0 & olat0 & E0 & SH0). exists olon0, olat0. split; [exact E0|].
      destruct SH0 as (B1 & B2 & _ & B4 & B5 & _ & B7 & B8 & _).
      pose proof (C50_computed_partial k g g0 n w _ _ _ olon olat olon0 olat0 Hn Hm Hw S0 E E0) as V.
      split; (repeat split; try congruence); intros i j Hi Hj; apply V; congruence || lia.
    + unfold modis_any. replace (modis_width k lon) with (@Ok Z (if is_1km k then 0 else w)); [exact E'|].
      destruct H1 as ([-> | ->] & _ & _ & D); destruct k; cbn; unfold dcols; rewrite ?D; reflexivity.
    + destruct Sh as (X1 & X2 & X3). split; [exact X1|]. split; [rewrite X2; destruct k; reflexivity|]. exact X3.
    + intros gs order Hp. destruct (C gs order Hp) as (olon' & olat' & Ec & (B1 & B2 & B3 & B4) & (C1 & C2 & C3 & C4)). cbn [fst snd] in *.
      exists olon', olat'. split; [exact Ec|]. split; (split; [congruence|]; split; [rewrite ?A4, ?A5, ?B2, ?C2; apply Z.mul_comm|]; split; [congruence|]);
        intros i j Hi Hj; symmetry; [rewrite B4|rewrite C4]; try (f_equal; lia); rewrite ?A4, ?A5, ?A7, ?A8 in *; lia.
Qed.

(** ** The blocks of the simple interpolation *)
Definition fine_px (k : simple_fn) : Z := match k with To500m => 500 | To250m => 250 end.
Lemma simple_block {T} {N : NumOps T} k g0 dt n w (dlon dlat : darr T) olon olat :
  dt <> OtherDtype -> 2 <= w -> 0 <= n -> n mod 10 = 0 ->
  Forall (fun e => ddt e = dt /\ zsum (drow e) = n /\ zsum (dcol e) = w) [dlon; dlat] ->
  simple k g0 (as_plain dlon) (as_plain dlat) = Ok (olon, olat) ->
  forall g b, 0 <= fst b -> 0 <= snd b -> fst b mod 10 = 0 -> snd b mod 10 = 0 -> fst b + snd b <= n ->
    exists r, simple_func 1000 (fine_px k) g (map (fun e => BArr (rows_wide w e b)) [dlon; dlat]) = Ok r /\
      block_of dt (1000 / fine_px k) (fac2 k * w) (aat olon) b (fst r) /\
      block_of dt (1000 / fine_px k) (fac2 k * w) (aat olat) b (snd r).
Proof.
  intros Hdt Hw Hn Hm HF O g [s m] Hs Hm0 Hsm Hmm Hle. cbn [fst snd] in *.
  inversion HF as [|? ? (D1 & R1 & C1) HF1]. inversion HF1 as [|? ? (D2 & R2 & C2) _]. clear HF HF1.
  assert (S0 : shaped2 dt n w (as_plain dlon) (as_plain dlat)) by (unfold shaped2, as_plain; cbn; auto 12).
  assert (S1 : shaped2 dt m w (rows_wide w dlon (s, m)) (rows_wide w dlat (s, m))) by (unfold shaped2, rows_wide; cbn; auto 12).
  destruct (C58_safe_partial k g dt m w _ _ Hdt Hm0 Hw S1) as (a & b & E & SH).
  assert (FK : 1000 / fine_px k = fac2 k) by (destruct k; reflexivity).
  exists (a, b). cbn [map fst snd]. split; [destruct k; exact E|].
  assert (K : 2 <= fac2 k) by (destruct k; cbn; lia).
  assert (V : forall R i, 0 <= R < fac2 k * m -> 0 <= i < fac2 k * w -> aat a R i = aat olon (fac2 k * s + R) i /\ aat b R i = aat olat (fac2 k * s + R) i).
  { intros R i HR Hi. set (F := fac2 k) in *.
    pose proof (Z.div_mod s 10 ltac:(lia)) as Ds. pose proof (Z.div_mod m 10 ltac:(lia)) as Dm.
    assert (LF : 0 < F * 10) by nia. destruct (off_split (F * 10) R LF) as [ER HB]. set (u := R / (F * 10)) in *. set (r := R mod (F * 10)) in *.
    assert (U : 0 <= u < m / 10) by (unfold u; split; [apply Z.div_pos; lia|apply Z.div_lt_upper_bound; [lia|nia]]).
    assert (SL : 0 <= s / 10) by (apply Z.div_pos; lia).
    assert (SC : forall e : darr T, zsum (dcol e) = w -> same_scan2 w u (s / 10 + u) (rows_wide w e (s, m)) (as_plain e)).
    { intros e _ i0 j Hi0 Hj. unfold rows_wide, as_plain. cbn [aat fst]. f_equal. lia. }
    destruct (C57_scanwise k g g0 dt m n w u (s / 10 + u) _ _ _ _ a b olon olat Hdt Hw S1 S0 ltac:(lia) ltac:(lia) ltac:(lia) ltac:(lia)
      (SC dlon C1) (SC dlat C2) E O r i HB Hi) as [P1 P2].
    fold F in P1, P2. replace (F * s + R) with ((s / 10 + u) * (F * 10) + r) by nia. rewrite ER. split; assumption. }
  destruct SH as (A1 & A2 & A4 & A5 & A7 & A8). rewrite FK.
  split; (split; [assumption|]; split; [assumption|]; split; [assumption|]; intros i j Hi Hj; cbn [fst snd] in *; now apply V).
Qed.
Definition dask2 {T} dt (n w : Z) (lon lat : obj T) (dlon dlat : darr T) : Prop := chunked dt n w lon dlon /\ chunked dt n w lat dlat.
Lemma simple_lazy {T} {N : NumOps T} k g dt n w lon lat (dlon dlat : darr T) :
  dt <> OtherDtype -> 2 <= w -> 0 <= n -> n mod 10 = 0 -> n = 0 \/ first_holds 10 dlon -> dask2 dt n w lon lat dlon dlat ->
  exists olon olat l, (forall g0, exists olon0 olat0, simple k g0 (as_plain dlon) (as_plain dlat) = Ok (olon0, olat0) /\ same_array olon olon0 /\ same_array olat olat0) /\
    simple_any (fine_px k) g lon lat = Ok (Lazy l (has_dims lon)) /\
    (0 < n -> tiled 10 [dlon; dlat] 0 (z_tasks l) n) /\
    (z_dt l = dt /\ z_cols l = fac2 k * 1354 /\ length (z_tasks l) = length (z_rows l) /\ zsum (z_rows l) = fac2 k * n /\
     forall q args m g', nth_error (z_tasks l) q = Some args -> nth_error (z_rows l) q = Some m ->
       exists a b, z_func l g' args = Ok (a, b) /\ adt a = dt /\ adt b = dt /\ arows a = m /\ arows b = m /\ acols a = fac2 k * w /\ acols b = fac2 k * w) /\
    forall gs order, Permutation order (seq 0 (length (z_tasks l))) ->
      exists olon' olat', computed gs order l = Ok (olon', olat') /\ same_array olon olon' /\ same_array olat olat'.
Proof.
  intros Hdt Hw Hn Hm Hc (H1 & H2).
  assert (S0 : shaped2 dt n w (as_plain dlon) (as_plain dlat)).
  { destruct H1 as (_ & ? & ? & ?), H2 as (_ & ? & ? & ?). unfold shaped2, as_plain; cbn; auto 12. }
  destruct (C58_safe_partial k g dt n w _ _ Hdt Hn Hw S0) as (olon & olat & E & SH). exists olon, olat.
  destruct (lazy_run simple_func g 1000 (fine_px k) 10 (fac2 k) [lat] lon dlon [dlat] n w dt
    (fac2 k * w) (aat olon) (aat olat)) as (l & E' & Ti & Sh & C); auto.
  - destruct k; cbn; auto.
  - destruct k; cbn; lia.
  - lia.
  - apply (simple_block k g dt n w dlon dlat olon olat); auto.
    destruct H1 as (_ & ? & ? & ?), H2 as (_ & ? & ? & ?). repeat constructor; assumption.
  - destruct SH as (A1 & A2 & A4 & A5 & A7 & A8).
    assert (FK : 1000 / fine_px k = fac2 k) by (destruct k; reflexivity). rewrite FK in *.
    exists l. split; [|split; [exact E'|split; [exact Ti|split; [|]]]].
    + intros g0. destruct (C58_safe_partial k g0 dt n w _ _ Hdt Hn Hw S0) as (olon0 & olat0 & E0 & SH0). exists olon0, olat0. split; [exact E0|].
      destruct SH0 as (B1 & B2 & B4 & B5 & B7 & B8).
      pose proof (C50_simple_partial k g g0 dt n w _ _ olon olat olon0 olat0 Hdt Hn Hm Hw S0 E E0) as V.
      split; (repeat split; try congruence); intros i j Hi Hj; apply V; congruence || lia.
    + destruct Sh as (X1 & X2 & X3). split; [exact X1|]. split; [rewrite X2; apply Z.mul_comm|]. exact X3.
    + intros gs order Hp. destruct (C gs order Hp) as (olon' & olat' & Ec & (B1 & B2 & B3 & B4) & (C1 & C2 & C3 & C4)). cbn [fst snd] in *.
      exists olon', olat'. split; [exact Ec|]. split; (split; [congruence|]; split; [congruence|]; split; [congruence|]);
        intros i j Hi Hj; symmetry; [rewrite B4|rewrite C4]; try (f_equal; lia); rewrite ?A4, ?A5, ?A7, ?A8 in *; lia.
Qed.

(** C41. The full statement (any chunks) is false; it holds when the first chunk of rows holds a scan. *)
Theorem C41_modis_partial : forall {T} {N : NumOps T} k g n w lon lat satz (dlon dlat dsatz : darr T),
  std_width k w -> 0 < n -> n mod scan_len k = 0 -> first_holds (scan_len k) dlon -> dask3 n w lon lat satz dlon dlat dsatz ->
  exists l x, modis_any k g lon lat satz = Ok (Lazy l x) /\ tiled (scan_len k) [dlon; dlat; dsatz] 0 (z_tasks l) n.
Proof.
  intros. destruct (modis_lazy k g n w lon lat satz dlon dlat dsatz) as (? & ? & l & _ & E & Ti & _); auto; try lia. eauto.
Qed.
Print Assumptions C41_modis_partial.
Theorem C41_simple_partial : forall {T} {N : NumOps T} k g dt n w lon lat (dlon dlat : darr T),
  dt <> OtherDtype -> 2 <= w -> 0 < n -> n mod 10 = 0 -> first_holds 10 dlon -> dask2 dt n w lon lat dlon dlat ->
  exists l x, simple_any (fine_px k) g lon lat = Ok (Lazy l x) /\ tiled 10 [dlon; dlat] 0 (z_tasks l) n.
Proof.
  intros. destruct (simple_lazy k g dt n w lon lat dlon dlat) as (? & ? & l & _ & E & Ti & _); auto; try lia. eauto.
Qed.
Print Assumptions C41_simple_partial.
(** a first chunk with less than a scan is never accepted, although the array has whole scans *)
Lemma small_first {T G} (func : Z -> Z -> G -> list (barg T) -> res (ndarray T * ndarray T)) g coarse fine rps o d os :
  rows_per_scan_for_resolution coarse = Ok rps -> dask_obj o d -> 0 < drows d -> drows d mod rps = 0 -> 0 <= nth 0 (drow d) 0 < rps ->
  wrapper func g (Some coarse) (Some fine) (o :: os) = Err ZeroDivisionError.
Proof.
  intros Hrps Ho Hn Hm Hc. unfold wrapper. replace (first_array (o :: os)) with (Ok o) by (destruct Ho as [-> | ->]; reflexivity). cbn [bind].
  replace (ndim o) with 2 by (destruct Ho as [-> | ->]; reflexivity). cbn [Z.eqb Pos.eqb negb].
  replace (has_compute o) with true by (destruct Ho as [-> | ->]; reflexivity). rewrite Hrps. cbn [bind map].
  replace (extract o) with (Arr (DA d)) by (destruct Ho as [-> | ->]; reflexivity).
  unfold rechunk_if_needed. cbn [first_array filter has_ndim bind]. rewrite Hm. cbn [Z.eqb negb].
  rewrite (single_not_good (dcol d) : match dcol d with [c] => negb (c =? dcols d) | _ => false end = false). rewrite andb_false_r. cbn [andb mapM].
  rewrite (Z.div_small _ _ Hc). unfold rechunk at 1, blockdims. replace (drows d =? 0) with false by (symmetry; apply Z.eqb_neq; lia). reflexivity.
Qed.
Theorem C41_small_first_chunk : forall {T} {N : NumOps T} k g n w lon lat satz (dlon : darr T),
  0 < n -> n mod scan_len k = 0 -> chunked Float32 n w lon dlon -> 0 <= nth 0 (drow dlon) 0 < scan_len k ->
  modis_any k g lon lat satz = Err ZeroDivisionError.
Proof.
  intros T N k g n w lon lat satz dlon Hn Hm (Ho & _ & Dn & Dw) Hc. unfold modis_any.
  assert (E : exists v, modis_width k lon = Ok v) by (destruct Ho as [-> | ->]; destruct k; cbn; eauto). destruct E as [v ->]. cbn [bind].
  apply (small_first _ _ _ _ (scan_len k) _ dlon); auto; try (unfold drows; rewrite Dn; assumption). destruct k; reflexivity.
Qed.
Print Assumptions C41_small_first_chunk.
Definition const_dask {T} (dt : dtype) (rows cols : list Z) (v : T) : darr T := {| ddt := dt; drow := rows; dcol := cols; dat := fun _ _ => v |}.
Theorem C41_refuted : exists k rows cols, zsum rows mod scan_len k = 0 /\ std_width k (zsum cols) /\ Forall (fun c => 0 < c) rows /\
  forall T (N : NumOps T) g (v : T), let d := const_dask Float32 rows cols v in
    modis_any k g (Arr (DA d)) (Arr (DA d)) (Arr (DA d)) = Err ZeroDivisionError.
Proof.
  exists M1km_500m, [5; 15], [1354]. split; [reflexivity|]. split; [reflexivity|]. split; [repeat constructor|]. intros T N g v d.
  apply (C41_small_first_chunk _ _ 20 1354 _ _ _ d); cbn; try lia; repeat split. now left.
Qed.
Print Assumptions C41_refuted.
Example C41_case : std_width M1km_500m (zsum [1000; 354]) /\ first_holds 10 (const_dask Float32 [12; 8; 10] [1000; 354] tt) /\
  dask3 30 1354 (Arr (DA (const_dask Float32 [12; 8; 10] [1000; 354] tt))) (XArr (DA (const_dask Float32 [30] [1354] tt))) (Arr (DA (const_dask Float32 [1; 29] [1354] tt)))
    (const_dask Float32 [12; 8; 10] [1000; 354] tt) (const_dask Float32 [30] [1354] tt) (const_dask Float32 [1; 29] [1354] tt).
Proof. split; [reflexivity|]. split; [unfold first_holds; cbn; lia|]. split; [|split]; (split; [auto|repeat split]). Qed.

(** C42, any arithmetic, whatever is found in memory by any of the tasks, in every order *)
Theorem C42_modis : forall {T} {N : NumOps T} k g g0 n w lon lat satz (dlon dlat dsatz : darr T) olon olat,
  std_width k w -> 0 <= n -> n mod scan_len k = 0 -> n = 0 \/ first_holds (scan_len k) dlon -> dask3 n w lon lat satz dlon dlat dsatz ->
  modis k g0 (as_plain dlon) (as_plain dlat) (as_plain dsatz) = Ok (olon, olat) ->
  exists l, modis_any k g lon lat satz = Ok (Lazy l (has_dims lon)) /\
    forall gs order, Permutation order (seq 0 (length (z_tasks l))) ->
      exists olon' olat', computed gs order l = Ok (olon', olat') /\ same_array olon olon' /\ same_array olat olat'.
Proof.
  intros T N k g g0 n w lon lat satz dlon dlat dsatz olon olat Hw Hn Hm Hc Hd E.
  destruct (modis_lazy k g n w lon lat satz dlon dlat dsatz) as (a & b & l & E0 & E1 & _ & _ & C); auto. exists l. split; [exact E1|].
  intros gs order Hp. destruct (C gs order Hp) as (a' & b' & Ec & S1 & S2). exists a', b'. split; [exact Ec|].
  destruct (E0 g0) as (a0 & b0 & E' & S3 & S4). rewrite E in E'. injection E' as -> ->.
  assert (X : forall x y z : ndarray T, same_array x y -> same_array x z -> same_array y z).
  { intros x y z (P1 & P2 & P3 & P4) (Q1 & Q2 & Q3 & Q4). repeat split; try congruence. intros i j Hi Hj. rewrite <- P4, <- Q4; congruence || lia. }
  split; eapply X; eassumption.
Qed.
Print Assumptions C42_modis.
Theorem C42_simple : forall {T} {N : NumOps T} k g g0 dt n w lon lat (dlon dlat : darr T) olon olat,
  dt <> OtherDtype -> 2 <= w -> 0 <= n -> n mod 10 = 0 -> n = 0 \/ first_holds 10 dlon -> dask2 dt n w lon lat dlon dlat ->
  simple k g0 (as_plain dlon) (as_plain dlat) = Ok (olon, olat) ->
  exists l, simple_any (fine_px k) g lon lat = Ok (Lazy l (has_dims lon)) /\
    forall gs order, Permutation order (seq 0 (length (z_tasks l))) ->
      exists olon' olat', computed gs order l = Ok (olon', olat') /\ same_array olon olon' /\ same_array olat olat'.
Proof.
  intros T N k g g0 dt n w lon lat dlon dlat olon olat Hdt Hw Hn Hm Hc Hd E.
  destruct (simple_lazy k g dt n w lon lat dlon dlat) as (a & b & l & E0 & E1 & _ & _ & C); auto. exists l. split; [exact E1|].
  intros gs order Hp. destruct (C gs order Hp) as (a' & b' & Ec & S1 & S2). exists a', b'. split; [exact Ec|].
  destruct (E0 g0) as (a0 & b0 & E' & S3 & S4). rewrite E in E'. injection E' as -> ->.
  assert (X : forall x y z : ndarray T, same_array x y -> same_array x z -> same_array y z).
  { intros x y z (P1 & P2 & P3 & P4) (Q1 & Q2 & Q3 & Q4). repeat split; try congruence. intros i j Hi Hj. rewrite <- P4, <- Q4; congruence || lia. }
  split; eapply X; eassumption.
Qed.
Print Assumptions C42_simple.

(** C43: before anything is computed, whatever the other arguments are *)
Lemma not_whole {T G} (func : Z -> Z -> G -> list (barg T) -> res (ndarray T * ndarray T)) g coarse fine rps o d os :
  rows_per_scan_for_resolution coarse = Ok rps -> dask_obj o d -> drows d mod rps <> 0 ->
  wrapper func g (Some coarse) fine (o :: os) = Err ValueError.
Proof.
  intros Hrps Ho Hm. unfold wrapper. destruct fine as [fine|]; [|reflexivity].
  replace (first_array (o :: os)) with (Ok o) by (destruct Ho as [-> | ->]; reflexivity). cbn [bind].
  replace (ndim o) with 2 by (destruct Ho as [-> | ->]; reflexivity). cbn [Z.eqb Pos.eqb negb].
  replace (has_compute o) with true by (destruct Ho as [-> | ->]; reflexivity). rewrite Hrps. cbn [bind map].
  replace (extract o) with (Arr (DA d)) by (destruct Ho as [-> | ->]; reflexivity).
  unfold rechunk_if_needed. cbn [first_array filter has_ndim bind].
  replace (drows d mod rps =? 0) with false by (symmetry; now apply Z.eqb_neq). reflexivity.
Qed.
Theorem C43_modis : forall {T} {N : NumOps T} k g dt n w lon lat satz (dlon : darr T),
  chunked dt n w lon dlon -> n mod scan_len k <> 0 -> modis_any k g lon lat satz = Err ValueError.
Proof.
  intros T N k g dt n w lon lat satz dlon (Ho & _ & Dn & _) Hm. unfold modis_any.
  assert (E : exists v, modis_width k lon = Ok v) by (destruct Ho as [-> | ->]; destruct k; cbn; eauto). destruct E as [v ->]. cbn [bind].
  apply (not_whole _ _ _ _ (scan_len k) _ dlon); auto; [destruct k; reflexivity|]. unfold drows. now rewrite Dn.
Qed.
Print Assumptions C43_modis.
Theorem C43_simple : forall {T} {N : NumOps T} fine g dt n w lon lat (dlon : darr T),
  chunked dt n w lon dlon -> n mod 10 <> 0 -> simple_any fine g lon lat = Err ValueError.
Proof.
  intros T N fine g dt n w lon lat dlon (Ho & _ & Dn & _) Hm. unfold simple_any.
  apply (not_whole _ _ _ _ 10 _ dlon); auto. unfold drows. now rewrite Dn.
Qed.
Print Assumptions C43_simple.
Example C43_case : chunked Float32 15 1354 (Arr (DA (const_dask Float32 [10; 5] [1354] tt))) (const_dask Float32 [10; 5] [1354] tt) /\ 15 mod 10 <> 0.
Proof. split; [split; [auto|repeat split]|discriminate]. Qed.

(** C44: type, number of blocks, rows and columns of each block are the announced ones *)
Definition announced {T G} (l : lazyres T G) : Prop :=
  length (z_tasks l) = length (z_rows l) /\
  forall q args m g, nth_error (z_tasks l) q = Some args -> nth_error (z_rows l) q = Some m ->
    exists a b, z_func l g args = Ok (a, b) /\ adt a = z_dt l /\ adt b = z_dt l /\ arows a = m /\ arows b = m /\ acols a = z_cols l /\ acols b = z_cols l.
Theorem C44_modis : forall {T} {N : NumOps T} k g n w lon lat satz (dlon dlat dsatz : darr T),
  std_width k w -> 0 <= n -> n mod scan_len k = 0 -> n = 0 \/ first_holds (scan_len k) dlon -> dask3 n w lon lat satz dlon dlat dsatz ->
  exists l, modis_any k g lon lat satz = Ok (Lazy l (has_dims lon)) /\ announced l /\ zsum (z_rows l) = n * factor k /\ z_cols l = fine_width k.
Proof.
  intros T N k g n w lon lat satz dlon dlat dsatz Hw Hn Hm Hc Hd.
  destruct (modis_lazy k g n w lon lat satz dlon dlat dsatz) as (a & b & l & _ & E1 & _ & (X1 & X2 & X3 & X4 & X5) & _); auto. exists l. split; [exact E1|].
  split; [split; [exact X3|]|split; [lia|exact X2]]. rewrite X1, X2. exact X5.
Qed.
Print Assumptions C44_modis.
(** the simple interpolation takes any width but always announces 1354 pixels per km *)
Theorem C44_simple_partial : forall {T} {N : NumOps T} k g dt n lon lat (dlon dlat : darr T),
  dt <> OtherDtype -> 0 <= n -> n mod 10 = 0 -> n = 0 \/ first_holds 10 dlon -> dask2 dt n 1354 lon lat dlon dlat ->
  exists l, simple_any (fine_px k) g lon lat = Ok (Lazy l (has_dims lon)) /\ announced l /\ zsum (z_rows l) = fac2 k * n /\ z_cols l = fac2 k * 1354.
Proof.
  intros T N k g dt n lon lat dlon dlat Hdt Hn Hm Hc Hd.
  destruct (simple_lazy k g dt n 1354 lon lat dlon dlat) as (a & b & l & _ & E1 & _ & (X1 & X2 & X3 & X4 & X5) & _); auto; try lia. exists l. split; [exact E1|].
  split; [split; [exact X3|]|split; [exact X4|exact X2]]. rewrite X1, X2. exact X5.
Qed.
Print Assumptions C44_simple_partial.
Theorem C44_simple_width : forall {T} {N : NumOps T} k g dt n w lon lat (dlon dlat : darr T),
  dt <> OtherDtype -> 2 <= w -> w <> 1354 -> 0 < n -> n mod 10 = 0 -> first_holds 10 dlon -> dask2 dt n w lon lat dlon dlat ->
  exists l, simple_any (fine_px k) g lon lat = Ok (Lazy l (has_dims lon)) /\ ~ announced l.
Proof.
  intros T N k g dt n w lon lat dlon dlat Hdt Hw Hw' Hn Hm Hc Hd.
  destruct (simple_lazy k g dt n w lon lat dlon dlat) as (a & b & l & _ & E1 & Ti & (X1 & X2 & X3 & X4 & X5) & _); auto; try lia. exists l. split; [exact E1|].
  intros [_ A]. specialize (Ti Hn). destruct (z_tasks l) as [|args ts] eqn:Et; rewrite ?Et in *; [cbn in Ti; lia|]. destruct (z_rows l) as [|m ms] eqn:Er; rewrite ?Er in *; [discriminate|].
  destruct (A 0%nat args m g eq_refl eq_refl) as (u & v & U & _ & _ & _ & _ & U1 & _).
  destruct (X5 0%nat args m g eq_refl eq_refl) as (u' & v' & U' & _ & _ & _ & _ & U1' & _). rewrite U in U'. injection U' as -> ->.
  rewrite U1, X2 in U1'. destruct k; cbn [fac2] in U1'; lia.
Qed.
Print Assumptions C44_simple_width.
Theorem C44_refuted : exists k rows cols, 2 <= zsum cols /\ zsum rows mod 10 = 0 /\ forall T (N : NumOps T) g (v : T),
  let d := const_dask Float32 rows cols v in exists l x, simple_any (fine_px k) g (Arr (DA d)) (Arr (DA d)) = Ok (Lazy l x) /\ ~ announced l.
Proof.
  exists To500m, [10], [20]. split; [cbn; lia|]. split; [reflexivity|]. intros T N g v d.
  destruct (C44_simple_width To500m g Float32 10 20 (Arr (DA d)) (Arr (DA d)) d d) as (l & E & A); try discriminate; try lia; try reflexivity; try (unfold first_holds; cbn; lia).
  { split; (split; [auto|repeat split]). }
  eauto.
Qed.
Print Assumptions C44_refuted.

(** C45, for the decorated functions, whatever they are *)
Theorem C45_keywords : forall {T G} (func : Z -> Z -> G -> list (barg T) -> res (ndarray T * ndarray T)) g coarse fine args,
  coarse = None \/ fine = None -> wrapper func g coarse fine args = Err ValueError.
Proof. intros T G func g coarse fine args [-> | ->]; [reflexivity|]. destruct coarse; reflexivity. Qed.
Print Assumptions C45_keywords.
Theorem C45_dimensions : forall {T G} (func : Z -> Z -> G -> list (barg T) -> res (ndarray T * ndarray T)) g coarse fine before n dask after,
  Forall (fun o => o = NotArray) before -> n <> 2 -> wrapper func g coarse fine (before ++ NotTwoD n dask :: after) = Err ValueError.
Proof.
  intros T G func g coarse fine before n dask after Hb Hn. unfold wrapper. destruct coarse as [c|]; [|reflexivity]. destruct fine as [f|]; [|reflexivity].
  replace (first_array (before ++ NotTwoD n dask :: after)) with (@Ok (obj T) (NotTwoD n dask)).
  - cbn [bind ndim]. replace (n =? 2) with false by (symmetry; now apply Z.eqb_neq). reflexivity.
  - unfold first_array. induction Hb as [|o l -> F IH]; [reflexivity|]. exact IH.
Qed.
Print Assumptions C45_dimensions.
(** the 5km functions look at lon1.shape[1] first *)
Theorem C45_5km_refuted : exists k, forall T (N : NumOps T) g dask lat satz, @modis_any T N k g (NotTwoD 1 dask) lat satz = Err IndexError.
Proof. exists M5km_1km. reflexivity. Qed.
Print Assumptions C45_5km_refuted.

(** C46. DataArrays of chunked arrays are accepted and give the same as the chunked arrays, as DataArrays... *)
Theorem C46_chunked_partial : forall {T} {N : NumOps T} k g n w lon lat satz (dlon dlat dsatz : darr T),
  std_width k w -> 0 <= n -> n mod scan_len k = 0 -> n = 0 \/ first_holds (scan_len k) dlon -> dask3 n w lon lat satz dlon dlat dsatz ->
  exists l, modis_any k g (XArr (DA dlon)) lat satz = Ok (Lazy l true) /\ modis_any k g (Arr (DA dlon)) lat satz = Ok (Lazy l false).
Proof.
  intros T N k g n w lon lat satz dlon dlat dsatz Hw Hn Hm Hc (H1 & H2 & H3).
  assert (H1' : chunked Float32 n w (XArr (DA dlon)) dlon) by (destruct H1 as [_ H1]; split; [right; reflexivity|exact H1]).
  destruct (modis_lazy k g n w (XArr (DA dlon)) lat satz dlon dlat dsatz) as (a & b & l & _ & E1 & _); auto; [repeat split; try apply H1'; try apply H2; apply H3|].
  exists l. split; [exact E1|]. revert E1. unfold modis_any. replace (modis_width k (Arr (DA dlon))) with (modis_width k (XArr (DA dlon))) by (destruct k; reflexivity).
  destruct (modis_width k (XArr (DA dlon))) as [v|e]; [|discriminate]. cbn [bind]. unfold wrapper. cbn [first_array filter has_ndim bind ndim Z.eqb Pos.eqb negb has_compute map extract has_dims].
  destruct (rows_per_scan_for_resolution (coarse_of k)) as [rps|e]; [|discriminate]. cbn [bind].
  destruct (rechunk_if_needed _ _) as [args|e]; [|discriminate]. cbn [bind]. destruct (call_map_blocks _ _ _ _) as [l'|e]; [|discriminate]. cbn [bind]. intros X. injection X as ->. reflexivity.
Qed.
Print Assumptions C46_chunked_partial.
(** ... those of numpy arrays are not *)
Theorem C46_modis : forall {T} {N : NumOps T} k g (lon : ndarray T) lat satz, modis_any k g (XArr (NP lon)) lat satz = Err AttributeError.
Proof. intros T N k g lon lat satz. destruct k; reflexivity. Qed.
Print Assumptions C46_modis.
Theorem C46_simple : forall {T} {N : NumOps T} fine g (lon : ndarray T) lat, simple_any fine g (XArr (NP lon)) lat = Err AttributeError.
Proof. reflexivity. Qed.
Print Assumptions C46_simple.
Theorem C46_refuted : exists k n w, std_width k w /\ n mod scan_len k = 0 /\ forall T (N : NumOps T) g (v : T),
  let a := const_array Float32 n w v in
  (exists r, modis_any k g (Arr (NP a)) (Arr (NP a)) (Arr (NP a)) = Ok (Eager r)) /\
  modis_any k g (XArr (NP a)) (XArr (NP a)) (XArr (NP a)) = Err AttributeError.
Proof.
  exists M1km_500m, 10, 1354. split; [reflexivity|]. split; [reflexivity|]. intros T N g v a. split; [|apply C46_modis].
  destruct (C48_memory_safe M1km_500m g 10 1354 a a a ltac:(lia) eq_refl (const_shaped _ _ _ _ _ _)) as (x & y & E & _).
  exists (x, y). rewrite modis_eager, E. reflexivity.
Qed.
Print Assumptions C46_refuted.

(** C67. A plain array beside a chunked one is handed whole to each block: the latitudes start again at their first row
    in every block of longitudes (blocks of [first chunk rounded down to whole scans] rows) *)
Lemma row_blocks_repeat k rest : 0 < k -> (forall m, In m rest -> m <= k) -> (length rest <= 1)%nat ->
  forall c s b, s mod k = 0 -> In b (row_blocks s (repeat k c ++ rest)) -> fst b mod k = 0 /\ snd b <= k.
Proof.
  intros Hk Hr Hl. induction c as [|c IH]; intros s b Hs I.
  - cbn [repeat app] in I. destruct rest as [|m [|? ?]]; [destruct I| |cbn in Hl; lia]. cbn in I. destruct I as [<-|[]]. cbn [fst snd]. split; [exact Hs|]. apply Hr. now left.
  - cbn [repeat app row_blocks] in I. destruct I as [<-|I]; [cbn [fst snd]; split; [exact Hs|lia]|]. apply (IH (s + k) b); [|exact I].
    rewrite Z.add_mod, Hs, Z_mod_same_full by lia. reflexivity.
Qed.
Lemma blockdims_uniform n k ms : 0 < k -> 0 <= n -> blockdims n k = Ok ms -> forall b, In b (row_blocks 0 ms) -> fst b mod k = 0 /\ snd b <= k.
Proof.
  intros Hk Hn E b I. unfold blockdims in E. destruct (Z.eqb_spec n 0) as [_|_].
  - injection E as <-. cbn in I. destruct I as [<-|[]]. cbn [fst snd]. split; [apply Z.mod_0_l; lia|lia].
  - destruct (Z.eqb_spec k 0) as [?|_]; [lia|]. injection E as <-.
    apply (row_blocks_repeat k (if n mod k =? 0 then [] else [n mod k]) Hk) with (c := Z.to_nat (n / k)) (s := 0); [| |apply Z.mod_0_l; lia|exact I].
    + destruct (n mod k =? 0); [intros ? []|]. intros m [<-|[]]. pose proof (Z.mod_pos_bound n k Hk). lia.
    + destruct (n mod k =? 0); cbn; lia.
Qed.
Definition whole_scans {T} (L : Z) (d : darr T) : Z := nth 0 (drow d) 0 / L * L.
Definition first_rows {T} (d : darr T) : Z := nth 0 (drow d) 0 / 10 * 10.
(** the array whose rows start again every k rows *)
Definition restarted {T} (k : Z) (a : ndarray T) : ndarray T := {| adt := adt a; arows := arows a; acols := acols a; aat := fun i j => aat a (i mod k) j |}.
Theorem C67_mixed : forall {T} {N : NumOps T} k g dt n w lon (dlon : darr T) (lat : ndarray T),
  dt <> OtherDtype -> 2 <= w -> 0 <= n -> n mod 10 = 0 -> first_holds 10 dlon ->
  chunked dt n w lon dlon -> adt lat = dt -> arows lat = n -> acols lat = w ->
  exists olon olat l, simple k g (as_plain dlon) (restarted (first_rows dlon) lat) = Ok (olon, olat) /\
    simple_any (fine_px k) g lon (Arr (NP lat)) = Ok (Lazy l (has_dims lon)) /\
    forall gs order, Permutation order (seq 0 (length (z_tasks l))) ->
      exists olon' olat', computed gs order l = Ok (olon', olat') /\ same_array olon olon' /\ same_array olat olat'.
Proof.
  intros T N k g dt n w lon dlon lat Hdt Hw Hn Hm Hc (Ho & D1 & R1 & C1) D2 R2 C2.
  set (K := first_rows dlon). assert (HK : 0 < K /\ K mod 10 = 0).
  { unfold K, first_rows, first_holds in *. assert (1 <= nth 0 (drow dlon) 0 / 10) by (apply Z.div_le_lower_bound; lia). split; [lia|apply Z_mod_mult]. }
  destruct HK as [HK HK10].
  assert (S0 : shaped2 dt n w (as_plain dlon) (restarted K lat)) by (unfold shaped2, as_plain, restarted; cbn; auto 12).
  destruct (simple_run k g dt n w _ _ Hdt Hn Hw S0) as (olon & olat & E & SH & V0).
  destruct (blockdims_ok 10 n (nth 0 (drow dlon) 0) ltac:(lia) Hn Hm (or_intror Hc)) as (ms & Bd & Wh & Sm & Ne & _). fold (first_rows dlon) in Bd. fold K in Bd.
  assert (FK : 1000 / fine_px k = fac2 k) by (destruct k; reflexivity).
  set (l := {| z_dt := ddt dlon; z_rows := map (fun x => x * fac2 k) ms; z_cols := 1354 * fac2 k; z_func := simple_func 1000 (fine_px k);
               z_tasks := map (fun b => [BArr (rows_wide w dlon b); BArr lat]) (row_blocks 0 ms) |}).
  exists olon, olat, l. split; [exact E|]. split.
  - unfold simple_any, wrapper. replace (first_array [lon; Arr (NP lat)]) with (Ok lon) by (destruct Ho as [-> | ->]; reflexivity). cbn [bind].
    replace (ndim lon) with 2 by (destruct Ho as [-> | ->]; reflexivity). cbn [Z.eqb Pos.eqb negb].
    replace (has_compute lon) with true by (destruct Ho as [-> | ->]; reflexivity). cbn [map extract].
    replace (extract lon) with (Arr (DA dlon)) by (destruct Ho as [-> | ->]; reflexivity).
    change (rows_per_scan_for_resolution 1000) with (@Ok Z 10). cbn [bind].
    unfold rechunk_if_needed. cbn [first_array filter has_ndim bind]. replace (drows dlon) with n by (symmetry; exact R1). rewrite Hm. cbn [Z.eqb negb].
    rewrite (single_not_good (dcol dlon) : match dcol dlon with [c] => negb (c =? dcols dlon) | _ => false end = false). rewrite andb_false_r. cbn [andb mapM].
    fold (first_rows dlon). fold K. unfold rechunk. replace (dcols dlon) with w by (symmetry; exact C1). replace (drows dlon) with n by (symmetry; exact R1).
    replace (w =? 0) with false by (symmetry; apply Z.eqb_neq; lia). rewrite andb_false_r, Bd. cbn [bind].
    unfold call_map_blocks. cbn [first_array filter has_ndim bind]. rewrite FK.
    replace (fine_px k =? 0) with false by (destruct k; reflexivity).
    replace (if fine_px k =? 250 then Ok 4 else if fine_px k =? 500 then Ok 2 else if fine_px k =? 1000 then Ok 1 else Err KeyError) with (@Ok Z (fac2 k))
      by (destruct k; reflexivity). cbn [bind drow ddt]. rewrite <- (length_row_blocks 0 ms).
    rewrite (mapM_nth _ (fun b => [BArr (rows_wide w dlon b); BArr lat]) (row_blocks 0 ms)); [reflexivity|]. cbn [Nat.add].
    intros q b Hq. rewrite length_row_blocks. cbn [mapM]. unfold block_arg at 1. cbn [drow dcol length]. rewrite length_row_blocks, !Nat.eqb_refl, Hq. cbn [negb bind block_arg].
    unfold rows_of, rows_wide, dcols. cbn [ddt dat dcol zsum fold_right]. rewrite Z.add_0_r. reflexivity.
  - intros gs order Hp.
    destruct (computed_ok gs (fun b => [BArr (rows_wide w dlon b); BArr lat]) ms order l dt (fac2 k) (fac2 k * w) (aat olon) (aat olat)
      ltac:(destruct k; cbn; lia) ltac:(eapply Forall_impl; [|exact Wh]; cbn; intros ? []; assumption) Ne eq_refl Hp) as (a & b & Ec & (B1 & B2 & B3 & B4) & (X1 & X2 & X3 & X4)).
    + intros g' [s m] I. destruct (row_blocks_in 10 ltac:(lia) ms 0 Wh ltac:(lia) eq_refl _ I) as (A1 & A2 & A3 & A4 & A5).
      destruct (blockdims_uniform n K ms HK Hn Bd _ I) as [U1 U2]. cbn [fst snd] in *. rewrite Sm in A5.
      destruct (simple_interp_ok g' dt m w 1000 (fine_px k) 10 (fac2 k) (rows_wide w dlon (s, m)) lat) as (x & y & Ex & Y1 & Y2 & Y3 & Y4 & Y5 & Y6 & V);
        auto; try (destruct k; reflexivity || discriminate); try lia; try (unfold rows_wide; cbn; assumption || reflexivity).
      { unfold fits. destruct k; cbn [fac2 Z.eqb Pos.eqb]; lia. }
      exists (x, y). split; [exact Ex|]. cbn [fst snd].
      assert (VV : forall R i, 0 <= R < fac2 k * m -> 0 <= i < fac2 k * w -> (aat x R i, aat y R i) = (aat olon (fac2 k * s + R) i, aat olat (fac2 k * s + R) i)).
      { intros R i HR Hi. rewrite V by assumption. assert (F2 : 2 <= fac2 k) by (destruct k; cbn; lia). rewrite V0 by (try assumption; nia).
        pose proof (Z.div_mod s 10 ltac:(lia)) as Ds. pose proof (Z.div_mod m 10 ltac:(lia)) as Dm. pose proof (Z.div_mod n 10 ltac:(lia)) as Dn.
        set (F := fac2 k) in *. assert (LF : 0 < F * 10) by nia.
        destruct (Z.ltb_spec R (m / 10 * (F * 10))); [|nia]. destruct (Z.ltb_spec (F * s + R) (n / 10 * (F * 10))); [|nia].
        destruct (off_split (F * 10) R LF) as [ER HB]. set (u := R / (F * 10)) in *. set (r := R mod (F * 10)) in *.
        assert (U : 0 <= u < m / 10) by (unfold u; split; [apply Z.div_pos; lia|apply Z.div_lt_upper_bound; [lia|nia]]).
        replace (F * s + R) with ((s / 10 + u) * (F * 10) + r) by nia.
        rewrite (scan_row (F * 10) (fun p q => ll_scan F 10 w (as_plain dlon) (restarted K lat) p q i)) by exact HB.
        apply ll_scan_ext; [lia| |]; intros i0 j Hi0 Hj; unfold rows_wide, as_plain, restarted; cbn [aat fst]; f_equal; [lia|].
        rewrite <- (Z.mod_small (u * 10 + i0) K) at 1 by nia. replace ((s / 10 + u) * 10 + i0) with (s + (u * 10 + i0)) by lia.
        rewrite (Z.add_mod s) by lia. rewrite U1, Z.add_0_l, Z.mod_mod by lia. reflexivity. }
      split; (split; [assumption|]; split; [assumption|]; split; [assumption|]); intros i j Hi Hj; cbn [fst snd] in *;
        [exact (f_equal fst (VV i j Hi Hj))|exact (f_equal snd (VV i j Hi Hj))].
    + cbn [fst snd] in *. rewrite Sm in *. destruct SH as (A1 & A2 & A4 & A5 & A7 & A8).
      exists a, b. split; [exact Ec|]. split; (split; [congruence|]; split; [congruence|]; split; [congruence|]);
        intros i j Hi Hj; symmetry; [rewrite B4|rewrite X4]; try (f_equal; lia); rewrite ?A4, ?A5, ?A7, ?A8 in *; lia.
Qed.
Print Assumptions C67_mixed.

(** The same for the functions with satellite angles: chunked longitudes and angles, plain latitudes *)
Lemma modis_tall {T} {N : NumOps T} k g n w (lon lat satz : ndarray T) : 0 <= n -> std_width k w ->
  adt lon = Float32 -> adt lat = Float32 -> adt satz = Float32 -> arows lon = n -> n <= arows lat -> arows satz = n ->
  acols lon = w -> acols lat = w -> acols satz = w ->
  exists c p olon olat, layout c p /\ scl c = scan_len k /\ ff c = factor k /\ fsw c = fine_width k /\ scw c = w /\
    cinit (coarse_of k) (fine_of k) (if is_1km k then 0 else w) = Ok c /\
    modis k g lon lat satz = Ok (olon, olat) /\
    shaped Float32 (n * factor k) (fine_width k) olon olat olat /\
    forall R i, 0 <= R < n * factor k -> 0 <= i < fine_width k ->
      (aat olon R i, aat olat R i) =
      if R <? n / scan_len k * fine_len k then pixel c lon lat satz (R / fine_len k) (R mod fine_len k) i
      else (g_lons g (R * fine_width k + i), g_lats g (R * fine_width k + i)).
Proof.
  intros Hn Hw D1 D2 D3 R1 R2 R3 C1 C2 C3.
  destruct (cinit_std k w Hw) as (c & p & E & L & E1 & E2 & E3 & E4 & E5).
  destruct (interpolate_cfg_tall c p L g lon lat satz n Hn ltac:(lia) R2 R3) as (olon & olat & O & A1 & A2 & A3 & A4 & A5 & A6 & V); try congruence.
  exists c, p, olon, olat. repeat (split; [assumption|]). split.
  - unfold modis, interpolate. rewrite D1, D2, D3. cbn [dtype_eqb andb negb].
    replace (width_kwarg k lon) with (if is_1km k then 0 else w) by (destruct k; cbn; auto).
    replace ((coarse_of k =? 5000) && negb (existsb (Z.eqb (if is_1km k then 0 else w)) [0; 270; 271])) with false.
    { rewrite E. exact O. }
    destruct k; cbn in *; try reflexivity; destruct Hw as [-> | ->]; reflexivity.
  - unfold fine_len. rewrite <- E1, <- E2, <- E3. split; [unfold shaped; repeat split; congruence|]. exact V.
Qed.
Theorem C67_mixed_modis : forall {T} {N : NumOps T} k g n w lon satz (dlon dsatz : darr T) (lat : ndarray T),
  std_width k w -> 0 <= n -> n mod scan_len k = 0 -> first_holds (scan_len k) dlon ->
  chunked Float32 n w lon dlon -> chunked Float32 n w satz dsatz -> adt lat = Float32 -> arows lat = n -> acols lat = w ->
  exists olon olat l, modis k g (as_plain dlon) (restarted (whole_scans (scan_len k) dlon) lat) (as_plain dsatz) = Ok (olon, olat) /\
    modis_any k g lon (Arr (NP lat)) satz = Ok (Lazy l (has_dims lon)) /\
    forall gs order, Permutation order (seq 0 (length (z_tasks l))) ->
      exists olon' olat', computed gs order l = Ok (olon', olat') /\ same_array olon olon' /\ same_array olat olat'.
Proof.
  intros T N k g n w lon satz dlon dsatz lat Hw Hn Hm Hc (Ho & D1 & R1 & C1) (Ho3 & D3 & R3 & C3) D2 R2 C2.
  assert (HL : 2 <= scan_len k /\ 1 <= factor k) by (destruct k; cbn; lia).
  set (K := whole_scans (scan_len k) dlon). assert (HK : 0 < K /\ K mod scan_len k = 0).
  { unfold K, whole_scans, first_holds in *. assert (1 <= nth 0 (drow dlon) 0 / scan_len k) by (apply Z.div_le_lower_bound; lia). split; [nia|apply Z_mod_mult]. }
  destruct HK as [HK HK10].
  assert (W0 : 0 < w) by (destruct k; cbn in Hw; lia).
  destruct (modis_tall k g n w (as_plain dlon) (restarted K lat) (as_plain dsatz)) as (c & p & olon & olat & L & F1 & F2 & F3 & F4 & F5 & E & SH & V0);
    auto; try (unfold as_plain, restarted; cbn; (assumption || lia)).
  destruct (blockdims_ok (scan_len k) n (nth 0 (drow dlon) 0) ltac:(lia) Hn Hm (or_intror Hc)) as (ms & Bd & Wh & Sm & Ne & _). fold (whole_scans (scan_len k) dlon) in Bd. fold K in Bd.
  assert (FK : coarse_of k / fine_of k = factor k) by (destruct k; reflexivity).
  set (l := {| z_dt := ddt dlon; z_rows := map (fun x => x * factor k) ms; z_cols := fine_width k; z_func := modis_func (if is_1km k then 0 else w) (coarse_of k) (fine_of k);
               z_tasks := map (fun b => [BArr (rows_wide w dlon b); BArr lat; BArr (rows_wide w dsatz b)]) (row_blocks 0 ms) |}).
  exists olon, olat, l. split; [exact E|]. split.
  - unfold modis_any. replace (modis_width k lon) with (@Ok Z (if is_1km k then 0 else w))
      by (destruct Ho as [-> | ->]; destruct k; cbn; unfold dcols; rewrite ?C1; reflexivity). cbn [bind].
    unfold wrapper. replace (first_array [lon; Arr (NP lat); satz]) with (Ok lon) by (destruct Ho as [-> | ->]; reflexivity). cbn [bind].
    replace (ndim lon) with 2 by (destruct Ho as [-> | ->]; reflexivity). cbn [Z.eqb Pos.eqb negb].
    replace (has_compute lon) with true by (destruct Ho as [-> | ->]; reflexivity). cbn [map extract].
    replace (extract lon) with (Arr (DA dlon)) by (destruct Ho as [-> | ->]; reflexivity).
    replace (extract satz) with (Arr (DA dsatz)) by (destruct Ho3 as [-> | ->]; reflexivity).
    replace (rows_per_scan_for_resolution (coarse_of k)) with (@Ok Z (scan_len k)) by (destruct k; reflexivity). cbn [bind].
    unfold rechunk_if_needed. cbn [first_array filter has_ndim bind]. replace (drows dlon) with n by (symmetry; exact R1). rewrite Hm. cbn [Z.eqb negb].
    rewrite (single_not_good (dcol dlon) : match dcol dlon with [c] => negb (c =? dcols dlon) | _ => false end = false). rewrite andb_false_r. cbn [andb mapM].
    fold (whole_scans (scan_len k) dlon). fold K. unfold rechunk.
    replace (dcols dlon) with w by (symmetry; exact C1). replace (drows dlon) with n by (symmetry; exact R1).
    replace (dcols dsatz) with w by (symmetry; exact C3). replace (drows dsatz) with n by (symmetry; exact R3).
    replace (w =? 0) with false by (symmetry; apply Z.eqb_neq; lia). rewrite andb_false_r, Bd. cbn [bind].
    unfold call_map_blocks. cbn [first_array filter has_ndim bind]. rewrite FK.
    replace (fine_of k =? 0) with false by (destruct k; reflexivity).
    replace (if fine_of k =? 250 then Ok 4 else if fine_of k =? 500 then Ok 2 else if fine_of k =? 1000 then Ok 1 else Err KeyError) with (@Ok Z (fine_width k / 1354))
      by (destruct k; reflexivity). cbn [bind drow ddt]. rewrite <- (length_row_blocks 0 ms).
    rewrite (mapM_nth _ (fun b => [BArr (rows_wide w dlon b); BArr lat; BArr (rows_wide w dsatz b)]) (row_blocks 0 ms)).
    + replace (1354 * (fine_width k / 1354)) with (fine_width k) by (destruct k; reflexivity). reflexivity.
    + cbn [Nat.add].
      intros q b Hq. rewrite length_row_blocks. cbn [mapM]. unfold block_arg. cbn [drow dcol length]. rewrite length_row_blocks, !Nat.eqb_refl, Hq. cbn [negb bind].
      unfold rows_of, rows_wide, dcols. cbn [ddt dat dcol zsum fold_right]. rewrite Z.add_0_r. reflexivity.
  - intros gs order Hp.
    destruct (computed_ok gs (fun b => [BArr (rows_wide w dlon b); BArr lat; BArr (rows_wide w dsatz b)]) ms order l Float32 (factor k) (fine_width k) (aat olon) (aat olat)
      ltac:(lia) ltac:(eapply Forall_impl; [|exact Wh]; cbn; intros ? []; assumption) Ne eq_refl Hp) as (a & b & Ec & (B1 & B2 & B3 & B4) & (X1 & X2 & X3 & X4)).
    + intros g' [s m] I. destruct (row_blocks_in (scan_len k) ltac:(lia) ms 0 Wh ltac:(lia) ltac:(apply Z.mod_0_l; lia) _ I) as (A1 & A2 & A3 & A4 & A5).
      destruct (blockdims_uniform n K ms HK Hn Bd _ I) as [U1 U2]. cbn [fst snd] in *. rewrite Sm in A5.
      destruct (modis_tall k g' m w (rows_wide w dlon (s, m)) lat (rows_wide w dsatz (s, m))) as (c' & p' & x & y & _ & _ & _ & _ & _ & F5' & Ex & SHx & V);
        auto; try (unfold rows_wide; cbn; assumption || reflexivity || lia); try lia.
      rewrite F5 in F5'. injection F5' as <-.
      exists (x, y). split.
      { cbn [l z_func]. unfold modis_func. replace (if is_1km k then 0 else w) with (width_kwarg k (rows_wide w dlon (s, m))) by (destruct k; reflexivity). exact Ex. }
      cbn [fst snd]. destruct SHx as (Y1 & Y2 & _ & Y4 & Y5 & _ & Y7 & Y8 & _).
      assert (VV : forall R i, 0 <= R < factor k * m -> 0 <= i < fine_width k -> (aat x R i, aat y R i) = (aat olon (factor k * s + R) i, aat olat (factor k * s + R) i)).
      { intros R i HR Hi. rewrite V by (try assumption; lia). rewrite V0 by (try assumption; nia). unfold fine_len.
        set (SL := scan_len k) in *. set (F := factor k) in *.
        pose proof (Z.div_mod s SL ltac:(lia)) as Ds. pose proof (Z.div_mod m SL ltac:(lia)) as Dm. pose proof (Z.div_mod n SL ltac:(lia)) as Dn.
        assert (LF : 0 < SL * F) by nia.
        destruct (Z.ltb_spec R (m / SL * (SL * F))); [|nia]. destruct (Z.ltb_spec (F * s + R) (n / SL * (SL * F))); [|nia].
        destruct (off_split (SL * F) R LF) as [ER HB]. set (u := R / (SL * F)) in *. set (r := R mod (SL * F)) in *.
        assert (U : 0 <= u < m / SL) by (unfold u; split; [apply Z.div_pos; lia|apply Z.div_lt_upper_bound; [lia|nia]]).
        replace (F * s + R) with ((s / SL + u) * (SL * F) + r) by nia.
        rewrite (scan_row (SL * F) (fun p q => pixel c (as_plain dlon) (restarted K lat) (as_plain dsatz) p q i)) by exact HB.
        apply (pixel_ext c p L); intros i0 j Hi0 Hj; rewrite F1 in *; unfold rows_wide, as_plain, restarted; cbn [aat fst].
        assert (ES : (s / SL + u) * SL + i0 = s + (u * SL + i0)) by lia. rewrite ES.
        split; [reflexivity|]. split; [|reflexivity]. f_equal.
        rewrite <- (Z.mod_small (u * SL + i0) K) at 1 by nia.
        rewrite (Z.add_mod s) by lia. rewrite U1, Z.add_0_l, Z.mod_mod by lia. reflexivity. }
      split; (split; [assumption|]; split; [cbn [snd]; lia|]; split; [assumption|]); intros i j Hi Hj; cbn [fst snd] in *;
        [exact (f_equal fst (VV i j Hi Hj))|exact (f_equal snd (VV i j Hi Hj))].
    + cbn [fst snd] in *. rewrite Sm in *. destruct SH as (A1 & A2 & _ & A4 & A5 & _ & A7 & A8 & _).
      exists a, b. split; [exact Ec|]. split; (split; [congruence|]; split; [lia|]; split; [congruence|]);
        intros i j Hi Hj; symmetry; [rewrite B4|rewrite X4]; try (f_equal; lia); rewrite ?A4, ?A5, ?A7, ?A8 in *; lia.
Qed.
Print Assumptions C67_mixed_modis.
Example C67_mixed_modis_case : let dlon := const_dask Float32 [10; 10] [1354] (Some 0%R) in
  std_width M1km_500m 1354 /\ first_holds (scan_len M1km_500m) dlon /\ chunked Float32 20 1354 (Arr (DA dlon)) dlon /\ whole_scans 10 dlon = 10.
Proof. cbn. split; [reflexivity|]. split; [unfold first_holds; cbn; lia|]. split; [split; [auto|repeat split]|reflexivity]. Qed.

(** Two scans at longitude 0, the first one at latitude 0 and the second one at latitude 45: with chunks of one scan and
    plain latitudes the second scan is put at latitude 0 *)
Section Values.
#[local] Existing Instance RN.
Lemma bilinear_const rows cols (v : Z -> Z -> R) (c y x : R) : 2 <= rows -> 2 <= cols -> (forall a b, 0 <= a < rows -> 0 <= b < cols -> v a b = c) -> bilinear rows cols v y x = c.
Proof.
  intros Hr Hc H. unfold bilinear, pwl. cbv zeta. rewrite !H by lia. ring.
Qed.
Lemma const_scan k g dt n w (lon lat olon olat : ndarray (option R)) (lo la : Z -> Z -> R) (L A : R) :
  dt <> OtherDtype -> 2 <= w -> shaped2 dt n w lon lat ->
  (forall a b, 0 <= a < n -> 0 <= b < w -> aat lon a b = Some (lo a b) /\ aat lat a b = Some (la a b)) ->
  simple k g lon lat = Ok (olon, olat) ->
  forall s r i, 0 <= s -> (s + 1) * 10 <= n -> 0 <= r < fac2 k * 10 -> 0 <= i < fac2 k * w ->
    (-180 < L < 180)%R -> (-90 < A < 90)%R -> (forall a b, 0 <= a < 10 -> 0 <= b < w -> lo (s * 10 + a) b = L /\ la (s * 10 + a) b = A) ->
    aat olon (s * (fac2 k * 10) + r) i = Some L /\ aat olat (s * (fac2 k * 10) + r) i = Some A.
Proof.
  intros Hdt Hw S F O s r i Hs Hsn Hr Hi HL HA HC.
  pose proof (C56_bilinear k g dt n w lon lat olon olat lo la Hdt Hw S F O s r i Hs Hsn Hr Hi) as P. cbv beta zeta in P.
  assert (B : forall f : R -> R -> R, bilinear 10 w (fun a b => f (lo (s * 10 + a)%Z b) (la (s * 10 + a)%Z b)) (row_pos k r) (col_pos k i) = f L A).
  { intros f. apply bilinear_const; [lia|exact Hw|]. intros a b Ha Hb. destruct (HC a b Ha Hb) as [-> ->]. reflexivity. }
  rewrite (B at_x), (B at_y), (B at_z), <- cy_place in P. rewrite cy_round_trip in P by assumption. injection P as -> ->. auto.
Qed.
Definition ex_lon : darr (option R) := const_dask Float32 [10; 10] [2] (Some 0%R).
Definition ex_lat : ndarray (option R) := {| adt := Float32; arows := 20; acols := 2; aat := fun i _ => Some (if i <? 10 then 0 else 45)%R |}.
Theorem C67_refuted : exists (dlon : darr (option R)) (lat : ndarray (option R)),
  chunked Float32 20 2 (Arr (DA dlon)) dlon /\ adt lat = Float32 /\ arows lat = 20 /\ acols lat = 2 /\
  forall g, (exists olon olat, simple To500m g (as_plain dlon) lat = Ok (olon, olat) /\ aat olat 30 0 = Some 45%R) /\
  exists l, simple_any 500 g (Arr (DA dlon)) (Arr (NP lat)) = Ok (Lazy l false) /\
    forall gs order, Permutation order (seq 0 (length (z_tasks l))) -> exists olon olat, computed gs order l = Ok (olon, olat) /\ aat olat 30 0 = Some 0%R.
Proof.
  exists ex_lon, ex_lat. split; [split; [auto|repeat split]|]. do 3 (split; [reflexivity|]). intros g. split.
  - assert (S : shaped2 Float32 20 2 (as_plain ex_lon) ex_lat) by (repeat split).
    destruct (C58_safe_partial To500m g Float32 20 2 (as_plain ex_lon) ex_lat ltac:(discriminate) ltac:(lia) ltac:(lia) S) as (olon & olat & E & _).
    exists olon, olat. split; [exact E|].
    refine (proj2 (const_scan To500m g Float32 20 2 (as_plain ex_lon) ex_lat olon olat (fun _ _ => 0%R) (fun i _ => if i <? 10 then 0%R else 45%R) 0 45
      ltac:(discriminate) ltac:(lia) S (fun a b Ha Hb => conj eq_refl eq_refl) E 1 10 0 ltac:(lia) ltac:(lia) ltac:(cbn [fac2]; lia) ltac:(cbn [fac2]; lia) ltac:(lra) ltac:(lra) _)).
    intros a b Ha Hb. split; [reflexivity|]. destruct (Z.ltb_spec (1 * 10 + a) 10); [lia|reflexivity].
  - assert (CH : chunked Float32 20 2 (Arr (DA ex_lon)) ex_lon) by (split; [auto|repeat split]).
    destruct (C67_mixed To500m g Float32 20 2 (Arr (DA ex_lon)) ex_lon ex_lat ltac:(discriminate) ltac:(lia) ltac:(lia) eq_refl ltac:(unfold first_holds; cbn; lia)
      CH eq_refl eq_refl eq_refl) as (olon & olat & l & E & E' & C).
    exists l. split; [exact E'|]. intros gs order Hp. destruct (C gs order Hp) as (olon' & olat' & Ec & _ & (Q1 & Q2 & Q3 & Q4)). exists olon', olat'. split; [exact Ec|].
    assert (S : shaped2 Float32 20 2 (as_plain ex_lon) (restarted (first_rows ex_lon) ex_lat)) by (repeat split).
    destruct (simple_run To500m g Float32 20 2 _ _ ltac:(discriminate) ltac:(lia) ltac:(lia) S) as (x & y & Ex & (_ & _ & _ & Y2 & _ & Y3) & _).
    rewrite E in Ex. injection Ex as <- <-.
    rewrite <- Q4; [|rewrite Y2; cbn; lia|rewrite Y3; cbn; lia].
    refine (proj2 (const_scan To500m g Float32 20 2 (as_plain ex_lon) (restarted (first_rows ex_lon) ex_lat) olon olat (fun _ _ => 0%R) (fun i _ => if i mod 10 <? 10 then 0%R else 45%R) 0 0
      ltac:(discriminate) ltac:(lia) S (fun a b Ha Hb => conj eq_refl eq_refl) E 1 10 0 ltac:(lia) ltac:(lia) ltac:(cbn [fac2]; lia) ltac:(cbn [fac2]; lia) ltac:(lra) ltac:(lra) _)).
    intros a b Ha Hb. split; [reflexivity|]. pose proof (Z.mod_pos_bound (1 * 10 + a) 10 ltac:(lia)). destruct (Z.ltb_spec ((1 * 10 + a) mod 10) 10); [reflexivity|lia].
Qed.
End Values.
Print Assumptions C67_refuted.

(** Plain longitudes beside chunked or labelled arrays: refused, nothing is misread *)
Definition plain {T} (o : obj T) : Prop := exists a, o = Arr (NP a).
Lemma not_plain {T} (o : obj T) : ~ plain o -> plain_arg o = BBad.
Proof. destruct o as [[a|d]|d|n b|]; intros H; try reflexivity. destruct H. exists a. reflexivity. Qed.
Theorem C67_plain_first_modis : forall {T} {N : NumOps T} k g (lon : ndarray T) lat satz,
  ~ plain lat \/ ~ plain satz -> modis_any k g (Arr (NP lon)) lat satz = Err TypeError.
Proof.
  intros T N k g lon lat satz H. unfold modis_any.
  replace (modis_width k (Arr (NP lon))) with (@Ok Z (if is_1km k then 0 else acols lon)) by (destruct k; reflexivity). cbn [bind].
  unfold wrapper. cbn [bind first_array filter has_ndim ndim Z.eqb Pos.eqb negb has_compute map].
  destruct H as [H|H]; rewrite (not_plain _ H); unfold modis_func; [reflexivity|]. cbn [plain_arg]. now destruct (plain_arg lat).
Qed.
Print Assumptions C67_plain_first_modis.
Theorem C67_plain_first_simple : forall {T} {N : NumOps T} fine g (lon : ndarray T) lat,
  ~ plain lat -> simple_any fine g (Arr (NP lon)) lat = Err TypeError.
Proof.
  intros T N fine g lon lat H. unfold simple_any, wrapper. cbn [bind first_array filter has_ndim ndim Z.eqb Pos.eqb negb has_compute map].
  now rewrite (not_plain _ H).
Qed.
Print Assumptions C67_plain_first_simple.
Example C67_plain_first_case : ~ plain (XArr (NP ex_lat)) /\ ~ plain (Arr (DA ex_lon)).
Proof. split; intros [a H]; discriminate H. Qed.
