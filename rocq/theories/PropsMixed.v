(** C67: MODIS interpolation of chunked longitudes and latitudes with plain satellite angles. *)
From Coq Require Import ZArith List Bool Lia Permutation Reals.
From Verif Require Import Base Num Geo Mem Modis ModisProofs SimpleModis SimpleModisProofs Mapblocks MapblocksProofs PropsModis PropsSimple PropsMapblocks.
Import ListNotations.
Open Scope Z_scope.

(** ** Angles of n rows, longitudes and latitudes of m rows, both whole scans *)
Section Short.
Context {T : Type} {N : NumOps T} (c : cfg) (p : Z) (L : layout c p).
#[local] Notation f := (ff c).
#[local] Notation w := (fsw c).
#[local] Notation nr := (scl c * ff c).

(** a scan for which there are no positions: the ones of the scan before are taken again *)
Lemma scan_stale n (lon lat satz : ndarray T) (x y : buf T) s q : 0 <= n -> arows satz = n -> acols satz = scw c -> acols lon = scw c ->
  bsize x = w -> bsize y = nr -> 0 <= s -> (s + 1) * scl c <= n -> 0 <= arows lon <= s * scl c -> sized c (n * f) q ->
  exists q', scan_body c (n * f) lon lat satz x y s q = Ok q' /\ sized c (n * f) q'.
Proof.
  intros Hn R3 C3 C1 Hx Hy Hs Hs1 Hm Hq.
  assert (P : 0 < scl c /\ 0 < f /\ 0 <= scw c /\ 0 <= w) by (destruct L as [? [(? & ? & ? & ? & ? & ?)|(? & ? & ? & ? & ? & ?)]]; lia).
  assert (P2 : 2 <= f \/ f = 1) by lia.
  unfold scan_body. rewrite R3, C3.
  rewrite (scan_view c p L x Hx n (scw c) s) by lia.
  set (v := {| voff := s * scl c * scw c; vs0 := scw c; vrows := scl c; vcols := scw c |}).
  destruct (atrack_stage c p L x y (contiguous satz) v (scw c) (n * f) q eq_refl eq_refl ltac:(lia)) as (q1 & E1 & Q1 & A1 & A2 & A3 & A4 & _ & _); auto.
  { intros i j Hi Hj. apply (contiguous_at c (scw c)); auto; lia. }
  rewrite E1. cbn [bind].
  assert (E2 : lonlat2xyz_v (contiguous lon) (slice_rows (full (arows lon) (acols lon)) (s * scl c) ((s + 1) * scl c)) (contiguous lat)
      (slice_rows (full (arows lat) (acols lat)) (s * scl c) ((s + 1) * scl c)) (coarse_vw c) (w_cxyz q1) = Ok (w_cxyz q1)).
  { unfold lonlat2xyz_v, slice_rows, slice, bound. cbn [full vrows vcols].
    destruct (Z.ltb_spec (s * scl c) 0); [nia|]. destruct (Z.ltb_spec ((s + 1) * scl c) 0); [nia|].
    rewrite !(Z.min_r _ (arows lon)) by nia. rewrite Z.sub_diag. reflexivity. }
  rewrite E2. cbn [bind].
  set (q2 := {| w_at := w_at q1; w_as := w_as q1; w_a := w_a q1; w_b := w_b q1; w_c := w_c q1; w_d := w_d q1;
    w_cxyz := w_cxyz q1; w_fxyz := w_fxyz q1; w_lons := w_lons q1; w_lats := w_lats q1 |}).
  assert (Q2 : sized c (n * f) q2) by (destruct Q1 as (K1 & K2 & K3 & K4 & K5 & K6 & K7 & K8 & K9 & K10); repeat split; assumption).
  destruct (xyz_stage c p L (n * f) q2 Q2) as (q3 & E3 & Q3 & _). rewrite E3. cbn [bind].
  assert (VN : slice_rows (full (n * f) w) (s * scl c * f) ((s + 1) * scl c * f) = {| voff := s * nr * w; vs0 := w; vrows := nr; vcols := w |}).
  { unfold slice_rows. cbn [full vcols]. rewrite slice_in by (cbn [full vrows vcols]; nia). cbn [full voff vs0]. f_equal; ring. }
  rewrite VN. destruct Q3 as (K1 & K2 & K3 & K4 & K5 & K6 & K7 & K8 & K9 & K10).
  assert (BN : (s * nr + nr) * w <= n * f * w) by nia.
  set (G := fun R i => cy_xyz2lonlat true (nst (ndiv (nz 8) (nz 10))) (bat (w_fxyz q3) ((R - s * nr) * w + i))).
  destruct (xyz2lonlat_stage c p L (w_fxyz q3) {| voff := s * nr * w; vs0 := w; vrows := nr; vcols := w |} (s * nr) (w_lons q3) (w_lats q3)
    (fun R i => fst (G R i)) (fun R i => snd (G R i))) as (lons' & lats' & E4 & S1 & S2); try assumption; try reflexivity; try lia; try nia.
  { intros r i Hr Hi. unfold G. replace (s * nr + r - s * nr) with r by ring. apply surjective_pairing. }
  rewrite E4. cbn [bind]. eexists. split; [reflexivity|].
  repeat split; cbn; try assumption; [destruct S1; congruence|destruct S2; congruence].
Qed.

Lemma interpolate_short g n (lon lat satz : ndarray T) : 0 <= arows lon <= n -> arows lon mod scl c = 0 -> arows lat = arows lon -> arows satz = n ->
  acols lon = scw c -> acols lat = scw c -> acols satz = scw c -> adt lon <> Float64 ->
  exists olon olat, interpolate_cfg c g lon lat satz = Ok (olon, olat) /\ adt olon = adt lon /\ adt olat = adt lon /\
    arows olon = n * f /\ arows olat = n * f /\ acols olon = w /\ acols olat = w.
Proof.
  intros Hm Hmm R2 R3 C1 C2 C3 Hdt.
  assert (P : 0 < scl c /\ 0 < f) by (destruct L as [? [(? & ? & ? & ? & ? & ?)|(? & ? & ? & ? & ? & ?)]]; lia).
  assert (P3 : 0 <= scw c) by (destruct L as [? [(? & ? & ? & ? & ? & ?)|(? & ? & ? & ? & ? & ?)]]; lia).
  unfold interpolate_cfg. destruct (coords_ok c p g L) as (x & y & E0 & Hx & Hy & Vx & Vy). rewrite E0. cbn [bind].
  replace (dtype_eqb (adt lon) Float64) with false by (destruct (adt lon); [reflexivity|contradiction|reflexivity]).
  destruct (Z.eqb_spec (scl c) 0) as [|_]; [lia|]. rewrite R3. set (S := n / scl c).
  assert (HS : 0 <= S /\ S * scl c <= n) by (unfold S; split; [apply Z.div_pos; lia|rewrite Z.mul_comm; apply Z.mul_div_le; lia]).
  destruct (for_range_inv (fun _ => sized c (n * f)) S (scan_body c (n * f) lon lat satz x y) (empty_work c g (n * f))) as (q' & E & _).
  - lia.
  - apply sized_empty.
  - intros s q Hs Hq. destruct (Z.lt_ge_cases (s * scl c) (arows lon)) as [Hlt|Hge].
    + assert ((s + 1) * scl c <= arows lon) by (pose proof (Z.div_mod (arows lon) (scl c) ltac:(lia)) as D; rewrite Hmm in D; assert (s < arows lon / scl c) by nia; nia).
      destruct (scan_stage c p L n (scw c) lon lat satz x y ltac:(lia) ltac:(lia) R3 C1 C2 C3 Hx Hy Vx Vy s q ltac:(lia) ltac:(nia) ltac:(lia) ltac:(lia) Hq) as (q' & asc & E & Q' & _).
      exists q'. auto.
    + apply scan_stale; auto; nia.
  - rewrite E. cbn [bind]. eexists _, _. split; [reflexivity|]. unfold array_of. cbn [adt arows acols]. auto 10.
Qed.
End Short.

(** ** The computed array *)
Lemma stack_size {T} R W (l : list (ndarray T)) : l <> [] -> Forall (fun a => arows a = R /\ acols a = W) l ->
  exists A, stack l = Ok A /\ arows A = Z.of_nat (length l) * R /\ acols A = W.
Proof.
  intros Hl F. induction F as [|a l [Ha Wa] F IH]; [contradiction|]. destruct l as [|b l].
  - exists a. cbn [stack length]. split; [reflexivity|]. lia.
  - destruct (IH ltac:(discriminate)) as (A & E & HA & WA). change (stack (a :: b :: l)) with
      (let* x := stack (b :: l) in if acols a =? acols x then
        Ok {| adt := adt a; arows := arows a + arows x; acols := acols a; aat := fun i j => if i <? arows a then aat a i j else aat x (i - arows a) j |} else Err ValueError).
    rewrite E. cbn [bind]. rewrite Wa, WA, Z.eqb_refl. eexists. split; [reflexivity|]. cbn [arows acols]. split; [|reflexivity].
    rewrite HA, Ha. cbn [length]. lia.
Qed.
Lemma computed_size {T G B} (gs : nat -> G) (args : B -> list (barg T)) (bs : list B) order (l : lazyres T G) R W :
  bs <> [] -> z_tasks l = map args bs -> Permutation order (seq 0 (length (z_tasks l))) ->
  (forall g b, In b bs -> exists r, z_func l g (args b) = Ok r /\ (arows (fst r) = R /\ acols (fst r) = W) /\ (arows (snd r) = R /\ acols (snd r) = W)) ->
  exists a b, computed gs order l = Ok (a, b) /\ (arows a = Z.of_nat (length bs) * R /\ acols a = W) /\ (arows b = Z.of_nat (length bs) * R /\ acols b = W).
Proof.
  intros Ne Ht Hp H. unfold computed. rewrite Ht in *. rewrite map_length in *.
  set (good := fun (_ : B) (r : ndarray T * ndarray T) => (arows (fst r) = R /\ acols (fst r) = W) /\ (arows (snd r) = R /\ acols (snd r) = W)).
  destruct (run_ok (z_func l) gs args bs good H order 0%nat) as (store & E & V).
  { intros q I. apply (Permutation_in _ Hp) in I. apply in_seq in I. lia. }
  rewrite E. cbn [bind].
  destruct (stored_all good store bs 0%nat) as (rs & E' & F).
  { intros q b Hq. apply V; [|exact Hq]. apply (Permutation_in _ (Permutation_sym Hp)). apply in_seq. split; [lia|]. cbn. apply nth_error_Some. congruence. }
  rewrite E'. cbn [bind].
  assert (LN : length rs = length bs) by (clear - F; induction F; cbn; congruence).
  assert (NR : rs <> []) by (intros ->; destruct bs; [contradiction|discriminate]).
  destruct (stack_size R W (map fst rs)) as (A & EA & A1 & A2).
  { destruct rs; [contradiction|discriminate]. }
  { clear - F. induction F as [|b r bs rs [X Y] F IH]; constructor; assumption. }
  destruct (stack_size R W (map snd rs)) as (A' & EB & B1 & B2).
  { destruct rs; [contradiction|discriminate]. }
  { clear - F. induction F as [|b r bs rs [X Y] F IH]; constructor; assumption. }
  rewrite map_length, LN in A1, B1. rewrite EA. cbn [bind]. rewrite EB. cbn [bind]. eauto 10.
Qed.

(** Every block is computed with all n rows of angles, so that every block is as tall as the whole result should be *)
Theorem C67_plain_angles : forall {T} {N : NumOps T} k g n w lon lat (dlon dlat : darr T) (satz : ndarray T),
  std_width k w -> 0 < n -> n mod scan_len k = 0 -> first_holds (scan_len k) dlon ->
  chunked Float32 n w lon dlon -> chunked Float32 n w lat dlat -> adt satz = Float32 -> arows satz = n -> acols satz = w ->
  exists l, modis_any k g lon lat (Arr (NP satz)) = Ok (Lazy l (has_dims lon)) /\ zsum (z_rows l) = factor k * n /\
    (whole_scans (scan_len k) dlon < n -> (2 <= length (z_tasks l))%nat) /\
    forall gs order, Permutation order (seq 0 (length (z_tasks l))) ->
      exists olon olat, computed gs order l = Ok (olon, olat) /\
        arows olon = Z.of_nat (length (z_tasks l)) * (factor k * n) /\ arows olat = Z.of_nat (length (z_tasks l)) * (factor k * n).
Proof.
  intros T N k g n w lon lat dlon dlat satz Hw Hn Hm Hc (Ho & D1 & R1 & C1) (Ho2 & D2 & R2 & C2) D3 R3 C3.
  assert (HL : 2 <= scan_len k /\ 1 <= factor k) by (destruct k; cbn; lia).
  set (K := whole_scans (scan_len k) dlon). assert (HK : 0 < K /\ K mod scan_len k = 0).
  { unfold K, whole_scans, first_holds in *. assert (1 <= nth 0 (drow dlon) 0 / scan_len k) by (apply Z.div_le_lower_bound; lia). split; [nia|apply Z_mod_mult]. }
  destruct HK as [HK HK10].
  assert (W0 : 0 < w) by (destruct k; cbn in Hw; lia).
  destruct (blockdims_ok (scan_len k) n (nth 0 (drow dlon) 0) ltac:(lia) ltac:(lia) Hm (or_intror Hc)) as (ms & Bd & Wh & Sm & Ne & _). fold (whole_scans (scan_len k) dlon) in Bd. fold K in Bd.
  assert (FK : coarse_of k / fine_of k = factor k) by (destruct k; reflexivity).
  set (l := {| z_dt := ddt dlon; z_rows := map (fun x => x * factor k) ms; z_cols := fine_width k; z_func := modis_func (if is_1km k then 0 else w) (coarse_of k) (fine_of k);
               z_tasks := map (fun b => [BArr (rows_wide w dlon b); BArr (rows_wide w dlat b); BArr satz]) (row_blocks 0 ms) |}).
  exists l. split; [|split; [|split]].
  - unfold modis_any. replace (modis_width k lon) with (@Ok Z (if is_1km k then 0 else w))
      by (destruct Ho as [-> | ->]; destruct k; cbn; unfold dcols; rewrite ?C1; reflexivity). cbn [bind].
    unfold wrapper. replace (first_array [lon; lat; Arr (NP satz)]) with (Ok lon) by (destruct Ho as [-> | ->]; reflexivity). cbn [bind].
    replace (ndim lon) with 2 by (destruct Ho as [-> | ->]; reflexivity). cbn [Z.eqb Pos.eqb negb].
    replace (has_compute lon) with true by (destruct Ho as [-> | ->]; reflexivity). cbn [map extract].
    replace (extract lon) with (Arr (DA dlon)) by (destruct Ho as [-> | ->]; reflexivity).
    replace (extract lat) with (Arr (DA dlat)) by (destruct Ho2 as [-> | ->]; reflexivity).
    replace (rows_per_scan_for_resolution (coarse_of k)) with (@Ok Z (scan_len k)) by (destruct k; reflexivity). cbn [bind].
    unfold rechunk_if_needed. cbn [first_array filter has_ndim bind]. replace (drows dlon) with n by (symmetry; exact R1). rewrite Hm. cbn [Z.eqb negb].
    rewrite (single_not_good (dcol dlon) : match dcol dlon with [c] => negb (c =? dcols dlon) | _ => false end = false). rewrite andb_false_r. cbn [andb mapM].
    fold (whole_scans (scan_len k) dlon). fold K. unfold rechunk.
    replace (dcols dlon) with w by (symmetry; exact C1). replace (drows dlon) with n by (symmetry; exact R1).
    replace (dcols dlat) with w by (symmetry; exact C2). replace (drows dlat) with n by (symmetry; exact R2).
    replace (w =? 0) with false by (symmetry; apply Z.eqb_neq; lia). rewrite andb_false_r, Bd. cbn [bind].
    unfold call_map_blocks. cbn [first_array filter has_ndim bind]. rewrite FK.
    replace (fine_of k =? 0) with false by (destruct k; reflexivity).
    replace (if fine_of k =? 250 then Ok 4 else if fine_of k =? 500 then Ok 2 else if fine_of k =? 1000 then Ok 1 else Err KeyError) with (@Ok Z (fine_width k / 1354))
      by (destruct k; reflexivity). cbn [bind drow ddt]. rewrite <- (length_row_blocks 0 ms).
    rewrite (mapM_nth _ (fun b => [BArr (rows_wide w dlon b); BArr (rows_wide w dlat b); BArr satz]) (row_blocks 0 ms)).
    + replace (1354 * (fine_width k / 1354)) with (fine_width k) by (destruct k; reflexivity). reflexivity.
    + cbn [Nat.add].
      intros q b Hq. rewrite length_row_blocks. cbn [mapM]. unfold block_arg. cbn [drow dcol length]. rewrite length_row_blocks, !Nat.eqb_refl, Hq. cbn [negb bind].
      unfold rows_of, rows_wide, dcols. cbn [ddt dat dcol zsum fold_right]. rewrite Z.add_0_r. reflexivity.
  - cbn [l z_rows]. rewrite <- Sm. clear. induction ms as [|m ms IH]; [cbn; lia|]. cbn [map].
    change (m * factor k + zsum (map (fun m => m * factor k) ms) = factor k * (m + zsum ms)). rewrite IH. ring.
  - intros HKn. cbn [l z_tasks]. rewrite map_length, length_row_blocks. destruct ms as [|m1 [|m2 ms]]; [contradiction| |cbn; lia].
    exfalso. destruct (blockdims_uniform n K [m1] HK ltac:(lia) Bd (0, m1) (or_introl eq_refl)) as [_ U]. cbn in Sm, U. lia.
  - intros gs order Hp.
    destruct (computed_size gs (fun b => [BArr (rows_wide w dlon b); BArr (rows_wide w dlat b); BArr satz]) (row_blocks 0 ms) order l (n * factor k) (fine_width k))
      as (a & b & Ec & (A1 & _) & (B1 & _)); auto.
    + destruct ms; [contradiction|discriminate].
    + intros g' [s m] I. destruct (row_blocks_in (scan_len k) ltac:(lia) ms 0 Wh ltac:(lia) ltac:(apply Z.mod_0_l; lia) _ I) as (A1 & A2 & A3 & A4 & A5).
      cbn [fst snd] in *. rewrite Sm in A5.
      destruct (cinit_std k w Hw) as (c & p & E & L & E1 & E2 & E3 & E4 & E5).
      destruct (interpolate_short c p L g' n (rows_wide w dlon (s, m)) (rows_wide w dlat (s, m)) satz) as (x & y & O & _ & _ & X1 & X2 & X3 & X4);
        try (unfold rows_wide; cbn [arows acols adt fst snd]; rewrite ?E1, ?E4, ?D1; (assumption || reflexivity || discriminate || lia)).
      exists (x, y). split; [|cbn [fst snd]; rewrite <- E2, <- E3; auto].
      cbn [l z_func]. unfold modis_func, interpolate. change (adt (rows_wide w dlon (s, m))) with (ddt dlon). change (adt (rows_wide w dlat (s, m))) with (ddt dlat). rewrite D1, D2, D3. cbn [dtype_eqb andb negb].
      replace ((coarse_of k =? 5000) && negb (existsb (Z.eqb (if is_1km k then 0 else w)) [0; 270; 271])) with false.
      { rewrite E. cbn [bind]. exact O. }
      destruct k; cbn in *; try reflexivity; destruct Hw as [-> | ->]; reflexivity.
    + exists a, b. split; [exact Ec|]. cbn [l z_tasks]. rewrite map_length. rewrite A1, B1. split; ring.
Qed.
Print Assumptions C67_plain_angles.
(** two scans in two chunks: 80 rows where 40 are announced *)
Example C67_plain_angles_case : let dlon := const_dask Float32 [10; 10] [1354] (Some 0%R) in
  std_width M1km_500m 1354 /\ first_holds (scan_len M1km_500m) dlon /\ chunked Float32 20 1354 (Arr (DA dlon)) dlon /\ whole_scans (scan_len M1km_500m) dlon < 20.
Proof. cbn. split; [reflexivity|]. split; [unfold first_holds; cbn; lia|]. split; [split; [auto|repeat split]|reflexivity]. Qed.

(** ** C139: chunked latitudes of another height than the longitudes (simple interpolation) *)
(** numbers of blocks of k rows in n rows *)
Definition blocks_in (n k : Z) : Z := (n + k - 1) / k.
Lemma blockdims_count n k ms : 0 < k -> 0 < n -> blockdims n k = Ok ms -> Z.of_nat (length ms) = blocks_in n k.
Proof.
  intros Hk Hn E. unfold blockdims in E. destruct (Z.eqb_spec n 0); [lia|]. destruct (Z.eqb_spec k 0); [lia|]. injection E as <-.
  rewrite app_length, repeat_length. unfold blocks_in. pose proof (Z.div_mod n k ltac:(lia)) as D. pose proof (Z.mod_pos_bound n k Hk) as M.
  assert (0 <= n / k) by (apply Z.div_pos; lia).
  destruct (Z.eqb_spec (n mod k) 0) as [Z0|Z0]; cbn [length].
  - replace ((n + k - 1) / k) with (n / k) by (apply Z.div_unique with (k - 1); lia). lia.
  - replace ((n + k - 1) / k) with (n / k + 1) by (apply Z.div_unique with (n mod k - 1); lia). lia.
Qed.
(** the rows of an array repeated up to n rows *)
Definition tiles {T} (n : Z) (a : ndarray T) : ndarray T := {| adt := adt a; arows := n; acols := acols a; aat := fun i j => aat a (i mod arows a) j |}.

Section Heights.
Context {T : Type} {N : NumOps T} (k : simple_fn) (g : garbage2 T) (dt : dtype) (n n2 w : Z) (lon lat : obj T) (dlon dlat : darr T).
Context (Hdt : dt <> OtherDtype) (Hw : 2 <= w) (Hn : 0 < n) (Hm : n mod 10 = 0) (Hc : first_holds 10 dlon)
  (CL : chunked dt n w lon dlon) (CA : chunked dt n2 w lat dlat) (Hn2 : 0 < n2).
#[local] Notation K := (first_rows dlon).

(** the call comes down to da.map_blocks over the two arrays in blocks of K rows *)
Lemma heights_call ms ms2 : 0 < K -> blockdims n K = Ok ms -> blockdims n2 K = Ok ms2 ->
  simple_any (fine_px k) g lon lat =
  let* tasks := mapM (fun q => mapM (block_arg (length ms) q)
      [Arr (DA {| ddt := ddt dlon; drow := ms; dcol := [w]; dat := dat dlon |}); Arr (DA {| ddt := ddt dlat; drow := ms2; dcol := [w]; dat := dat dlat |})]) (seq 0 (length ms)) in
  Ok (Lazy {| z_dt := ddt dlon; z_rows := map (fun x => x * fac2 k) ms; z_cols := 1354 * fac2 k; z_func := simple_func 1000 (fine_px k); z_tasks := tasks |} (has_dims lon)).
Proof using All.
  intros HK B1 B2. destruct CL as (Ho & D1 & R1 & C1), CA as (Ho2 & D2 & R2 & C2).
  assert (FK : 1000 / fine_px k = fac2 k) by (destruct k; reflexivity).
  unfold simple_any, wrapper. replace (first_array [lon; lat]) with (Ok lon) by (destruct Ho as [-> | ->]; reflexivity). cbn [bind].
  replace (ndim lon) with 2 by (destruct Ho as [-> | ->]; reflexivity). cbn [Z.eqb Pos.eqb negb].
  replace (has_compute lon) with true by (destruct Ho as [-> | ->]; reflexivity). cbn [map].
  replace (extract lon) with (Arr (DA dlon)) by (destruct Ho as [-> | ->]; reflexivity).
  replace (extract lat) with (Arr (DA dlat)) by (destruct Ho2 as [-> | ->]; reflexivity).
  change (rows_per_scan_for_resolution 1000) with (@Ok Z 10). cbn [bind].
  unfold rechunk_if_needed. cbn [first_array filter has_ndim bind]. replace (drows dlon) with n by (symmetry; exact R1). rewrite Hm. cbn [Z.eqb negb].
  rewrite (single_not_good (dcol dlon) : match dcol dlon with [c] => negb (c =? dcols dlon) | _ => false end = false). rewrite andb_false_r. cbn [andb mapM].
  fold (first_rows dlon). unfold rechunk. replace (dcols dlon) with w by (symmetry; exact C1). replace (drows dlon) with n by (symmetry; exact R1).
  replace (dcols dlat) with w by (symmetry; exact C2). replace (drows dlat) with n2 by (symmetry; exact R2).
  replace (w =? 0) with false by (symmetry; apply Z.eqb_neq; lia). rewrite !andb_false_r, B1, B2. cbn [bind].
  unfold call_map_blocks. cbn [first_array filter has_ndim bind]. rewrite FK.
  replace (fine_px k =? 0) with false by (destruct k; reflexivity).
  replace (if fine_px k =? 250 then Ok 4 else if fine_px k =? 500 then Ok 2 else if fine_px k =? 1000 then Ok 1 else Err KeyError) with (@Ok Z (fac2 k))
    by (destruct k; reflexivity). cbn [bind drow ddt]. destruct (mapM _ _); reflexivity.
Qed.
Lemma K_pos : 0 < K /\ K mod 10 = 0.
Proof using Hc.
  unfold first_rows, first_holds in *. assert (1 <= nth 0 (drow dlon) 0 / 10) by (apply Z.div_le_lower_bound; lia). split; [lia|apply Z_mod_mult].
Qed.

(** another number of blocks, and more than one: refused *)
Lemma heights_refused : K < n2 -> blocks_in n2 K <> blocks_in n K -> simple_any (fine_px k) g lon lat = Err ValueError.
Proof using All.
  intros Hb Hd. destruct K_pos as [HK _].
  destruct (blockdims n K) as [ms|] eqn:B1; [|unfold blockdims in B1; destruct (Z.eqb_spec n 0); [lia|]; destruct (Z.eqb_spec K 0); [lia|discriminate]].
  destruct (blockdims n2 K) as [ms2|] eqn:B2; [|unfold blockdims in B2; destruct (Z.eqb_spec n2 0); [lia|]; destruct (Z.eqb_spec K 0); [lia|discriminate]].
  rewrite (heights_call ms ms2 HK B1 B2). pose proof (blockdims_count n K ms HK Hn B1) as L1. pose proof (blockdims_count n2 K ms2 HK Hn2 B2) as L2.
  assert (1 < blocks_in n2 K) by (unfold blocks_in; apply Z.lt_le_trans with 2; [lia|apply Z.div_le_lower_bound; lia]).
  assert (0 < blocks_in n K) by (unfold blocks_in; apply Z.lt_le_trans with 1; [lia|apply Z.div_le_lower_bound; lia]).
  destruct ms as [|m1 ms]; [cbn in L1; lia|]. cbn [length seq mapM].
  match goal with |- context [block_arg _ 0 (Arr (DA ?x))] => replace (block_arg (S (length ms)) 0 (Arr (DA x))) with (Ok (BArr (rows_of x (0, m1))))
    by (unfold block_arg; cbn [drow dcol length row_blocks nth_error]; rewrite length_row_blocks, (Nat.eqb_refl (S (length ms))); reflexivity) end.
  cbn [bind].
  match goal with |- context [block_arg _ 0 (Arr (DA ?x))] => replace (block_arg (S (length ms)) 0 (Arr (DA x))) with (@Err (barg T) ValueError) end; [reflexivity|].
  unfold block_arg. cbn [drow dcol length]. rewrite length_row_blocks.
  destruct (Nat.eqb_spec (length ms2) (S (length ms))) as [E|_]; [cbn [length] in L1; lia|].
  destruct (Nat.eqb_spec (length ms2) 1) as [E|_]; [lia|]. reflexivity.
Qed.

(** one block of latitudes: used again for every block of longitudes *)
Lemma heights_repeated : n2 = K ->
  exists olon olat l, simple k g (as_plain dlon) (tiles n (as_plain dlat)) = Ok (olon, olat) /\
    simple_any (fine_px k) g lon lat = Ok (Lazy l (has_dims lon)) /\
    forall gs order, Permutation order (seq 0 (length (z_tasks l))) ->
      exists olon' olat', computed gs order l = Ok (olon', olat') /\ same_array olon olon' /\ same_array olat olat'.
Proof using All.
  intros EK. destruct K_pos as [HK HK10]. pose proof CL as (Ho & D1 & R1 & C1). pose proof CA as (Ho2 & D2 & R2 & C2).
  set (alat := as_plain dlat).
  assert (S0 : shaped2 dt n w (as_plain dlon) (tiles n alat)) by (unfold shaped2, as_plain, tiles; cbn; auto 12).
  destruct (simple_run k g dt n w _ _ Hdt ltac:(lia) Hw S0) as (olon & olat & E & SH & V0).
  destruct (blockdims_ok 10 n (nth 0 (drow dlon) 0) ltac:(lia) ltac:(lia) Hm (or_intror Hc)) as (ms & Bd & Wh & Sm & Ne & _). fold (first_rows dlon) in Bd.
  assert (B2 : blockdims n2 K = Ok [n2]).
  { rewrite <- EK. unfold blockdims. destruct (Z.eqb_spec n2 0); [lia|]. rewrite Z_div_same_full, Z_mod_same_full by lia. reflexivity. }
  set (arg := fun b => [BArr (rows_wide w dlon b); BArr (rows_wide w dlat (0, n2))]).
  set (l := {| z_dt := ddt dlon; z_rows := map (fun x => x * fac2 k) ms; z_cols := 1354 * fac2 k; z_func := simple_func 1000 (fine_px k);
               z_tasks := map arg (row_blocks 0 ms) |}).
  exists olon, olat, l. split; [exact E|]. split.
  - rewrite (heights_call ms [n2] HK Bd B2). rewrite <- (length_row_blocks 0 ms).
    rewrite (mapM_nth _ arg (row_blocks 0 ms)); [reflexivity|]. cbn [Nat.add].
    intros q b Hq. rewrite length_row_blocks. cbn [mapM]. unfold block_arg at 1. cbn [drow dcol length]. rewrite length_row_blocks, !Nat.eqb_refl, Hq. cbn [negb bind].
    unfold block_arg. cbn [drow dcol length row_blocks negb]. change (Nat.eqb 1 1) with true. cbn [negb]. destruct (Nat.eqb_spec 1 (length ms)) as [E1|_].
    + assert (q = 0%nat) by (assert (nth_error (row_blocks 0 ms) q <> None) as X by congruence; apply nth_error_Some in X; rewrite length_row_blocks in X; lia).
      subst q. cbn [nth_error bind]. unfold arg, rows_of, rows_wide, dcols. cbn [ddt dat dcol zsum fold_right]. rewrite !Z.add_0_r. reflexivity.
    + cbn [bind]. unfold arg, rows_of, rows_wide, dcols. cbn [ddt dat dcol zsum fold_right]. rewrite !Z.add_0_r. reflexivity.
  - intros gs order Hp.
    destruct (computed_ok gs arg ms order l dt (fac2 k) (fac2 k * w) (aat olon) (aat olat)
      ltac:(destruct k; cbn; lia) ltac:(eapply Forall_impl; [|exact Wh]; cbn; intros ? []; assumption) Ne eq_refl Hp) as (a & b & Ec & (B1 & B2' & B3 & B4) & (X1 & X2 & X3 & X4)).
    + intros g' [s m] I. destruct (row_blocks_in 10 ltac:(lia) ms 0 Wh ltac:(lia) eq_refl _ I) as (A1 & A2 & A3 & A4 & A5).
      destruct (blockdims_uniform n K ms HK ltac:(lia) Bd _ I) as [U1 U2]. cbn [fst snd] in *. rewrite Sm in A5.
      destruct (simple_interp_ok g' dt m w 1000 (fine_px k) 10 (fac2 k) (rows_wide w dlon (s, m)) (rows_wide w dlat (0, n2))) as (x & y & Ex & Y1 & Y2 & Y3 & Y4 & Y5 & Y6 & V);
        auto; try (destruct k; reflexivity || discriminate); try lia; try (unfold rows_wide; cbn; assumption || reflexivity || lia).
      { unfold fits. destruct k; cbn [fac2 Z.eqb Pos.eqb]; lia. }
      exists (x, y). split; [exact Ex|]. cbn [fst snd].
      assert (VV : forall R i, 0 <= R < fac2 k * m -> 0 <= i < fac2 k * w -> (aat x R i, aat y R i) = (aat olon (fac2 k * s + R) i, aat olat (fac2 k * s + R) i)).
      { intros R i HR Hi. rewrite V by assumption. assert (F2 : 2 <= fac2 k) by (destruct k; cbn; lia). rewrite V0 by (try assumption; nia).
        pose proof (Z.div_mod s 10 ltac:(lia)) as Ds. pose proof (Z.div_mod m 10 ltac:(lia)) as Dm. pose proof (Z.div_mod n 10 ltac:(lia)) as Dn.
        set (F := fac2 k) in *. assert (LF : 0 < F * 10) by nia.
        destruct (Z.ltb_spec R (m / 10 * (F * 10))); [|nia]. destruct (Z.ltb_spec (F * s + R) (n / 10 * (F * 10))); [|nia].
        destruct (off_split (F * 10) R LF) as [ER HB]. set (u := R / (F * 10)) in *. set (r := R mod (F * 10)) in *.
        assert (U : 0 <= u < m / 10) by (unfold u; split; [apply Z.div_pos; lia|apply Z.div_lt_upper_bound; [lia|nia]]).
        replace (F * s + R) with ((s / 10 + u) * (F * 10) + r) by nia.
        rewrite (scan_row (F * 10) (fun p q => ll_scan F 10 w (as_plain dlon) (tiles n alat) p q i)) by exact HB.
        apply ll_scan_ext; [lia| |]; intros i0 j Hi0 Hj; unfold rows_wide, alat, as_plain, tiles; cbn [aat arows fst]; f_equal; [lia|].
        rewrite R2, EK, Z.add_0_l. rewrite <- (Z.mod_small (u * 10 + i0) K) at 1 by nia. replace ((s / 10 + u) * 10 + i0) with (s + (u * 10 + i0)) by lia.
        rewrite (Z.add_mod s) by lia. rewrite U1, Z.add_0_l, Z.mod_mod by lia. reflexivity. }
      split; (split; [assumption|]; split; [assumption|]; split; [assumption|]); intros i j Hi Hj; cbn [fst snd] in *;
        [exact (f_equal fst (VV i j Hi Hj))|exact (f_equal snd (VV i j Hi Hj))].
    + cbn [fst snd] in *. rewrite Sm in *. destruct SH as (A1 & A2 & A4 & A5 & A7 & A8).
      exists a, b. split; [exact Ec|]. split; (split; [congruence|]; split; [congruence|]; split; [congruence|]);
        intros i j Hi Hj; symmetry; [rewrite B4|rewrite X4]; try (f_equal; lia); rewrite ?A4, ?A5, ?A7, ?A8 in *; lia.
Qed.

(** block number q of n rows in blocks of K *)
Lemma block_nth m ms q b : 0 < m -> 0 < K -> blockdims m K = Ok ms -> nth_error (row_blocks 0 ms) q = Some b ->
  b = (Z.of_nat q * K, Z.min K (m - Z.of_nat q * K)).
Proof using All.
  intros H0 HK E Hq. unfold blockdims in E. destruct (Z.eqb_spec m 0); [lia|]. destruct (Z.eqb_spec K 0); [lia|]. injection E as <-.
  pose proof (Z.div_mod m K ltac:(lia)) as D. pose proof (Z.mod_pos_bound m K HK) as M. assert (Q : 0 <= m / K) by (apply Z.div_pos; lia).
  set (rest := if m mod K =? 0 then [] else [m mod K]) in *.
  assert (G : forall c s q b, nth_error (row_blocks s (repeat K c ++ rest)) q = Some b ->
    (q < c)%nat /\ b = (s + Z.of_nat q * K, K) \/ q = c /\ m mod K <> 0 /\ b = (s + Z.of_nat c * K, m mod K)).
  { clear. intros c. induction c as [|c IH]; intros s q b Hq.
    - cbn [repeat app] in Hq. unfold rest in Hq. destruct (Z.eqb_spec (m mod K) 0); [destruct q; discriminate|].
      destruct q as [|q]; [|destruct q; discriminate]. right. injection Hq as <-. split; [reflexivity|]. split; [assumption|]. f_equal. lia.
    - destruct q as [|q]; cbn [repeat app row_blocks nth_error] in Hq.
      + injection Hq as <-. left. split; [lia|]. f_equal; lia.
      + destruct (IH _ _ _ Hq) as [[A ->]|(-> & A & ->)]; [left|right]; repeat split; try lia; f_equal; lia. }
  destruct (G _ _ _ _ Hq) as [[A ->]|(-> & A & ->)]; f_equal; nia.
Qed.
Lemma block_func g' s m s2 m2 : 0 <= m -> m mod 10 = 0 -> 0 <= m2 ->
  m <= m2 /\ (exists r, simple_func 1000 (fine_px k) g' [BArr (rows_wide w dlon (s, m)); BArr (rows_wide w dlat (s2, m2))] = Ok r) \/
  m2 < m /\ simple_func 1000 (fine_px k) g' [BArr (rows_wide w dlon (s, m)); BArr (rows_wide w dlat (s2, m2))] = Err OutOfBounds.
Proof using All.
  intros H0 H10 H2. destruct CL as (Ho & D1 & R1 & C1), CA as (Ho2 & D2 & R2 & C2). destruct (Z.le_gt_cases m m2) as [L|L]; [left|right]; (split; [exact L|]).
  - destruct (simple_interp_ok g' dt m w 1000 (fine_px k) 10 (fac2 k) (rows_wide w dlon (s, m)) (rows_wide w dlat (s2, m2))) as (x & y & Ex & _);
      auto; try (destruct k; reflexivity || discriminate); try lia; try (unfold rows_wide; cbn; assumption || reflexivity || lia).
    + unfold fits. destruct k; cbn [fac2 Z.eqb Pos.eqb]; lia.
    + exists (x, y). exact Ex.
  - rewrite <- (C66_simple_shapes k g' dt m m2 w (rows_wide w dlon (s, m)) (rows_wide w dlat (s2, m2)));
      try assumption; try reflexivity; try lia; [destruct k; reflexivity|]. pose proof (Z.div_mod m 10 ltac:(lia)). lia.
Qed.
Lemma run_fails (args : Z * Z -> list (barg T)) (bs : list (Z * Z)) (func : garbage2 T -> list (barg T) -> res (ndarray T * ndarray T)) gs q0 b0 :
  (forall g' b, In b bs -> (exists r, func g' (args b) = Ok r) \/ func g' (args b) = Err OutOfBounds) ->
  nth_error bs q0 = Some b0 -> (forall g', func g' (args b0) = Err OutOfBounds) ->
  forall order p, (forall q, In q order -> (q < length bs)%nat) -> In q0 order -> run_blocks func gs (map args bs) p order = Err OutOfBounds.
Proof using.
  intros H E0 F0 order. induction order as [|q rest IH]; intros p Hq I; [destruct I|]. cbn [run_blocks]. rewrite nth_error_map.
  destruct (nth_error bs q) as [b|] eqn:Eb; [|apply nth_error_None in Eb; pose proof (Hq q (or_introl eq_refl)); lia]. cbn [option_map].
  destruct I as [->|I].
  - rewrite E0 in Eb. injection Eb as <-. rewrite F0. reflexivity.
  - destruct (H (gs p) b (nth_error_In _ _ Eb)) as [[r ->]| ->]; [|reflexivity]. cbn [bind]. rewrite IH; [reflexivity| |exact I]. intros q' I'. apply Hq. now right.
Qed.

(** the block of latitudes that block b of longitudes is computed with *)
Definition lat_block (b : Z * Z) : Z * Z := if n2 <=? K then (0, n2) else (fst b, Z.min K (n2 - fst b)).
Lemma heights_tasks ms : 0 < K -> blockdims n K = Ok ms -> n2 <= K \/ blocks_in n2 K = blocks_in n K ->
  simple_any (fine_px k) g lon lat = Ok (Lazy {| z_dt := ddt dlon; z_rows := map (fun x => x * fac2 k) ms; z_cols := 1354 * fac2 k; z_func := simple_func 1000 (fine_px k);
    z_tasks := map (fun b => [BArr (rows_wide w dlon b); BArr (rows_wide w dlat (lat_block b))]) (row_blocks 0 ms) |} (has_dims lon)).
Proof using All.
  intros HK B1 Hb.
  destruct (blockdims n2 K) as [ms2|] eqn:B2; [|unfold blockdims in B2; destruct (Z.eqb_spec n2 0); [lia|]; destruct (Z.eqb_spec K 0); [lia|discriminate]].
  rewrite (heights_call ms ms2 HK B1 B2). pose proof (blockdims_count n K ms HK Hn B1) as L1. pose proof (blockdims_count n2 K ms2 HK Hn2 B2) as L2.
  rewrite <- (length_row_blocks 0 ms).
  rewrite (mapM_nth _ (fun b => [BArr (rows_wide w dlon b); BArr (rows_wide w dlat (lat_block b))]) (row_blocks 0 ms)); [reflexivity|]. cbn [Nat.add].
  intros q b Hq. rewrite length_row_blocks. cbn [mapM]. unfold block_arg at 1. cbn [drow dcol length]. rewrite length_row_blocks, !Nat.eqb_refl, Hq. cbn [negb bind].
  pose proof (block_nth n ms q b Hn HK B1 Hq) as Vb.
  assert (QL : (q < length ms)%nat) by (rewrite <- (length_row_blocks 0 ms); apply nth_error_Some; congruence).
  match goal with |- context [block_arg _ q ?x] => replace (block_arg (length ms) q x) with (Ok (BArr (rows_wide w dlat (lat_block b)))) end.
  { unfold rows_of, rows_wide, dcols. cbn [bind ddt dat dcol zsum fold_right]. rewrite Z.add_0_r. reflexivity. }
  symmetry. unfold block_arg. cbn [drow dcol length negb]. change (Nat.eqb 1 1) with true. cbn [negb]. rewrite length_row_blocks.
  unfold lat_block. destruct (Z.leb_spec n2 K) as [Hle|Hgt].
  - assert (BL : blocks_in n2 K = 1) by (unfold blocks_in; symmetry; apply Z.div_unique with (n2 - 1); lia).
    destruct ms2 as [|m2 [|? ?]]; [cbn in L2; lia| |cbn [length] in L2; lia].
    destruct (Nat.eqb_spec (length [m2]) (length ms)) as [E1|_].
    + cbn [length] in E1. assert (q = 0%nat) by lia. subst q. cbn [row_blocks nth_error].
      pose proof (block_nth n2 [m2] 0 (0, m2) Hn2 HK B2 eq_refl) as X. injection X as X. cbn in X. rewrite Z.min_r in X by lia.
      unfold rows_of, rows_wide, dcols. cbn [ddt dat dcol zsum fold_right fst snd]. rewrite Z.add_0_r. repeat f_equal. lia.
    + cbn [length Nat.eqb row_blocks].
      pose proof (block_nth n2 [m2] 0 (0, m2) Hn2 HK B2 eq_refl) as X. injection X as X. cbn in X. rewrite Z.min_r in X by lia.
      unfold rows_of, rows_wide, dcols. cbn [ddt dat dcol zsum fold_right fst snd]. rewrite Z.add_0_r. repeat f_equal. lia.
  - destruct Hb as [Hb|Hb]; [lia|]. assert (LL : length ms2 = length ms) by lia. rewrite LL, Nat.eqb_refl.
    destruct (nth_error (row_blocks 0 ms2) q) as [b2|] eqn:E2; [|apply nth_error_None in E2; rewrite length_row_blocks in E2; lia].
    rewrite (block_nth n2 ms2 q b2 Hn2 HK B2 E2). rewrite Vb. cbn [fst]. unfold rows_of, rows_wide, dcols. cbn [ddt dat dcol zsum fold_right fst snd]. rewrite Z.add_0_r. reflexivity.
Qed.
Lemma mod10_blocks ms s m : 0 < K -> K mod 10 = 0 -> blockdims n K = Ok ms -> In (s, m) (row_blocks 0 ms) ->
  0 <= s /\ 0 < m <= K /\ s + m <= n /\ m mod 10 = 0 /\ s mod 10 = 0 /\ s mod K = 0 /\ (n2 <= K \/ blocks_in n2 K = blocks_in n K -> 0 <= snd (lat_block (s, m))).
Proof using All.
  intros HK H10 B1 I. destruct (In_nth_error _ _ I) as [q Eq]. pose proof (block_nth n ms q _ Hn HK B1 Eq) as V.
  assert (QL : (q < length ms)%nat) by (rewrite <- (length_row_blocks 0 ms); apply nth_error_Some; congruence).
  pose proof (blockdims_count n K ms HK Hn B1) as L1. injection V as -> ->. unfold blocks_in in *.
  pose proof (Z.div_mod (n + K - 1) K ltac:(lia)) as D. pose proof (Z.mod_pos_bound (n + K - 1) K HK) as M.
  assert (Z.of_nat q * K < n) by nia.
  assert (SM : (Z.of_nat q * K) mod 10 = 0) by (rewrite Z.mul_mod, H10, Z.mul_0_r by lia; reflexivity).
  split; [nia|]. split; [lia|]. split; [lia|]. split; [|split; [exact SM|split; [apply Z_mod_mult|]]].
  - destruct (Z.min_spec K (n - Z.of_nat q * K)) as [[_ ->]|[_ ->]]; [exact H10|]. rewrite Zminus_mod, Hm, SM. reflexivity.
  - intros Hb. unfold lat_block. destruct (Z.leb_spec n2 K); [cbn; lia|]. cbn [fst snd]. destruct Hb as [Hb|Hb]; [lia|].
    pose proof (Z.div_mod (n2 + K - 1) K ltac:(lia)) as D2. pose proof (Z.mod_pos_bound (n2 + K - 1) K HK) as M2. rewrite Hb in D2.
    assert (Z.of_nat q * K < n2) by nia. lia.
Qed.

(** latitudes with fewer rows: read beyond their end *)
Lemma heights_short : n2 < n -> n2 < K \/ K < n2 /\ blocks_in n2 K = blocks_in n K ->
  exists l, simple_any (fine_px k) g lon lat = Ok (Lazy l (has_dims lon)) /\
    forall gs order, Permutation order (seq 0 (length (z_tasks l))) -> computed gs order l = Err OutOfBounds.
Proof using All.
  intros Hlt Hs. destruct K_pos as [HK HK10].
  destruct (blockdims n K) as [ms|] eqn:B1; [|unfold blockdims in B1; destruct (Z.eqb_spec n 0); [lia|]; destruct (Z.eqb_spec K 0); [lia|discriminate]].
  assert (Hb : n2 <= K \/ blocks_in n2 K = blocks_in n K) by (destruct Hs as [?|[_ ?]]; [left; lia|right; assumption]).
  eexists. split; [apply (heights_tasks ms HK B1 Hb)|]. cbn [z_tasks]. intros gs order Hp. unfold computed. cbn [z_func z_tasks].
  pose proof (blockdims_count n K ms HK Hn B1) as L1.
  assert (L0 : (0 < length ms)%nat).
  { enough (0 < blocks_in n K) by lia. unfold blocks_in. apply Z.lt_le_trans with 1; [lia|apply Z.div_le_lower_bound; lia]. }
  set (q0 := if n2 <? K then O else (length ms - 1)%nat).
  assert (Q0 : (q0 < length ms)%nat) by (unfold q0; destruct (n2 <? K); lia).
  destruct (nth_error (row_blocks 0 ms) q0) as [b0|] eqn:E0; [|apply nth_error_None in E0; rewrite length_row_blocks in E0; lia].
  pose proof (block_nth n ms q0 b0 Hn HK B1 E0) as V0.
  rewrite (run_fails _ (row_blocks 0 ms) _ gs q0 b0); [reflexivity| |exact E0| | |].
  - intros g' [s m] I. destruct (mod10_blocks ms s m HK HK10 B1 I) as (A1 & A2 & A3 & A4 & A5 & A6 & A7). specialize (A7 Hb).
    destruct (lat_block (s, m)) as [s2 m2] eqn:EL. cbn [snd] in A7. destruct (block_func g' s m s2 m2 ltac:(lia) A4 A7) as [[_ R]|[_ R]]; [left|right]; exact R.
  - intros g'. destruct b0 as [s m]. destruct (mod10_blocks ms s m HK HK10 B1 (nth_error_In _ _ E0)) as (A1 & A2 & A3 & A4 & A5 & A6 & A7). specialize (A7 Hb).
    destruct (lat_block (s, m)) as [s2 m2] eqn:EL. cbn [snd] in A7. destruct (block_func g' s m s2 m2 ltac:(lia) A4 A7) as [[Bad _]|[_ R]]; [|exact R]. exfalso.
    injection V0 as Vs Vm. unfold lat_block in EL. unfold q0 in *. destruct (Z.ltb_spec n2 K) as [X|X].
    + destruct (Z.leb_spec n2 K); [|lia]. injection EL as <- <-. cbn in Vs, Vm. rewrite Z.sub_0_r in Vm. lia.
    + destruct Hs as [?|[Hgt Heq]]; [lia|]. destruct (Z.leb_spec n2 K); [lia|]. cbn [fst] in EL. injection EL as <- <-.
      unfold blocks_in in *. pose proof (Z.div_mod (n + K - 1) K ltac:(lia)) as D. pose proof (Z.mod_pos_bound (n + K - 1) K HK) as M.
      assert (s = Z.of_nat (length ms) * K - K) by (rewrite Vs; nia). assert (n - s <= K) by nia. lia.
  - intros q I. apply (Permutation_in _ Hp) in I. apply in_seq in I. rewrite map_length in I. lia.
  - apply (Permutation_in _ (Permutation_sym Hp)). apply in_seq. rewrite map_length, length_row_blocks. lia.
Qed.

(** latitudes with more rows in as many blocks: the last rows are not used *)
Lemma heights_long : n <= n2 -> blocks_in n2 K = blocks_in n K ->
  exists olon olat l, simple k g (as_plain dlon) (strip dlat 0 n) = Ok (olon, olat) /\
    simple_any (fine_px k) g lon lat = Ok (Lazy l (has_dims lon)) /\
    forall gs order, Permutation order (seq 0 (length (z_tasks l))) ->
      exists olon' olat', computed gs order l = Ok (olon', olat') /\ same_array olon olon' /\ same_array olat olat'.
Proof using All.
  intros Hle Hb. destruct K_pos as [HK HK10]. pose proof CL as (Ho & D1 & R1 & C1). pose proof CA as (Ho2 & D2 & R2 & C2).
  set (alat := strip dlat 0 n).
  assert (S0 : shaped2 dt n w (as_plain dlon) alat) by (unfold shaped2, as_plain, alat, strip; cbn; auto 12).
  destruct (simple_run k g dt n w _ _ Hdt ltac:(lia) Hw S0) as (olon & olat & E & SH & V0).
  destruct (blockdims_ok 10 n (nth 0 (drow dlon) 0) ltac:(lia) ltac:(lia) Hm (or_intror Hc)) as (ms & Bd & Wh & Sm & Ne & _). fold (first_rows dlon) in Bd.
  exists olon, olat. eexists. split; [exact E|]. split; [apply (heights_tasks ms HK Bd (or_intror Hb))|]. cbn [z_tasks]. intros gs order Hp.
  match goal with |- context [computed gs order ?x] => set (l := x) end.
  destruct (computed_ok gs (fun b => [BArr (rows_wide w dlon b); BArr (rows_wide w dlat (lat_block b))]) ms order l dt (fac2 k) (fac2 k * w) (aat olon) (aat olat)
    ltac:(destruct k; cbn; lia) ltac:(eapply Forall_impl; [|exact Wh]; cbn; intros ? []; assumption) Ne eq_refl Hp) as (a & b & Ec & (B1 & B2' & B3 & B4) & (X1 & X2 & X3 & X4)).
  - intros g' [s m] I. destruct (mod10_blocks ms s m HK HK10 Bd I) as (A1 & A2 & A3 & A4 & A5 & A6 & _).
    assert (LB : fst (lat_block (s, m)) = s /\ m <= snd (lat_block (s, m))).
    { unfold lat_block. destruct (Z.leb_spec n2 K); cbn [fst snd]; [|split; lia].
      assert (s = 0) by (rewrite Z.mod_small in A6 by lia; exact A6). lia. }
    destruct (lat_block (s, m)) as [s2 m2] eqn:EL. cbn [fst snd] in LB. destruct LB as [-> Hm2].
    destruct (simple_interp_ok g' dt m w 1000 (fine_px k) 10 (fac2 k) (rows_wide w dlon (s, m)) (rows_wide w dlat (s, m2))) as (x & y & Ex & Y1 & Y2 & Y3 & Y4 & Y5 & Y6 & V);
      auto; try (destruct k; reflexivity || discriminate); try lia; try (unfold rows_wide; cbn; assumption || reflexivity || lia).
    { unfold fits. destruct k; cbn [fac2 Z.eqb Pos.eqb]; lia. }
    exists (x, y). cbn [fst snd]. split; [exact Ex|].
    assert (VV : forall R i, 0 <= R < fac2 k * m -> 0 <= i < fac2 k * w -> (aat x R i, aat y R i) = (aat olon (fac2 k * s + R) i, aat olat (fac2 k * s + R) i)).
    { intros R i HR Hi. rewrite V by assumption. assert (F2 : 2 <= fac2 k) by (destruct k; cbn; lia). rewrite V0 by (try assumption; nia).
      pose proof (Z.div_mod s 10 ltac:(lia)) as Ds. pose proof (Z.div_mod m 10 ltac:(lia)) as Dm. pose proof (Z.div_mod n 10 ltac:(lia)) as Dn.
      set (F := fac2 k) in *. assert (LF : 0 < F * 10) by nia.
      destruct (Z.ltb_spec R (m / 10 * (F * 10))); [|nia]. destruct (Z.ltb_spec (F * s + R) (n / 10 * (F * 10))); [|nia].
      destruct (off_split (F * 10) R LF) as [ER HB]. set (u := R / (F * 10)) in *. set (r := R mod (F * 10)) in *.
      assert (U : 0 <= u < m / 10) by (unfold u; split; [apply Z.div_pos; lia|apply Z.div_lt_upper_bound; [lia|nia]]).
      replace (F * s + R) with ((s / 10 + u) * (F * 10) + r) by nia.
      rewrite (scan_row (F * 10) (fun p q => ll_scan F 10 w (as_plain dlon) alat p q i)) by exact HB.
      apply ll_scan_ext; [lia| |]; intros i0 j Hi0 Hj; unfold rows_wide, alat, as_plain, strip; cbn [aat arows fst]; f_equal; [lia|].
      lia. }
    split; (split; [assumption|]; split; [assumption|]; split; [assumption|]); intros i j Hi Hj; cbn [fst snd] in *;
      [exact (f_equal fst (VV i j Hi Hj))|exact (f_equal snd (VV i j Hi Hj))].
  - cbn [fst snd] in *. rewrite Sm in *. destruct SH as (A1 & A2 & A4 & A5 & A7 & A8).
    exists a, b. split; [exact Ec|]. split; (split; [congruence|]; split; [congruence|]; split; [congruence|]);
      intros i j Hi Hj; symmetry; [rewrite B4|rewrite X4]; try (f_equal; lia); rewrite ?A4, ?A5, ?A7, ?A8 in *; lia.
Qed.
End Heights.

(** The full statement: whenever n2 <> n, the call is refused. It holds for more than one block of latitudes when the numbers
    of blocks differ; it is false for a single block of latitudes as tall as the blocks of longitudes, which is used for each
    of them, and for equal numbers of blocks *)
Theorem C139_refused_partial : forall {T} {N : NumOps T} k g dt n n2 w lon lat (dlon dlat : darr T),
  dt <> OtherDtype -> 2 <= w -> 0 < n -> n mod 10 = 0 -> first_holds 10 dlon -> chunked dt n w lon dlon -> chunked dt n2 w lat dlat ->
  let K := nth 0 (drow dlon) 0 / 10 * 10 in
  K < n2 -> (n2 + K - 1) / K <> (n + K - 1) / K -> simple_any (fine_px k) g lon lat = Err ValueError.
Proof.
  intros T N k g dt n n2 w lon lat dlon dlat Hdt Hw Hn Hm Hc CL CA K Hb Hd.
  assert (0 < K) by (apply (K_pos dlon Hc)). apply (heights_refused k g dt n n2 w lon lat dlon dlat); auto; lia.
Qed.
Print Assumptions C139_refused_partial.
Theorem C139_repeated_partial : forall {T} {N : NumOps T} k g dt n w lon lat (dlon dlat : darr T),
  dt <> OtherDtype -> 2 <= w -> 0 < n -> n mod 10 = 0 -> first_holds 10 dlon ->
  chunked dt n w lon dlon -> chunked dt (nth 0 (drow dlon) 0 / 10 * 10) w lat dlat ->
  exists olon olat l, simple k g (as_plain dlon) (tiles n (as_plain dlat)) = Ok (olon, olat) /\
    simple_any (fine_px k) g lon lat = Ok (Lazy l (has_dims lon)) /\
    forall gs order, Permutation order (seq 0 (length (z_tasks l))) ->
      exists olon' olat', computed gs order l = Ok (olon', olat') /\ same_array olon olon' /\ same_array olat olat'.
Proof.
  intros T N k g dt n w lon lat dlon dlat Hdt Hw Hn Hm Hc CL CA. pose proof (K_pos dlon Hc).
  apply (heights_repeated k g dt n (nth 0 (drow dlon) 0 / 10 * 10) w lon lat dlon dlat); auto. unfold first_rows in *. lia.
Qed.
Print Assumptions C139_repeated_partial.
(** fewer rows than the first block of longitudes, or as many blocks and fewer rows: read beyond their end *)
Theorem C139_short_partial : forall {T} {N : NumOps T} k g dt n n2 w lon lat (dlon dlat : darr T),
  dt <> OtherDtype -> 2 <= w -> 0 < n2 < n -> n mod 10 = 0 -> first_holds 10 dlon -> chunked dt n w lon dlon -> chunked dt n2 w lat dlat ->
  let K := nth 0 (drow dlon) 0 / 10 * 10 in
  n2 < K \/ K < n2 /\ (n2 + K - 1) / K = (n + K - 1) / K ->
  exists l, simple_any (fine_px k) g lon lat = Ok (Lazy l (has_dims lon)) /\
    forall gs order, Permutation order (seq 0 (length (z_tasks l))) -> computed gs order l = Err OutOfBounds.
Proof.
  intros T N k g dt n n2 w lon lat dlon dlat Hdt Hw [H0 Hlt] Hm Hc CL CA K Hs. apply (heights_short k g dt n n2 w lon lat dlon dlat); auto; lia.
Qed.
Print Assumptions C139_short_partial.
(** more rows in as many blocks: the surplus is not used *)
Theorem C139_long_partial : forall {T} {N : NumOps T} k g dt n n2 w lon lat (dlon dlat : darr T),
  dt <> OtherDtype -> 2 <= w -> 0 < n < n2 -> n mod 10 = 0 -> first_holds 10 dlon -> chunked dt n w lon dlon -> chunked dt n2 w lat dlat ->
  let K := nth 0 (drow dlon) 0 / 10 * 10 in
  (n2 + K - 1) / K = (n + K - 1) / K ->
  exists olon olat l, simple k g (as_plain dlon) (strip dlat 0 n) = Ok (olon, olat) /\
    simple_any (fine_px k) g lon lat = Ok (Lazy l (has_dims lon)) /\
    forall gs order, Permutation order (seq 0 (length (z_tasks l))) ->
      exists olon' olat', computed gs order l = Ok (olon', olat') /\ same_array olon olon' /\ same_array olat olat'.
Proof.
  intros T N k g dt n n2 w lon lat dlon dlat Hdt Hw [H0 Hlt] Hm Hc CL CA K Hs. apply (heights_long k g dt n n2 w lon lat dlon dlat); auto; lia.
Qed.
Print Assumptions C139_long_partial.
(** every other height falls under one of the four theorems *)
Lemma C139_cases n n2 K : 0 < K -> 0 < n -> 0 < n2 -> n2 <> n ->
  (K < n2 /\ (n2 + K - 1) / K <> (n + K - 1) / K) \/ n2 = K \/ (n2 < n /\ (n2 < K \/ K < n2 /\ (n2 + K - 1) / K = (n + K - 1) / K)) \/
  (n < n2 /\ (n2 + K - 1) / K = (n + K - 1) / K).
Proof.
  intros HK Hn Hn2 Hd. destruct (Z.lt_total n2 K) as [L|[L|L]]; [|auto|].
  - destruct (Z.lt_ge_cases n2 n); [auto 6|]. right. right. right. split; [lia|].
    replace ((n2 + K - 1) / K) with 1 by (apply Z.div_unique with (n2 - 1); lia). apply Z.div_unique with (n - 1); lia.
  - destruct (Z.eq_dec ((n2 + K - 1) / K) ((n + K - 1) / K)); [|auto]. destruct (Z.lt_ge_cases n2 n); [auto 8|]. right. right. right. split; [lia|assumption].
Qed.
Theorem C139_refuted : exists n n2, n2 <> n /\ forall T (N : NumOps T) g (v : T),
  let dlon := const_dask Float32 [10; 10] [2] v in
  let dlat := const_dask Float32 [10] [2] v in
  chunked Float32 n 2 (Arr (DA dlon)) dlon /\ chunked Float32 n2 2 (Arr (DA dlat)) dlat /\
  exists l, simple_any 500 g (Arr (DA dlon)) (Arr (DA dlat)) = Ok (Lazy l false) /\
    forall gs order, Permutation order (seq 0 (length (z_tasks l))) -> exists r, computed gs order l = Ok r.
Proof.
  exists 20, 10. split; [lia|]. intros T N g v dlon dlat.
  assert (CL : chunked Float32 20 2 (Arr (DA dlon)) dlon) by (split; [auto|repeat split]).
  assert (CA : chunked Float32 10 2 (Arr (DA dlat)) dlat) by (split; [auto|repeat split]).
  split; [exact CL|]. split; [exact CA|].
  destruct (C139_repeated_partial To500m g Float32 20 2 _ _ dlon dlat ltac:(discriminate) ltac:(lia) ltac:(lia) eq_refl ltac:(unfold first_holds; cbn; lia) CL CA)
    as (x1 & x2 & l & _ & E & C).
  exists l. split; [exact E|]. intros gs order Hp. destruct (C gs order Hp) as (a & b & Ec & _). eauto.
Qed.
Print Assumptions C139_refuted.
(** three blocks of longitudes, two of latitudes *)
Example C139_case : forall {T} {N : NumOps T} g (v : T),
  simple_any (fine_px To500m) g (Arr (DA (const_dask Float32 [10; 10; 10] [2] v))) (Arr (DA (const_dask Float32 [20] [2] v))) = Err ValueError.
Proof.
  intros. apply (C139_refused_partial To500m g Float32 30 20 2) with (dlon := const_dask Float32 [10; 10; 10] [2] v) (dlat := const_dask Float32 [20] [2] v);
    try (discriminate || reflexivity || lia); try (split; [auto|repeat split]).
Qed.
