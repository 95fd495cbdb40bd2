(** C145: chunked satellite angles of another height than the longitudes and latitudes (modis_5km_to_1km and the others). *)
From Coq Require Import ZArith List Bool Lia Permutation Reals.
From Verif Require Import Base Num Geo Mem Modis ModisProofs SimpleModis SimpleModisProofs Mapblocks MapblocksProofs PropsModis PropsSimple PropsMapblocks PropsMixed.
Import ListNotations.
Open Scope Z_scope.

(** ** Any height of the angles *)
Lemma interpolate_heights {T} {N : NumOps T} (c : cfg) (p : Z) (L : layout c p) g n (lon lat satz : ndarray T) :
  0 <= n -> 0 <= arows lon -> arows lon mod scl c = 0 -> arows lat = arows lon -> arows satz = n ->
  acols lon = scw c -> acols lat = scw c -> acols satz = scw c -> adt lon <> Float64 ->
  exists olon olat, interpolate_cfg c g lon lat satz = Ok (olon, olat) /\
    arows olon = n * ff c /\ arows olat = n * ff c /\ acols olon = fsw c /\ acols olat = fsw c.
Proof.
  intros Hn Hl Hmm R2 R3 C1 C2 C3 Hdt.
  assert (P : 0 < scl c /\ 0 < ff c) by (destruct L as [? [(? & ? & ? & ? & ? & ?)|(? & ? & ? & ? & ? & ?)]]; lia).
  assert (P3 : 0 <= scw c) by (destruct L as [? [(? & ? & ? & ? & ? & ?)|(? & ? & ? & ? & ? & ?)]]; lia).
  unfold interpolate_cfg. destruct (coords_ok c p g L) as (x & y & E0 & Hx & Hy & Vx & Vy). rewrite E0. cbn [bind].
  replace (dtype_eqb (adt lon) Float64) with false by (destruct (adt lon); [reflexivity|contradiction|reflexivity]).
  destruct (Z.eqb_spec (scl c) 0) as [|_]; [lia|]. rewrite R3. set (S := n / scl c).
  assert (HS : 0 <= S /\ S * scl c <= n) by (unfold S; split; [apply Z.div_pos; lia|rewrite Z.mul_comm; apply Z.mul_div_le; lia]).
  destruct (for_range_inv (fun _ => sized c (n * ff c)) S (scan_body c (n * ff c) lon lat satz x y) (empty_work c g (n * ff c))) as (q' & E & _).
  - lia.
  - apply sized_empty.
  - intros s q Hs Hq. destruct (Z.lt_ge_cases (s * scl c) (arows lon)) as [Hlt|Hge].
    + assert ((s + 1) * scl c <= arows lon) by (pose proof (Z.div_mod (arows lon) (scl c) ltac:(lia)) as D; rewrite Hmm in D; assert (s < arows lon / scl c) by nia; nia).
      destruct (scan_stage c p L n (scw c) lon lat satz x y ltac:(lia) ltac:(lia) R3 C1 C2 C3 Hx Hy Vx Vy s q ltac:(lia) ltac:(nia) ltac:(lia) ltac:(lia) Hq) as (q' & asc & E & Q' & _).
      exists q'. auto.
    + apply (scan_stale c p L); auto; nia.
  - rewrite E. cbn [bind]. eexists _, _. split; [reflexivity|]. unfold array_of. cbn [adt arows acols]. auto 10.
Qed.

(** ** Blocks of different heights *)
Lemma stack_heights {T B} (h : B -> Z) W : forall (bs : list B) (l : list (ndarray T)), Forall2 (fun b a => arows a = h b /\ acols a = W) bs l -> l <> [] ->
  exists A, stack l = Ok A /\ arows A = zsum (map h bs) /\ acols A = W.
Proof.
  intros bs l F. induction F as [|b a bs l [Ha Wa] F IH]; intros Hl; [contradiction|]. destruct l as [|a' l].
  - exists a. inversion F; subst. cbn. split; [reflexivity|]. lia.
  - destruct (IH ltac:(discriminate)) as (A & E & HA & WA). change (stack (a :: a' :: l)) with
      (let* x := stack (a' :: l) in if acols a =? acols x then
        Ok {| adt := adt a; arows := arows a + arows x; acols := acols a; aat := fun i j => if i <? arows a then aat a i j else aat x (i - arows a) j |} else Err ValueError).
    rewrite E. cbn [bind]. rewrite Wa, WA, Z.eqb_refl. eexists. split; [reflexivity|]. cbn [arows acols]. split; [|reflexivity].
    rewrite HA, Ha. reflexivity.
Qed.
Lemma computed_heights {T G B} (gs : nat -> G) (args : B -> list (barg T)) (bs : list B) order (l : lazyres T G) (h : B -> Z) W :
  bs <> [] -> z_tasks l = map args bs -> Permutation order (seq 0 (length (z_tasks l))) ->
  (forall g b, In b bs -> exists r, z_func l g (args b) = Ok r /\ (arows (fst r) = h b /\ acols (fst r) = W) /\ (arows (snd r) = h b /\ acols (snd r) = W)) ->
  exists a b, computed gs order l = Ok (a, b) /\ (arows a = zsum (map h bs) /\ acols a = W) /\ (arows b = zsum (map h bs) /\ acols b = W).
Proof.
  intros Ne Ht Hp H. unfold computed. rewrite Ht in *. rewrite map_length in *.
  set (good := fun (b : B) (r : ndarray T * ndarray T) => (arows (fst r) = h b /\ acols (fst r) = W) /\ (arows (snd r) = h b /\ acols (snd r) = W)).
  destruct (run_ok (z_func l) gs args bs good H order 0%nat) as (store & E & V).
  { intros q I. apply (Permutation_in _ Hp) in I. apply in_seq in I. lia. }
  rewrite E. cbn [bind].
  destruct (stored_all good store bs 0%nat) as (rs & E' & F).
  { intros q b Hq. apply V; [|exact Hq]. apply (Permutation_in _ (Permutation_sym Hp)). apply in_seq. split; [lia|]. cbn. apply nth_error_Some. congruence. }
  rewrite E'. cbn [bind].
  assert (NR : rs <> []) by (intros ->; destruct bs; [contradiction|inversion F]).
  assert (F1 : Forall2 (fun b a => arows a = h b /\ acols a = W) bs (map fst rs)) by (clear - F; induction F as [|b r bs rs [X Y] F IH]; constructor; assumption).
  assert (F2 : Forall2 (fun b a => arows a = h b /\ acols a = W) bs (map snd rs)) by (clear - F; induction F as [|b r bs rs [X Y] F IH]; constructor; assumption).
  destruct (stack_heights h W _ _ F1) as (A & EA & A1 & A2); [destruct rs; [contradiction|discriminate]|].
  destruct (stack_heights h W _ _ F2) as (A' & EB & B1 & B2); [destruct rs; [contradiction|discriminate]|].
  rewrite EA. cbn [bind]. rewrite EB. cbn [bind]. eauto 10.
Qed.

(** ** The blocks of an axis *)
Lemma block_nth m K ms q b : 0 < m -> 0 < K -> blockdims m K = Ok ms -> nth_error (row_blocks 0 ms) q = Some b ->
  b = (Z.of_nat q * K, Z.min K (m - Z.of_nat q * K)).
Proof.
  intros H0 HK E Hq. unfold blockdims in E. destruct (Z.eqb_spec m 0); [lia|]. destruct (Z.eqb_spec K 0); [lia|]. injection E as <-.
  pose proof (Z.div_mod m K ltac:(lia)) as D. pose proof (Z.mod_pos_bound m K HK) as M. assert (Q : 0 <= m / K) by (apply Z.div_pos; lia).
  set (rest := if m mod K =? 0 then [] else [m mod K]) in *.
  assert (G : forall c s q b, nth_error (row_blocks s (repeat K c ++ rest)) q = Some b ->
    (q < c)%nat /\ b = (s + Z.of_nat q * K, K) \/ q = c /\ m mod K <> 0 /\ b = (s + Z.of_nat c * K, m mod K)).
  { clear. intros c. induction c as [|c IH]; intros s q b Hq.
    - cbn [repeat app] in Hq. unfold rest in Hq. destruct (Z.eqb_spec (m mod K) 0); [destruct q; discriminate|].
      destruct q as [|q]; [|destruct q; discriminate]. right. injection Hq as <-. split; [reflexivity|]. split; [assumption|]. f_equal. lia.
    - destruct q as [|q]; cbn [repeat app row_blocks nth_error] in Hq.
      + injection Hq as <-. left. split; [lia|]. f_equal; lia.
      + destruct (IH _ _ _ Hq) as [[A ->]|(-> & A & ->)]; [left|right]; repeat split; try lia; f_equal; lia. }
  destruct (G _ _ _ _ Hq) as [[A ->]|(-> & A & ->)]; f_equal; nia.
Qed.
Lemma blockdims_exists n K : 0 < n -> 0 < K -> exists ms, blockdims n K = Ok ms /\ zsum ms = n.
Proof.
  intros Hn HK. unfold blockdims. destruct (Z.eqb_spec n 0); [lia|]. destruct (Z.eqb_spec K 0); [lia|]. eexists. split; [reflexivity|].
  pose proof (Z.div_mod n K ltac:(lia)) as D. assert (0 <= n / K) by (apply Z.div_pos; lia).
  assert (R : forall c l, zsum (repeat K c ++ l) = Z.of_nat c * K + zsum l).
  { intros c l. induction c as [|c IH]; [reflexivity|]. cbn [repeat app]. change (K + zsum (repeat K c ++ l) = Z.of_nat (S c) * K + zsum l). rewrite IH. lia. }
  rewrite R, Z2Nat.id by lia. destruct (Z.eqb_spec (n mod K) 0); cbn; lia.
Qed.
Lemma zsum_blocks s ms : zsum (map snd (row_blocks s ms)) = zsum ms.
Proof. revert s. induction ms as [|m ms IH]; intros s; [reflexivity|]. cbn [row_blocks map snd]. change (m + zsum (map snd (row_blocks (s + m) ms)) = m + zsum ms). now rewrite IH. Qed.
Lemma nth_error_ext {A} (l l' : list A) : (forall q, nth_error l q = nth_error l' q) -> l = l'.
Proof.
  revert l'. induction l as [|a l IH]; intros [|b l'] H; [reflexivity|discriminate (H 0%nat)|discriminate (H 0%nat)|].
  injection (H 0%nat) as ->. f_equal. apply IH. intros q. exact (H (S q)).
Qed.

Section Heights.
Context {T : Type} {N : NumOps T} (k : modis_fn) (g : garbage T) (n n3 w : Z) (lon lat satz : obj T) (dlon dlat dsatz : darr T).
Context (Hw : std_width k w) (Hn : 0 < n) (Hm : n mod scan_len k = 0) (Hc : first_holds (scan_len k) dlon)
  (CL : chunked Float32 n w lon dlon) (CA : chunked Float32 n w lat dlat) (CS : chunked Float32 n3 w satz dsatz) (Hn3 : 0 < n3).
#[local] Notation K := (whole_scans (scan_len k) dlon).

Lemma KP : 0 < K /\ K mod scan_len k = 0.
Proof using Hc.
  assert (HL : 2 <= scan_len k) by (clear; destruct k; cbn; lia).
  unfold whole_scans, first_holds in *. assert (1 <= nth 0 (drow dlon) 0 / scan_len k) by (apply Z.div_le_lower_bound; lia). split; [nia|apply Z_mod_mult].
Qed.
Lemma angles_call ms ms3 : blockdims n K = Ok ms -> blockdims n3 K = Ok ms3 ->
  modis_any k g lon lat satz =
  let* tasks := mapM (fun q => mapM (block_arg (length ms) q)
      [Arr (DA {| ddt := ddt dlon; drow := ms; dcol := [w]; dat := dat dlon |}); Arr (DA {| ddt := ddt dlat; drow := ms; dcol := [w]; dat := dat dlat |});
       Arr (DA {| ddt := ddt dsatz; drow := ms3; dcol := [w]; dat := dat dsatz |})]) (seq 0 (length ms)) in
  Ok (Lazy {| z_dt := ddt dlon; z_rows := map (fun x => x * factor k) ms; z_cols := fine_width k; z_func := modis_func (if is_1km k then 0 else w) (coarse_of k) (fine_of k); z_tasks := tasks |} (has_dims lon)).
Proof using All.
  intros B1 B3. pose proof KP as [HK _]. destruct CL as (Ho & D1 & R1 & C1), CA as (Ho2 & D2 & R2 & C2), CS as (Ho3 & D3 & R3 & C3).
  assert (W0 : 0 < w) by (destruct k; cbn in Hw; lia).
  assert (FK : coarse_of k / fine_of k = factor k) by (destruct k; reflexivity).
  unfold modis_any. replace (modis_width k lon) with (@Ok Z (if is_1km k then 0 else w))
    by (destruct Ho as [-> | ->]; destruct k; cbn; unfold dcols; rewrite ?C1; reflexivity). cbn [bind].
  unfold wrapper. replace (first_array [lon; lat; satz]) with (Ok lon) by (destruct Ho as [-> | ->]; reflexivity). cbn [bind].
  replace (ndim lon) with 2 by (destruct Ho as [-> | ->]; reflexivity). cbn [Z.eqb Pos.eqb negb].
  replace (has_compute lon) with true by (destruct Ho as [-> | ->]; reflexivity). cbn [map].
  replace (extract lon) with (Arr (DA dlon)) by (destruct Ho as [-> | ->]; reflexivity).
  replace (extract lat) with (Arr (DA dlat)) by (destruct Ho2 as [-> | ->]; reflexivity).
  replace (extract satz) with (Arr (DA dsatz)) by (destruct Ho3 as [-> | ->]; reflexivity).
  replace (rows_per_scan_for_resolution (coarse_of k)) with (@Ok Z (scan_len k)) by (destruct k; reflexivity). cbn [bind].
  unfold rechunk_if_needed. cbn [first_array filter has_ndim bind]. replace (drows dlon) with n by (symmetry; exact R1). rewrite Hm. cbn [Z.eqb negb].
  rewrite (single_not_good (dcol dlon) : match dcol dlon with [c] => negb (c =? dcols dlon) | _ => false end = false). rewrite andb_false_r. cbn [andb mapM].
  fold (whole_scans (scan_len k) dlon). unfold rechunk.
  replace (dcols dlon) with w by (symmetry; exact C1). replace (drows dlon) with n by (symmetry; exact R1).
  replace (dcols dlat) with w by (symmetry; exact C2). replace (drows dlat) with n by (symmetry; exact R2).
  replace (dcols dsatz) with w by (symmetry; exact C3). replace (drows dsatz) with n3 by (symmetry; exact R3).
  replace (w =? 0) with false by (symmetry; apply Z.eqb_neq; lia). rewrite !andb_false_r, B1, B3. cbn [bind].
  unfold call_map_blocks. cbn [first_array filter has_ndim bind]. rewrite FK.
  replace (fine_of k =? 0) with false by (destruct k; reflexivity).
  replace (if fine_of k =? 250 then Ok 4 else if fine_of k =? 500 then Ok 2 else if fine_of k =? 1000 then Ok 1 else Err KeyError) with (@Ok Z (fine_width k / 1354))
    by (destruct k; reflexivity). cbn [bind drow ddt].
  replace (1354 * (fine_width k / 1354)) with (fine_width k) by (destruct k; reflexivity). destruct (mapM _ _); reflexivity.
Qed.

Lemma angles_refused : K < n3 -> blocks_in n3 K <> blocks_in n K -> modis_any k g lon lat satz = Err ValueError.
Proof using All.
  intros Hb Hd. destruct KP as [HK _]. destruct (blockdims_exists n K Hn HK) as (ms & B1 & _). destruct (blockdims_exists n3 K Hn3 HK) as (ms3 & B3 & _).
  rewrite (angles_call ms ms3 B1 B3). pose proof (blockdims_count n K ms HK Hn B1) as L1. pose proof (blockdims_count n3 K ms3 HK Hn3 B3) as L3.
  assert (1 < blocks_in n3 K) by (unfold blocks_in; apply Z.lt_le_trans with 2; [lia|apply Z.div_le_lower_bound; lia]).
  assert (0 < blocks_in n K) by (unfold blocks_in; apply Z.lt_le_trans with 1; [lia|apply Z.div_le_lower_bound; lia]).
  destruct ms as [|m1 ms]; [cbn in L1; lia|]. cbn [length seq mapM].
  match goal with |- context [block_arg _ 0 (Arr (DA ?x))] => replace (block_arg (S (length ms)) 0 (Arr (DA x))) with (Ok (BArr (rows_of x (0, m1))))
    by (unfold block_arg; cbn [drow dcol length row_blocks nth_error]; rewrite length_row_blocks, (Nat.eqb_refl (S (length ms))); reflexivity) end.
  cbn [bind].
  match goal with |- context [block_arg _ 0 (Arr (DA ?x))] => replace (block_arg (S (length ms)) 0 (Arr (DA x))) with (Ok (BArr (rows_of x (0, m1))))
    by (unfold block_arg; cbn [drow dcol length row_blocks nth_error]; rewrite length_row_blocks, (Nat.eqb_refl (S (length ms))); reflexivity) end.
  cbn [bind].
  match goal with |- context [block_arg _ 0 (Arr (DA ?x))] => replace (block_arg (S (length ms)) 0 (Arr (DA x))) with (@Err (barg T) ValueError) end; [reflexivity|].
  unfold block_arg. cbn [drow dcol length]. rewrite length_row_blocks.
  destruct (Nat.eqb_spec (length ms3) (S (length ms))) as [E|_]; [cbn [length] in L1; lia|].
  destruct (Nat.eqb_spec (length ms3) 1) as [E|_]; [lia|]. reflexivity.
Qed.

(** the block of angles that block b of longitudes is computed with *)
Definition angle_block (b : Z * Z) : Z * Z := if n3 <=? K then (0, n3) else (fst b, Z.min K (n3 - fst b)).
Lemma angles_tasks ms : blockdims n K = Ok ms -> n3 <= K \/ blocks_in n3 K = blocks_in n K ->
  modis_any k g lon lat satz = Ok (Lazy {| z_dt := ddt dlon; z_rows := map (fun x => x * factor k) ms; z_cols := fine_width k; z_func := modis_func (if is_1km k then 0 else w) (coarse_of k) (fine_of k);
    z_tasks := map (fun b => [BArr (rows_wide w dlon b); BArr (rows_wide w dlat b); BArr (rows_wide w dsatz (angle_block b))]) (row_blocks 0 ms) |} (has_dims lon)).
Proof using All.
  intros B1 Hb. destruct KP as [HK _]. destruct (blockdims_exists n3 K Hn3 HK) as (ms3 & B3 & _).
  rewrite (angles_call ms ms3 B1 B3). pose proof (blockdims_count n K ms HK Hn B1) as L1. pose proof (blockdims_count n3 K ms3 HK Hn3 B3) as L3.
  rewrite <- (length_row_blocks 0 ms).
  rewrite (mapM_nth _ (fun b => [BArr (rows_wide w dlon b); BArr (rows_wide w dlat b); BArr (rows_wide w dsatz (angle_block b))]) (row_blocks 0 ms)); [reflexivity|]. cbn [Nat.add].
  intros q b Hq. rewrite length_row_blocks. cbn [mapM].
  assert (HL : forall d : darr T, block_arg (length ms) q (Arr (DA {| ddt := ddt d; drow := ms; dcol := [w]; dat := dat d |})) = Ok (BArr (rows_wide w d b))).
  { intros d. unfold block_arg. cbn [drow dcol length]. rewrite length_row_blocks, !Nat.eqb_refl, Hq. cbn [negb]. unfold rows_of, rows_wide, dcols. cbn [ddt dat dcol zsum fold_right]. rewrite Z.add_0_r. reflexivity. }
  rewrite !HL. cbn [bind].
  pose proof (block_nth n K ms q b Hn HK B1 Hq) as Vb.
  assert (QL : (q < length ms)%nat) by (rewrite <- (length_row_blocks 0 ms); apply nth_error_Some; congruence).
  match goal with |- context [block_arg _ q ?x] => replace (block_arg (length ms) q x) with (Ok (BArr (rows_wide w dsatz (angle_block b)))) end; [reflexivity|].
  symmetry. unfold block_arg. cbn [drow dcol length negb]. change (Nat.eqb 1 1) with true. cbn [negb]. rewrite length_row_blocks.
  unfold angle_block. destruct (Z.leb_spec n3 K) as [Hle|Hgt].
  - assert (BL : blocks_in n3 K = 1) by (unfold blocks_in; symmetry; apply Z.div_unique with (n3 - 1); lia).
    destruct ms3 as [|m3 [|? ?]]; [cbn in L3; lia| |cbn [length] in L3; lia].
    pose proof (block_nth n3 K [m3] 0 (0, m3) Hn3 HK B3 eq_refl) as X. injection X as X. cbn in X. rewrite Z.min_r in X by lia.
    destruct (Nat.eqb_spec (length [m3]) (length ms)) as [E1|_].
    + cbn [length] in E1. assert (q = 0%nat) by lia. subst q. cbn [row_blocks nth_error].
      unfold rows_of, rows_wide, dcols. cbn [ddt dat dcol zsum fold_right fst snd]. rewrite Z.add_0_r. repeat f_equal. lia.
    + cbn [length Nat.eqb row_blocks].
      unfold rows_of, rows_wide, dcols. cbn [ddt dat dcol zsum fold_right fst snd]. rewrite Z.add_0_r. repeat f_equal. lia.
  - destruct Hb as [Hb|Hb]; [lia|]. assert (LL : length ms3 = length ms) by lia. rewrite LL, Nat.eqb_refl.
    destruct (nth_error (row_blocks 0 ms3) q) as [b3|] eqn:E3; [|apply nth_error_None in E3; rewrite length_row_blocks in E3; lia].
    rewrite (block_nth n3 K ms3 q b3 Hn3 HK B3 E3). rewrite Vb. cbn [fst]. unfold rows_of, rows_wide, dcols. cbn [ddt dat dcol zsum fold_right fst snd]. rewrite Z.add_0_r. reflexivity.
Qed.
(** the rows of all blocks of angles together *)
Lemma angle_rows ms : blockdims n K = Ok ms -> n3 <= K \/ blocks_in n3 K = blocks_in n K ->
  zsum (map (fun b => snd (angle_block b) * factor k) (row_blocks 0 ms)) = (if n3 <=? K then blocks_in n K * n3 else n3) * factor k /\
  Forall (fun b => 0 <= snd (angle_block b)) (row_blocks 0 ms).
Proof using All.
  intros B1 Hb. destruct KP as [HK _]. destruct (blockdims_exists n3 K Hn3 HK) as (ms3 & B3 & S3).
  pose proof (blockdims_count n K ms HK Hn B1) as L1. pose proof (blockdims_count n3 K ms3 HK Hn3 B3) as L3.
  assert (Z1 : forall (h : Z * Z -> Z) l, zsum (map (fun b => h b * factor k) l) = zsum (map h l) * factor k).
  { intros h l. induction l as [|b l IH]; [reflexivity|]. cbn [map]. change (h b * factor k + zsum (map (fun b => h b * factor k) l) = (h b + zsum (map h l)) * factor k). rewrite IH. ring. }
  rewrite (Z1 (fun b => snd (angle_block b))). unfold angle_block. destruct (Z.leb_spec n3 K) as [Hle|Hgt].
  - split; [|apply Forall_forall; intros; cbn; lia]. f_equal. rewrite <- L1, <- (length_row_blocks 0 ms). generalize (row_blocks 0 ms) as l. clear. intros l.
    induction l as [|b l IH]; [reflexivity|]. cbn [map snd]. change (n3 + zsum (map (fun _ : Z * Z => snd (0, n3)) l) = Z.of_nat (S (length l)) * n3). rewrite IH. lia.
  - destruct Hb as [Hb|Hb]; [lia|].
    assert (E : map (fun b : Z * Z => (fst b, Z.min K (n3 - fst b))) (row_blocks 0 ms) = row_blocks 0 ms3).
    { apply nth_error_ext. intros q. rewrite nth_error_map. destruct (nth_error (row_blocks 0 ms) q) as [b|] eqn:E1; cbn [option_map].
      - assert (QL : (q < length ms)%nat) by (rewrite <- (length_row_blocks 0 ms); apply nth_error_Some; congruence).
        destruct (nth_error (row_blocks 0 ms3) q) as [b3|] eqn:E3; [|apply nth_error_None in E3; rewrite length_row_blocks in E3; lia].
        rewrite (block_nth n3 K ms3 q b3 Hn3 HK B3 E3), (block_nth n K ms q b Hn HK B1 E1). reflexivity.
      - apply nth_error_None in E1. rewrite length_row_blocks in E1. symmetry. apply nth_error_None. rewrite length_row_blocks. lia. }
    split.
    + f_equal. transitivity (zsum ms3); [|exact S3]. rewrite <- (zsum_blocks 0 ms3), <- E, map_map. reflexivity.
    + apply Forall_forall. intros b I. cbn [snd]. assert (In (fst b, Z.min K (n3 - fst b)) (row_blocks 0 ms3)) by (rewrite <- E; apply (in_map (fun b => (fst b, Z.min K (n3 - fst b)))); exact I).
      destruct (In_nth_error _ _ H) as [q Eq]. pose proof (block_nth n3 K ms3 q _ Hn3 HK B3 Eq) as V. injection V as V1 V2.
      assert (QL : (q < length ms3)%nat) by (rewrite <- (length_row_blocks 0 ms3); apply nth_error_Some; congruence).
      unfold blocks_in in L3. pose proof (Z.div_mod (n3 + K - 1) K ltac:(lia)) as D. pose proof (Z.mod_pos_bound (n3 + K - 1) K HK) as M. rewrite <- L3 in D.
      assert (Z.of_nat q * K < n3) by nia. lia.
Qed.

Lemma angles_height : n3 <= K \/ blocks_in n3 K = blocks_in n K ->
  exists l, modis_any k g lon lat satz = Ok (Lazy l (has_dims lon)) /\ zsum (z_rows l) = factor k * n /\
    forall gs order, Permutation order (seq 0 (length (z_tasks l))) -> exists olon olat, computed gs order l = Ok (olon, olat) /\
      arows olon = factor k * (if n3 <=? K then blocks_in n K * n3 else n3) /\ arows olat = arows olon /\ acols olon = fine_width k /\ acols olat = fine_width k.
Proof using All.
  intros Hb. destruct KP as [HK HKm]. assert (HL : 2 <= scan_len k) by (destruct k; cbn; lia).
  destruct (blockdims_ok (scan_len k) n (nth 0 (drow dlon) 0) ltac:(lia) ltac:(lia) Hm (or_intror Hc)) as (ms & B1 & Wh & Sm & Ne & _). fold (whole_scans (scan_len k) dlon) in B1.
  destruct (angle_rows ms B1 Hb) as [ZR P3]. rewrite Forall_forall in P3.
  eexists. split; [apply (angles_tasks ms B1 Hb)|]. split.
  { cbn [z_rows]. rewrite <- Sm. clear. induction ms as [|m ms IH]; [cbn; lia|]. cbn [map].
    change (m * factor k + zsum (map (fun m => m * factor k) ms) = factor k * (m + zsum ms)). rewrite IH. ring. }
  intros gs order Hp. cbn [z_tasks] in Hp. match goal with |- context [computed gs order ?x] => set (l := x) end.
  destruct CL as (Ho & D1 & R1 & C1), CA as (Ho2 & D2 & R2 & C2), CS as (Ho3 & D3 & R3 & C3).
  destruct (computed_heights gs (fun b => [BArr (rows_wide w dlon b); BArr (rows_wide w dlat b); BArr (rows_wide w dsatz (angle_block b))]) (row_blocks 0 ms) order l
    (fun b => snd (angle_block b) * factor k) (fine_width k)) as (a & b & Ec & (A1 & A2) & (X1 & X2)); auto.
  - destruct ms; [contradiction|discriminate].
  - intros g' [s m] I. destruct (row_blocks_in (scan_len k) ltac:(lia) ms 0 Wh ltac:(lia) ltac:(apply Z.mod_0_l; lia) _ I) as (A1 & A2 & A3 & A4 & A5).
    pose proof (P3 _ I) as P4. destruct (angle_block (s, m)) as [s3 m3]. cbn [fst snd] in *.
    destruct (cinit_std k w Hw) as (c & p & E & L & E1 & E2 & E3 & E4 & E5).
    destruct (interpolate_heights c p L g' m3 (rows_wide w dlon (s, m)) (rows_wide w dlat (s, m)) (rows_wide w dsatz (s3, m3))) as (x & y & O & Y1 & Y2 & Y3 & Y4);
      try (unfold rows_wide; cbn [arows acols adt fst snd]; rewrite ?E1, ?E4, ?D1; (assumption || reflexivity || discriminate || lia)).
    exists (x, y). split; [|cbn [fst snd]; rewrite <- E2, <- E3; auto].
    cbn [l z_func]. unfold modis_func, interpolate. change (adt (rows_wide w dlon (s, m))) with (ddt dlon). change (adt (rows_wide w dlat (s, m))) with (ddt dlat).
    change (adt (rows_wide w dsatz (s3, m3))) with (ddt dsatz). rewrite D1, D2, D3. cbn [dtype_eqb andb negb].
    replace ((coarse_of k =? 5000) && negb (existsb (Z.eqb (if is_1km k then 0 else w)) [0; 270; 271])) with false.
    { rewrite E. cbn [bind]. exact O. }
    destruct k; cbn in *; try reflexivity; destruct Hw as [-> | ->]; reflexivity.
  - exists a, b. split; [exact Ec|]. rewrite ZR in A1, X1. split; [lia|]. split; [lia|]. auto.
Qed.
End Heights.

(** The full statement: whenever n3 <> n, the call is refused. It holds when the angles have several blocks, and not as many as the longitudes *)
Theorem C145_refused_partial : forall {T} {N : NumOps T} k g n n3 w lon lat satz (dlon dlat dsatz : darr T),
  std_width k w -> 0 < n -> n mod scan_len k = 0 -> first_holds (scan_len k) dlon ->
  chunked Float32 n w lon dlon -> chunked Float32 n w lat dlat -> chunked Float32 n3 w satz dsatz ->
  let K := nth 0 (drow dlon) 0 / scan_len k * scan_len k in
  K < n3 -> (n3 + K - 1) / K <> (n + K - 1) / K -> modis_any k g lon lat satz = Err ValueError.
Proof.
  intros T N k g n n3 w lon lat satz dlon dlat dsatz Hw Hn Hm Hc CL CA CS K Hb Hd.
  assert (0 < K) by (apply (KP k dlon Hc)). apply (angles_refused k g n n3 w lon lat satz dlon dlat dsatz); auto; lia.
Qed.
Print Assumptions C145_refused_partial.
(** Otherwise it is accepted and computed, without out-of-bounds accesses; the result does not have the announced
    factor * n rows but as many as there are rows of angles in the blocks: a single block of angles is used for every block of longitudes *)
Theorem C145_height_partial : forall {T} {N : NumOps T} k g n n3 w lon lat satz (dlon dlat dsatz : darr T),
  std_width k w -> 0 < n -> n mod scan_len k = 0 -> first_holds (scan_len k) dlon ->
  chunked Float32 n w lon dlon -> chunked Float32 n w lat dlat -> chunked Float32 n3 w satz dsatz -> 0 < n3 ->
  let K := nth 0 (drow dlon) 0 / scan_len k * scan_len k in
  n3 <= K \/ (n3 + K - 1) / K = (n + K - 1) / K ->
  exists l, modis_any k g lon lat satz = Ok (Lazy l (has_dims lon)) /\ zsum (z_rows l) = factor k * n /\
    forall gs order, Permutation order (seq 0 (length (z_tasks l))) -> exists olon olat, computed gs order l = Ok (olon, olat) /\
      arows olon = factor k * (if n3 <=? K then (n + K - 1) / K * n3 else n3) /\ arows olat = arows olon /\ acols olon = fine_width k /\ acols olat = fine_width k.
Proof.
  intros T N k g n n3 w lon lat satz dlon dlat dsatz Hw Hn Hm Hc CL CA CS Hn3 K Hb.
  exact (angles_height k g n n3 w lon lat satz dlon dlat dsatz Hw Hn Hm Hc CL CA CS Hn3 Hb).
Qed.
Print Assumptions C145_height_partial.
Theorem C145_refuted : exists n n3, n3 <> n /\ forall T (N : NumOps T) g (v : T),
  let d := const_dask Float32 [10; 10] [1354] v in let dsatz := const_dask Float32 [5] [1354] v in
  chunked Float32 n 1354 (Arr (DA d)) d /\ chunked Float32 n3 1354 (Arr (DA dsatz)) dsatz /\
  exists l, modis_any M1km_500m g (Arr (DA d)) (Arr (DA d)) (Arr (DA dsatz)) = Ok (Lazy l false) /\ zsum (z_rows l) = 40 /\
    forall gs order, Permutation order (seq 0 (length (z_tasks l))) -> exists olon olat, computed gs order l = Ok (olon, olat) /\ arows olon = 20.
Proof.
  exists 20, 5. split; [lia|]. intros T N g v d dsatz.
  assert (CL : chunked Float32 20 1354 (Arr (DA d)) d) by (split; [auto|repeat split]).
  assert (CS : chunked Float32 5 1354 (Arr (DA dsatz)) dsatz) by (split; [auto|repeat split]).
  split; [exact CL|]. split; [exact CS|].
  destruct (C145_height_partial M1km_500m g 20 5 1354 _ _ _ d d dsatz eq_refl ltac:(lia) eq_refl ltac:(unfold first_holds; cbn; lia) CL CL CS ltac:(lia)) as (l & E & Z1 & V).
  { left. cbn. lia. }
  exists l. split; [exact E|]. split; [exact Z1|]. intros gs order Hp. destruct (V gs order Hp) as (a & b & Ec & H & _). exists a, b. split; [exact Ec|]. rewrite H. reflexivity.
Qed.
Print Assumptions C145_refuted.
(** two blocks of longitudes, four of angles: refused *)
Example C145_refused_case : forall T (N : NumOps T) g (v : T),
  let d := const_dask Float32 [10; 10] [1354] v in let dsatz := const_dask Float32 [20; 20] [1354] v in
  modis_any M1km_500m g (Arr (DA d)) (Arr (DA d)) (Arr (DA dsatz)) = Err ValueError.
Proof.
  intros T N g v d dsatz. assert (CL : chunked Float32 20 1354 (Arr (DA d)) d) by (split; [auto|repeat split]).
  assert (CS : chunked Float32 40 1354 (Arr (DA dsatz)) dsatz) by (split; [auto|repeat split]).
  apply (C145_refused_partial M1km_500m g 20 40 1354 _ _ _ d d dsatz); auto; try reflexivity; try (cbn; lia). unfold first_holds. cbn. lia.
Qed.
