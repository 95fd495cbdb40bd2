(** C47 - C55, C66: MODIS interpolation with satellite zenith angles (modis_1km_to_250m, ... modis_5km_to_250m)
    of plain arrays. [modis k g lon lat satz]: function k, g = contents of uninitialised memory. *)
From Coq Require Import ZArith List Bool Lia Reals Lra.
From Verif Require Import Base Num Geo GeoProofs GeoAgree Mem Modis ModisProofs ModisOob ModisAngles PropsGeo.
Import ListNotations.
Open Scope Z_scope.

(** ** Specification: the five products *)
(** tie rows per scan, fine pixels per tie-point distance, columns of the result *)
Definition scan_len (k : modis_fn) : Z := match k with M1km_250m | M1km_500m => 10 | _ => 2 end.
Definition factor (k : modis_fn) : Z :=
  match k with M1km_250m => 4 | M1km_500m => 2 | M5km_1km => 5 | M5km_500m => 10 | M5km_250m => 20 end.
Definition fine_width (k : modis_fn) : Z :=
  match k with M5km_1km => 1354 | M1km_500m | M5km_500m => 2708 | M1km_250m | M5km_250m => 5416 end.
Definition std_width (k : modis_fn) (w : Z) : Prop :=
  match k with M1km_250m | M1km_500m => w = 1354 | _ => w = 270 \/ w = 271 end.
Definition is_1km (k : modis_fn) : bool := match k with M1km_250m | M1km_500m => true | _ => false end.
(** three arrays of the same type and n x w elements *)
Definition shaped {T} (dt : dtype) (n w : Z) (lon lat satz : ndarray T) : Prop :=
  adt lon = dt /\ adt lat = dt /\ adt satz = dt /\
  arows lon = n /\ arows lat = n /\ arows satz = n /\ acols lon = w /\ acols lat = w /\ acols satz = w.
(** rows of fine pixels of one scan *)
Definition fine_len (k : modis_fn) : Z := scan_len k * factor k.
(** scan s of the first arrays is scan s' of the second ones *)
Definition same_scan {T} (k : modis_fn) (w s s' : Z) (a a' : ndarray T) : Prop :=
  forall i j, 0 <= i < scan_len k -> 0 <= j < w -> aat a (s * scan_len k + i) j = aat a' (s' * scan_len k + i) j.

(** ** The configuration of each function *)
Lemma cinit_std k w : std_width k w ->
  exists c p, cinit (coarse_of k) (fine_of k) (if is_1km k then 0 else w) = Ok c /\ layout c p /\
    scl c = scan_len k /\ ff c = factor k /\ fsw c = fine_width k /\ scw c = w /\ p = fine_width k / 1354.
Proof.
  intros H. destruct k; cbn [std_width] in H.
  1,2: subst w; eexists _, _; (split; [reflexivity|]); (split; [|repeat split; reflexivity]); (split; [cbn; lia|left; repeat split; reflexivity]).
  all: destruct H as [-> | ->]; eexists _, _; (split; [reflexivity|]); (split; [|repeat split; reflexivity]); (split; [cbn; lia|right; cbn; repeat split; auto]).
Qed.
Lemma modis_shaped {T} {N : NumOps T} k g dt n w (lon lat satz : ndarray T) : dt <> OtherDtype -> shaped dt n w lon lat satz ->
  (is_1km k = true \/ w = 0 \/ w = 270 \/ w = 271) ->
  modis k g lon lat satz = let* c := cinit (coarse_of k) (fine_of k) (if is_1km k then 0 else w) in interpolate_cfg c g lon lat satz.
Proof.
  intros Hdt (D1 & D2 & D3 & _ & _ & _ & C1 & _) Hw. unfold modis, interpolate. rewrite D1, D2, D3.
  replace (dtype_eqb dt OtherDtype) with false by (destruct dt; [reflexivity|reflexivity|contradiction]).
  replace (dtype_eqb dt dt) with true by (destruct dt; reflexivity). cbn [andb negb].
  destruct k; cbn [coarse_of fine_of width_kwarg is_1km] in *; rewrite ?C1; try reflexivity;
    (destruct Hw as [Hw|[-> |[-> | ->]]]; [discriminate|reflexivity|reflexivity|reflexivity]).
Qed.
Lemma std_is k w : std_width k w -> is_1km k = true \/ w = 0 \/ w = 270 \/ w = 271.
Proof. destruct k; cbn; tauto. Qed.

(** everything known about a run with standard widths *)
Lemma modis_run {T} {N : NumOps T} k g n w (lon lat satz : ndarray T) : 0 <= n -> std_width k w -> shaped Float32 n w lon lat satz ->
  exists c p olon olat, layout c p /\ scl c = scan_len k /\ ff c = factor k /\ fsw c = fine_width k /\ scw c = w /\ p = fine_width k / 1354 /\
    modis k g lon lat satz = Ok (olon, olat) /\
    shaped Float32 (n * factor k) (fine_width k) olon olat olat /\
    forall R i, 0 <= R < n * factor k -> 0 <= i < fine_width k ->
      (aat olon R i, aat olat R i) =
      if R <? n / scan_len k * fine_len k then pixel c lon lat satz (R / fine_len k) (R mod fine_len k) i
      else (g_lons g (R * fine_width k + i), g_lats g (R * fine_width k + i)).
Proof.
  intros Hn Hw Hs. rewrite (modis_shaped k g Float32 n w) by (auto using std_is; discriminate).
  destruct (cinit_std k w Hw) as (c & p & E & L & E1 & E2 & E3 & E4 & E5). rewrite E. cbn [bind].
  destruct Hs as (D1 & D2 & D3 & R1 & R2 & R3 & C1 & C2 & C3).
  destruct (interpolate_cfg_ok c p L g lon lat satz n Hn R1 R2 R3) as (olon & olat & O & A1 & A2 & A3 & A4 & A5 & A6 & V); try congruence.
  exists c, p, olon, olat. repeat (split; [assumption|]). unfold fine_len. rewrite <- E1, <- E2, <- E3.
  split; [unfold shaped; repeat split; congruence|]. exact V.
Qed.

(** C48, any arithmetic: no access outside an array, and the shape of the result *)
Theorem C48_memory_safe : forall {T} {N : NumOps T} k g n w (lon lat satz : ndarray T),
  0 <= n -> std_width k w -> shaped Float32 n w lon lat satz ->
  exists olon olat, modis k g lon lat satz = Ok (olon, olat) /\ shaped Float32 (n * factor k) (fine_width k) olon olat olat.
Proof.
  intros T N k g n w lon lat satz Hn Hw Hs. destruct (modis_run k g n w lon lat satz Hn Hw Hs) as (c & p & olon & olat & _ & _ & _ & _ & _ & _ & E & S & _).
  eauto.
Qed.
Print Assumptions C48_memory_safe.

(** C47, any arithmetic: equal scans give equal scans, whatever surrounds them and whatever the memory contains *)
Lemma pixel_ext {T} {N : NumOps T} c p (L : layout c p) lon lat satz lon' lat' satz' s s' r i :
  (forall a b, 0 <= a < scl c -> 0 <= b < scw c ->
     aat lon (s * scl c + a) b = aat lon' (s' * scl c + a) b /\ aat lat (s * scl c + a) b = aat lat' (s' * scl c + a) b /\
     aat satz (s * scl c + a) b = aat satz' (s' * scl c + a) b) ->
  pixel c lon lat satz s r i = pixel c lon' lat' satz' s' r i.
Proof.
  intros H. pose proof (cell_r_range c p L r) as A. pose proof (cell_c_range c p L i) as B. unfold pixel, scan_ll.
  replace (a_scan_at c satz s r i) with (a_scan_at c satz' s' r i).
  - f_equal. apply (fine_xyz_ext c p L). intros a b Ha Hb. destruct (H a b Ha Hb) as (-> & -> & _). reflexivity.
  - unfold a_scan_at. destruct (H (cell_r c r) (cell_c c i) ltac:(lia) ltac:(lia)) as (_ & _ & ->).
    destruct (H (cell_r c r) (cell_c c i + 1) ltac:(lia) ltac:(lia)) as (_ & _ & ->). reflexivity.
Qed.
Theorem C47_scanwise : forall {T} {N : NumOps T} k g g' n n' w s s' (lon lat satz lon' lat' satz' olon olat olon' olat' : ndarray T),
  std_width k w -> shaped Float32 n w lon lat satz -> shaped Float32 n' w lon' lat' satz' ->
  0 <= s -> (s + 1) * scan_len k <= n -> 0 <= s' -> (s' + 1) * scan_len k <= n' ->
  same_scan k w s s' lon lon' -> same_scan k w s s' lat lat' -> same_scan k w s s' satz satz' ->
  modis k g lon lat satz = Ok (olon, olat) -> modis k g' lon' lat' satz' = Ok (olon', olat') ->
  forall r i, 0 <= r < fine_len k -> 0 <= i < fine_width k ->
    aat olon (s * fine_len k + r) i = aat olon' (s' * fine_len k + r) i /\
    aat olat (s * fine_len k + r) i = aat olat' (s' * fine_len k + r) i.
Proof.
  intros T N k g g' n n' w s s' lon lat satz lon' lat' satz' olon olat olon' olat' Hw S1 S2 Hs Hsn Hs' Hsn' E1 E2 E3 O O' r i Hr Hi.
  assert (K : 2 <= scan_len k /\ 2 <= factor k) by (destruct k; cbn; lia).
  destruct (modis_run k g n w lon lat satz ltac:(nia) Hw S1) as (c & p & a & b & L & F1 & F2 & F3 & F4 & F5 & R & _ & V).
  destruct (modis_run k g' n' w lon' lat' satz' ltac:(nia) Hw S2) as (c' & p' & a' & b' & L' & F1' & F2' & F3' & F4' & F5' & R' & _ & V').
  rewrite R in O. injection O as -> ->. rewrite R' in O'. injection O' as -> ->.
  assert (c' = c).
  { destruct L as [_ L], L' as [_ L']. destruct c as [u1 u2 u3 u4 u5 u6], c' as [v1 v2 v3 v4 v5 v6]. cbn [scl scw cpp ff fsw fac] in *. subst.
    destruct k; cbn [scan_len factor fine_width] in *;
    (destruct L as [(A1 & A2 & A3 & A4 & A5 & A6)|(A1 & A2 & A3 & A4 & A5 & A6)]; try discriminate A1);
    (destruct L' as [(B1 & B2 & B3 & B4 & B5 & B6)|(B1 & B2 & B3 & B4 & B5 & B6)]; try discriminate B1); rewrite A3, A6, B3, B6; reflexivity. }
  subst c'. unfold fine_len in *.
  assert (Q : forall m t, 0 <= t -> (t + 1) * scan_len k <= m -> (t * (scan_len k * factor k) + r <? m / scan_len k * (scan_len k * factor k)) = true).
  { intros m t Ht Hm. apply Z.ltb_lt. assert (t + 1 <= m / scan_len k) by (apply Z.div_le_lower_bound; lia). nia. }
  pose proof (V (s * (scan_len k * factor k) + r) i ltac:(nia) Hi) as P. rewrite Q in P by assumption.
  pose proof (V' (s' * (scan_len k * factor k) + r) i ltac:(nia) Hi) as P'. rewrite Q in P' by assumption.
  set (m := scan_len k * factor k) in *.
  pose proof (flat2_at m (fun a _ => a) s r Hr) as D1. pose proof (flat2_at m (fun _ b => b) s r Hr) as D2.
  pose proof (flat2_at m (fun a _ => a) s' r Hr) as D3. pose proof (flat2_at m (fun _ b => b) s' r Hr) as D4. unfold flat2 in D1, D2, D3, D4.
  rewrite D1, D2 in P. rewrite D3, D4 in P'.
  rewrite (pixel_ext c p L lon lat satz lon' lat' satz' s s' r i) in P.
  - rewrite <- P' in P. injection P as -> ->. auto.
  - rewrite F1, F4. intros a0 b0 Ha Hb. split; [now apply E1|]. split; [now apply E2|now apply E3].
Qed.
Print Assumptions C47_scanwise.

(** C50. The full statement (for every number of rows) is false; it holds for whole scans: the result does not
    depend on the initial contents of memory. *)
Theorem C50_computed_partial : forall {T} {N : NumOps T} k g g' n w (lon lat satz olon olat olon' olat' : ndarray T),
  0 <= n -> n mod scan_len k = 0 -> std_width k w -> shaped Float32 n w lon lat satz ->
  modis k g lon lat satz = Ok (olon, olat) -> modis k g' lon lat satz = Ok (olon', olat') ->
  forall R i, 0 <= R < n * factor k -> 0 <= i < fine_width k -> aat olon R i = aat olon' R i /\ aat olat R i = aat olat' R i.
Proof.
  intros T N k g g' n w lon lat satz olon olat olon' olat' Hn Hm Hw S O O' R i HR Hi.
  assert (K : 2 <= scan_len k /\ 2 <= factor k) by (destruct k; cbn; lia).
  pose proof (Z.div_mod n (scan_len k) ltac:(lia)) as D.
  assert (K2 : 0 < fine_len k) by (unfold fine_len; nia).
  pose proof (off_split (fine_len k) R K2) as [E B].
  assert (Q : 0 <= R / fine_len k < n / scan_len k).
  { split; [apply Z.div_pos; lia|]. apply Z.div_lt_upper_bound; [lia|]. unfold fine_len. nia. }
  rewrite E. apply (C47_scanwise k g g' n n w (R / fine_len k) (R / fine_len k) lon lat satz lon lat satz); auto; try nia; intros ? ? ? ?; reflexivity.
Qed.
Print Assumptions C50_computed_partial.
(** The rows after the last whole scan are what happened to be in memory. *)
Theorem C50_leftover : forall {T} {N : NumOps T} k g n w (lon lat satz olon olat : ndarray T),
  0 <= n -> std_width k w -> shaped Float32 n w lon lat satz -> modis k g lon lat satz = Ok (olon, olat) ->
  forall R i, n / scan_len k * fine_len k <= R < n * factor k -> 0 <= i < fine_width k ->
    aat olon R i = g_lons g (R * fine_width k + i) /\ aat olat R i = g_lats g (R * fine_width k + i).
Proof.
  intros T N k g n w lon lat satz olon olat Hn Hw S O R i HR Hi.
  destruct (modis_run k g n w lon lat satz Hn Hw S) as (c & p & a & b & L & F1 & F2 & F3 & F4 & F5 & Rn & _ & V).
  rewrite Rn in O. injection O as -> ->.
  assert (0 <= n / scan_len k * fine_len k).
  { apply Z.mul_nonneg_nonneg; [apply Z.div_pos; [lia|destruct k; cbn; lia]|destruct k; cbn; lia]. }
  pose proof (V R i ltac:(lia) Hi) as P. destruct (Z.ltb_spec R (n / scan_len k * fine_len k)); [lia|]. injection P as -> ->. auto.
Qed.
Print Assumptions C50_leftover.
(** there are such rows whenever the number of rows is not a whole number of scans *)
Example C50_leftover_rows : forall k n, 0 <= n -> n mod scan_len k <> 0 -> n / scan_len k * fine_len k < n * factor k.
Proof.
  intros k n Hn Hm. assert (K : 2 <= scan_len k /\ 2 <= factor k) by (destruct k; cbn; lia).
  pose proof (Z.div_mod n (scan_len k) ltac:(lia)). pose proof (Z.mod_pos_bound n (scan_len k) ltac:(lia)).
  unfold fine_len. rewrite Z.mul_assoc. apply Z.mul_lt_mono_pos_r; lia.
Qed.

(** C49: unsupported widths of the 1km functions are neither refused nor processed *)
Theorem C49_wide : forall {T} {N : NumOps T} k g n w (lon lat satz : ndarray T),
  is_1km k = true -> 10 <= n -> 1354 < w -> shaped Float32 n w lon lat satz -> modis k g lon lat satz = Err OutOfBounds.
Proof.
  intros T N k g n w lon lat satz Hk Hn Hw S. rewrite (modis_shaped k g Float32 n w) by (auto; discriminate). rewrite Hk.
  destruct (cinit_std k 1354) as (c & p & E & L & E1 & E2 & E3 & E4 & _); [destruct k; (reflexivity || discriminate)|].
  rewrite Hk in E. rewrite E. cbn [bind]. destruct S as (D1 & D2 & D3 & R1 & R2 & R3 & C1 & C2 & C3).
  unfold interpolate_cfg. destruct (coords_ok c p g L) as (x & y & E0 & _). rewrite E0. cbn [bind]. rewrite D1. cbn [dtype_eqb].
  assert (H10 : scl c = 10) by (rewrite E1; destruct k; (reflexivity || discriminate)). rewrite R3, H10. cbn [Z.eqb Pos.eqb].
  rewrite (for_must (fun q => bsize (w_cxyz q) = 13540) _ 0); [reflexivity|cbn [empty_work w_cxyz bsize]; lia| | |].
  - intros s q Hq. eapply okb_weaken; [apply okb_scan|]. cbn beta. congruence.
  - split; [lia|]. apply Z.div_str_pos. lia.
  - intros q Hq. apply scan_must. intros b Hb. apply (lonlat_must _ _ _ _ _ _ 9 1354).
    + rewrite H10, R1, C1. unfold slice_rows, slice, bound. cbn [full vrows vcols]. cbn [Z.ltb Z.compare Z.mul Z.add]. lia.
    + rewrite H10, R1, C1. unfold slice_rows, slice, bound. cbn [full vrows vcols]. cbn [Z.ltb Z.compare]. destruct (Z.ltb_spec w 0); lia.
    + right. unfold addr, coarse_vw. cbn [full voff vs0]. lia.
Qed.
Print Assumptions C49_wide.

(** narrow arrays (and arrays without columns at 5km): the result is made of uninitialised memory *)
Definition narrow (k : modis_fn) (w : Z) : Prop := if is_1km k then 0 <= w < 1354 else w = 0.

Section Narrow.
#[local] Existing Instance RN.
Lemma add_none_r (x : option R) : fadd x None = None. Proof. destruct x; reflexivity. Qed.
Lemma mul_none_r (x : option R) : fmul x None = None. Proof. destruct x; reflexivity. Qed.
Lemma narrow_none c p (L : layout c p) t asc r :
  (forall i, 0 <= i < scl c -> t i (scw c - 1) = (None, None, None)) ->
  scan_ll c t asc r (fsw c - 1) = (None, None).
Proof.
  intros H. unfold scan_ll, fine_xyz, fine_comp. cbv zeta.
  assert (E : cell_c c (fsw c - 1) + 1 = scw c - 1).
  { unfold cell_c, clampz. destruct L as [Hp [(E1 & E2 & E3 & E4 & E5 & E6)|(E1 & E2 & E3 & E4 & E5 & E6)]]; rewrite E1; cbn [Z.eqb Pos.eqb].
    - pose proof (div_le_low (scw c - 2) (fsw c - 1 - 0) (ff c)). lia.
    - pose proof (div_le_low (scw c - 2) (fsw c - 1 - fac c) (ff c)). destruct E2 as [E2|E2]; rewrite E2 in *; lia. }
  rewrite E. pose proof (cell_r_range c p L r). rewrite !H by lia.
  assert (F : forall atk a d, fine_value atk asc a None None d = None).
  { intros. unfold fine_value. rewrite !mul_none_r, !add_none_r, !mul_none_r, add_none_r. reflexivity. }
  cbn [comp Z.eqb]. rewrite !F. reflexivity.
Qed.

Lemma narrow_cfg c p (L : layout c p) g n w (lon lat satz : ndarray (option R)) :
  scl c <= n -> 0 <= w < scw c -> shaped Float32 n w lon lat satz -> (forall a, g_cxyz g a = (None, None, None)) ->
  exists olon olat, interpolate_cfg c g lon lat satz = Ok (olon, olat) /\
    forall R, 0 <= R < n / scl c * (scl c * ff c) -> aat olon R (fsw c - 1) = None /\ aat olat R (fsw c - 1) = None.
Proof.
  intros Hn Hw (D1 & D2 & D3 & R1 & R2 & R3 & C1 & C2 & C3) Hg. pose proof (lay c p L) as LL.
  unfold interpolate_cfg. destruct (coords_ok c p g L) as (x & y & E0 & Hx & Hy & Vx & Vy). rewrite E0. cbn [bind].
  rewrite D1, R3. cbn [dtype_eqb]. destruct (Z.eqb_spec (scl c) 0); [lia|].
  set (nr := scl c * ff c) in *. set (wd := fsw c) in *. set (S := n / scl c).
  assert (HS : 0 <= S /\ S * scl c <= n) by (unfold S; split; [apply Z.div_pos; lia|rewrite Z.mul_comm; apply Z.mul_div_le; lia]).
  destruct (for_range_inv (fun k q => sized c (n * ff c) q /\ (forall i, 0 <= i < scl c -> tie c (w_cxyz q) i (scw c - 1) = (None, None, None)) /\
     forall R, 0 <= R < k * nr -> bat (w_lons q) (R * wd + (wd - 1)) = None /\ bat (w_lats q) (R * wd + (wd - 1)) = None)
     S (scan_body c (n * ff c) lon lat satz x y) (empty_work c g (n * ff c))) as (q' & E & _ & _ & V).
  - lia.
  - split; [apply (sized_empty c g n)|]. split; [intros; unfold tie, empty_work; cbn [w_cxyz bat]; apply Hg|]. intros; lia.
  - intros s q Hs (Q1 & Q2 & Q3).
    assert (Hsn : (s + 1) * scl c <= n) by nia.
    destruct (scan_stage c p L n w lon lat satz x y ltac:(lia) ltac:(lia) R3 C1 C2 C3 Hx Hy Vx Vy s q ltac:(lia) Hsn ltac:(lia) ltac:(lia) Q1)
      as (q' & asc & E & Q1' & _ & T & ST).
    exists q'. split; [exact E|]. split; [exact Q1'|]. split; [intros i Hi; rewrite T by lia; now apply Q2|].
    fold nr in ST, Q1'.
    set (P := fun R i => if (s * nr <=? R) && (R <? s * nr + nr) then scan_ll c (ties c w lon lat (w_cxyz q) s) (asc (R - s * nr) i) (R - s * nr) i
                         else (bat (w_lons q) (R * wd + i), bat (w_lats q) (R * wd + i))).
    destruct (ST (fun R i => fst (P R i)) (fun R i => snd (P R i))) as [S1 S2].
    { intros r i Hr Hi. rewrite <- surjective_pairing. unfold P. destruct (Z.leb_spec (s * nr) (s * nr + r)); [|lia].
      destruct (Z.ltb_spec (s * nr + r) (s * nr + nr)); [|lia]. cbn [andb]. replace (s * nr + r - s * nr) with r by ring. reflexivity. }
    assert (W0 : 0 <= wd - 1 < wd) by lia.
    intros R HR. assert (N0 : 0 <= nr) by (unfold nr; nia).
    destruct (Z.lt_ge_cases R (s * nr)) as [Hlt|Hge].
    + destruct (Q3 R ltac:(lia)) as [B1 B2]. 
      assert (G1 : bat (w_lons q) (R * wd + (wd - 1)) = flat2 wd (fun R i => fst (P R i)) (R * wd + (wd - 1))).
      { rewrite flat2_at by exact W0. unfold P. destruct (Z.leb_spec (s * nr) R); [lia|reflexivity]. }
      assert (G2 : bat (w_lats q) (R * wd + (wd - 1)) = flat2 wd (fun R i => snd (P R i)) (R * wd + (wd - 1))).
      { rewrite flat2_at by exact W0. unfold P. destruct (Z.leb_spec (s * nr) R); [lia|reflexivity]. }
      fold wd in S1, S2. rewrite (step_keep _ _ _ _ _ S1 G1), (step_keep _ _ _ _ _ S2 G2), <- G1, <- G2. auto.
    + assert (I : s * nr * wd <= R * wd + (wd - 1) < (s * nr + nr) * wd) by nia.
      fold nr wd in S1, S2. rewrite (step_at _ _ _ _ _ S1 I), (step_at _ _ _ _ _ S2 I), !flat2_at by exact W0.
      unfold P. destruct (Z.leb_spec (s * nr) R); [|lia]. destruct (Z.ltb_spec R (s * nr + nr)); [|nia]. cbn [andb]. unfold wd.
      rewrite (narrow_none c p L); [auto|]. intros i Hi. unfold ties. destruct (Z.ltb_spec (scw c - 1) w); [lia|]. now apply Q2.
  - rewrite E. cbn [bind]. eexists _, _. split; [reflexivity|]. unfold array_of. cbn [aat]. exact V.
Qed.
End Narrow.

Theorem C49_narrow : forall k g n w (lon lat satz : ndarray (option R)),
  scan_len k <= n -> narrow k w -> shaped Float32 n w lon lat satz -> (forall a, g_cxyz g a = (None, None, None)) ->
  exists olon olat, @modis _ RN k g lon lat satz = Ok (olon, olat) /\
    forall row, 0 <= row < n / scan_len k * fine_len k ->
      aat olon row (fine_width k - 1) = None /\ aat olat row (fine_width k - 1) = None.
Proof.
  intros k g n w lon lat satz Hn Hw S Hg. unfold narrow in Hw.
  rewrite (@modis_shaped _ RN k g Float32 n w) by (auto; try discriminate; destruct (is_1km k); auto).
  destruct (is_1km k) eqn:Hk.
  - destruct (cinit_std k 1354) as (c & p & E & L & E1 & E2 & E3 & E4 & _); [destruct k; (reflexivity || discriminate)|].
    rewrite Hk in E. rewrite E. cbn [bind]. unfold fine_len. rewrite <- E1, <- E2, <- E3.
    apply (narrow_cfg c p L g n w); auto; lia.
  - destruct (cinit_std k 271) as (c & p & E & L & E1 & E2 & E3 & E4 & _); [destruct k; (cbn; auto || discriminate)|].
    rewrite Hk in E. subst w.
    replace (cinit (coarse_of k) (fine_of k) 0) with (Ok c) by (rewrite <- E; destruct k; reflexivity || discriminate).
    cbn [bind]. unfold fine_len. rewrite <- E1, <- E2, <- E3. apply (narrow_cfg c p L g n 0); auto; lia.
Qed.
Print Assumptions C49_narrow.

(** C66: arrays of different shapes are not refused either: latitudes with too few rows are read beyond their end *)
Theorem C66_shapes : forall {T} {N : NumOps T} k g n m (lon lat satz : ndarray T),
  is_1km k = true -> 0 <= m -> m < n / 10 * 10 ->
  adt lon = Float32 -> adt lat = Float32 -> adt satz = Float32 -> arows lon = n -> arows lat = m -> arows satz = n ->
  acols lon = 1354 -> acols lat = 1354 -> acols satz = 1354 ->
  modis k g lon lat satz = Err OutOfBounds.
Proof.
  intros T N k g n m lon lat satz Hk Hm Hmn D1 D2 D3 R1 R2 R3 C1 C2 C3.
  assert (MOD : modis k g lon lat satz = let* c := cinit (coarse_of k) (fine_of k) 0 in interpolate_cfg c g lon lat satz).
  { unfold modis, interpolate. rewrite D1, D2, D3. cbn [dtype_eqb andb negb]. destruct k; try discriminate; reflexivity. }
  rewrite MOD.
  destruct (cinit_std k 1354) as (c & p & E & L & E1 & E2 & E3 & E4 & _); [destruct k; (reflexivity || discriminate)|].
  rewrite Hk in E. rewrite E. cbn [bind].
  unfold interpolate_cfg. destruct (coords_ok c p g L) as (x & y & E0 & _). rewrite E0. cbn [bind]. rewrite D1. cbn [dtype_eqb].
  assert (H10 : scl c = 10) by (rewrite E1; destruct k; (reflexivity || discriminate)). rewrite R3, H10. cbn [Z.eqb Pos.eqb].
  pose proof (Z.div_mod n 10 ltac:(lia)). pose proof (Z.mod_pos_bound n 10 ltac:(lia)).
  set (S := n / 10) in *.
  rewrite (for_must (fun q => True) _ (S - 1)); [reflexivity|exact I| | |].
  - intros s q _. eapply okb_weaken; [apply okb_scan|]. auto.
  - lia.
  - intros q _. apply scan_must. intros b Hb. apply (lonlat_must _ _ _ _ _ _ 9 1353).
    + rewrite H10, R1, C1. unfold slice_rows, slice, bound. cbn [full vrows vcols]. cbn [Z.ltb Z.compare].
      destruct (Z.ltb_spec ((S - 1) * 10) 0); [lia|]. destruct (Z.ltb_spec ((S - 1 + 1) * 10) 0); lia.
    + rewrite H10, R1, C1. unfold slice_rows, slice, bound. cbn [full vrows vcols]. cbn [Z.ltb Z.compare]. lia.
    + left. rewrite H10, R2, C2. unfold addr, slice_rows, slice, bound, contiguous. cbn [full voff vs0 vrows vcols bsize]. rewrite R2, C2.
      destruct (Z.ltb_spec ((S - 1) * 10) 0); [lia|]. cbn [Z.ltb Z.compare]. lia.
Qed.
Print Assumptions C66_shapes.

(** C54 *)
Theorem C54_refused : forall {T} {N : NumOps T} k g dt n w (lon lat satz : ndarray T),
  is_1km k = false -> dt <> OtherDtype -> shaped dt n w lon lat satz -> w <> 0 -> ~ std_width k w ->
  modis k g lon lat satz = Err NotImplementedError.
Proof.
  intros T N k g dt n w lon lat satz Hk Hdt (D1 & D2 & D3 & _ & _ & _ & C1 & _) H0 Hw. unfold modis, interpolate. rewrite D1, D2, D3.
  replace (dtype_eqb dt OtherDtype) with false by (destruct dt; [reflexivity|reflexivity|contradiction]).
  replace (dtype_eqb dt dt) with true by (destruct dt; reflexivity). cbn [andb negb].
  assert (X : existsb (Z.eqb w) [0; 270; 271] = false).
  { cbn [existsb]. destruct (Z.eqb_spec w 0), (Z.eqb_spec w 270), (Z.eqb_spec w 271); try reflexivity; exfalso; auto;
      apply Hw; destruct k; cbn; auto; discriminate. }
  destruct k; try discriminate; cbn [coarse_of fine_of width_kwarg]; rewrite C1, X; reflexivity.
Qed.
Print Assumptions C54_refused.

(** C55: every double precision input of a supported shape is rejected *)
Theorem C55_float64 : forall {T} {N : NumOps T} k g n w (lon lat satz : ndarray T),
  std_width k w -> shaped Float64 n w lon lat satz -> modis k g lon lat satz = Err ValueError.
Proof.
  intros T N k g n w lon lat satz Hw S. rewrite (modis_shaped k g Float64 n w) by (auto using std_is; discriminate).
  destruct (cinit_std k w Hw) as (c & p & E & L & _). rewrite E. cbn [bind]. unfold interpolate_cfg.
  destruct (coords_ok c p g L) as (x & y & E0 & _). rewrite E0. cbn [bind]. destruct S as [-> _]. reflexivity.
Qed.
Print Assumptions C55_float64.

(** C53: coefficients are finite *)
Theorem C53_finite : forall (scan_width : Z) a b, scan_width = 1 \/ scan_width = 5 ->
  (0 <= a <= 89)%R -> (0 <= b <= 89)%R -> ~ (a = 0 /\ b = 0)%R ->
  exists expansion alignment, @exp_ali _ RN scan_width (Some a) (Some b) = (Some expansion, Some alignment).
Proof. exact exp_ali_finite. Qed.
Print Assumptions C53_finite.
(** the widths used by the five functions *)
Theorem C53_widths : forall k w c, std_width k w -> cinit (coarse_of k) (fine_of k) (if is_1km k then 0 else w) = Ok c -> cpp c = 1 \/ cpp c = 5.
Proof.
  intros k w c Hw E. destruct (cinit_std k w Hw) as (c' & p & E' & L & _). rewrite E in E'. injection E' as <-.
  destruct L as [_ [(_ & _ & -> & _)|(_ & _ & -> & _)]]; auto.
Qed.
(** two zero angles are excluded rightly *)
Theorem C53_both_zero : forall scan_width, @exp_ali _ RN scan_width (Some 0%R) (Some 0%R) = (None, None).
Proof.
  intros w. unfold exp_ali. rewrite !deg2rad_RN. rewrite Rmult_0_l. cbn [nst RN].
  assert (P : @compute_phi _ RN (Some 0%R) = Some 0%R).
  { rewrite compute_phi_RN by (pose proof z89_lt; lra). unfold phiR. rewrite sin_0. f_equal.
    replace (Re * 0 / (Re + Alt))%R with 0%R by (unfold Rdiv; ring). apply asin_0'. }
  rewrite P. unfold compute_theta, fsub, fadd, fmul, fdiv. cbn [nst nsub nadd nmul ndiv neqb RN lift2 liftb nz].
  rewrite Reqb_refl. replace ((0 - 0) * 2)%R with 0%R by ring.
  assert (D : forall v, RNdiv v (Some 0%R) = None) by (intros [v|]; [|reflexivity]; unfold RNdiv; destruct (Req_EM_T 0 0); [reflexivity|lra]).
  rewrite !D. reflexivity.
Qed.
Print Assumptions C53_both_zero.
Example C53_nonvacuous : (0 <= 65 <= 89)%R /\ (0 <= 65 <= 89)%R /\ ~ (65 = 0 /\ 65 = 0)%R.
Proof. lra. Qed.

(** C51. Position of fine column i in units of fine pixels from tie point 0: factor * (tie column of the cell) + x.
    For a configuration c: [places c g col row x y]: every coarse array is expanded by the code to cells (row r, col i),
    and (x, y) are the coordinates of the code. *)
Definition places {T} {N : NumOps T} (c : cfg) (g : garbage T) (col row : Z -> Z) (x y : buf T) : Prop :=
  get_coords c g = Ok (x, y) /\
  forall (inp : @input T) (G : Z -> Z -> T) b,
    irows inp = scl c - 1 -> icols inp = scw c - 1 ->
    (forall i j, 0 <= i < irows inp -> 0 <= j < icols inp -> ird inp i j = Ok (G i j)) ->
    bsize b = scl c * ff c * fsw c ->
    exists b', expand c inp (fine_vw c) b = Ok b' /\
      forall r i, 0 <= r < scl c * ff c -> 0 <= i < fsw c -> bat b' (r * fsw c + i) = G (row r) (col i).
Lemma places_cells {T} {N : NumOps T} c p g : layout c p -> exists x y, places c g (cell_c c) (cell_r c) x y /\
  (forall i, 0 <= i < fsw c -> bat x i = xc c i) /\ (forall j, 0 <= j < scl c * ff c -> bat y j = yc c j).
Proof.
  intros L. destruct (coords_ok c p g L) as (x & y & E & _ & _ & Vx & Vy). exists x, y. split; [|auto]. split; [exact E|].
  intros inp G b Hr Hc Hrd Hb. destruct (expand_ok c p L inp G Hr Hc Hrd b Hb) as (b' & E' & _ & V). eauto.
Qed.

(** the three functions for which the property holds *)
Definition even_grid (k : modis_fn) : Prop := k = M1km_250m \/ k = M1km_500m \/ k = M5km_1km.
Lemma grid_place k w c p (L : layout c p) : even_grid k -> std_width k w ->
  scl c = scan_len k -> ff c = factor k -> fsw c = fine_width k -> scw c = w -> p = fine_width k / 1354 ->
  (forall i, 0 <= i < fine_width k -> ff c * cell_c c i + xpos c i = i - (if is_1km k then 0 else 2)) /\
  (forall j, 0 <= j < fine_len k -> (IZR (factor k) * IZR (cell_r c j) + @yc _ RT c j = IZR j - (IZR (factor k) - 1) / 2)%R).
Proof.
  intros Hk Hw E1 E2 E3 E4 E5. unfold fine_len. split.
  - intros i Hi. rewrite <- E3 in Hi. rewrite <- ?E1, <- ?E2 in *.
    unfold cell_c, xpos, clampz. destruct Hk as [-> |[-> | ->]]; cbn [std_width is_1km scan_len factor fine_width] in *.
    + rewrite E1, E2, E3, E4, Hw. cbn [Z.eqb Pos.eqb]. destruct (off_split 4 i); [lia|]. pose proof (Z.div_pos i 4). rewrite Z.sub_0_r.
      destruct (Z.ltb_spec i (5416 - 4)); lia.
    + rewrite E1, E2, E3, E4, Hw. cbn [Z.eqb Pos.eqb]. destruct (off_split 2 i); [lia|]. pose proof (Z.div_pos i 2). rewrite Z.sub_0_r.
      destruct (Z.ltb_spec i (2708 - 2)); lia.
    + assert (FA : fac c = 2) by (destruct L as [_ [(A & _)|(_ & _ & _ & _ & _ & ->)]]; [congruence|subst p; reflexivity]).
      rewrite E1, E2, E3, E4, FA. cbn [Z.eqb Pos.eqb]. destruct (off_split 5 (i - 2)); [lia|].
      destruct Hw as [-> | ->]; cbn [Z.eqb Pos.eqb]; destruct (Z.ltb_spec i 2); try lia;
        [destruct (Z.ltb_spec i (1354 - 7)); lia|destruct (Z.ltb_spec i (1354 - 2)); lia].
  - intros j Hj. unfold cell_r, yc, clampz, half. cbn [nst nz nadd nsub ndiv RT].
    destruct Hk as [-> |[-> | ->]]; cbn [std_width is_1km scan_len factor fine_width] in *; rewrite E1, E2; cbn [Z.eqb Pos.eqb].
    + change (4 / 2) with 2. destruct (off_split 4 (j - 2)); [lia|].
      destruct (Z.ltb_spec j 2) as [A|A].
      * replace (Z.max 0 (Z.min ((j - 2) / 4) 8)) with 0 by lia. lra.
      * destruct (Z.leb_spec (10 * 4 - 2) j) as [B|B].
        -- replace (Z.max 0 (Z.min ((j - 2) / 4) 8)) with 8 by lia. rewrite minus_IZR, minus_IZR. cbn [Z.mul Pos.mul Pos.add]. lra.
        -- replace (Z.max 0 (Z.min ((j - 2) / 4) 8)) with ((j - 2) / 4) by lia.
           assert (M : (j + 2) mod 4 = j - 2 - 4 * ((j - 2) / 4)).
           { replace (j + 2) with (j - 2 + 1 * 4) by ring. rewrite Z_mod_plus_full. lia. }
           rewrite M, !minus_IZR, mult_IZR. lra.
    + change (2 / 2) with 1. destruct (off_split 2 (j - 1)); [lia|].
      destruct (Z.ltb_spec j 1) as [A|A].
      * replace (Z.max 0 (Z.min ((j - 1) / 2) 8)) with 0 by lia. lra.
      * destruct (Z.leb_spec (10 * 2 - 1) j) as [B|B].
        -- replace (Z.max 0 (Z.min ((j - 1) / 2) 8)) with 8 by lia. rewrite minus_IZR, minus_IZR. cbn [Z.mul Pos.mul Pos.add]. lra.
        -- replace (Z.max 0 (Z.min ((j - 1) / 2) 8)) with ((j - 1) / 2) by lia.
           assert (M : (j + 1) mod 2 = j - 1 - 2 * ((j - 1) / 2)).
           { replace (j + 1) with (j - 1 + 1 * 2) by ring. rewrite Z_mod_plus_full. lia. }
           rewrite M, !minus_IZR, mult_IZR. lra.
    + rewrite minus_IZR. lra.
Qed.
Theorem C51_positions_partial : forall k w g, even_grid k -> std_width k w ->
  exists c col row x y, cinit (coarse_of k) (fine_of k) (if is_1km k then 0 else w) = Ok c /\ @places _ RT c g col row x y /\
    (forall i, 0 <= i < fine_width k -> 0 <= col i <= w - 2 /\
       (IZR (factor k) * IZR (col i) + bat x i = IZR i - (if is_1km k then 0 else 2))%R) /\
    (forall j, 0 <= j < fine_len k -> 0 <= row j <= scan_len k - 2 /\
       (IZR (factor k) * IZR (row j) + bat y j = IZR j - (IZR (factor k) - 1) / 2)%R).
Proof.
  intros k w g Hk Hw. destruct (cinit_std k w Hw) as (c & p & E & L & E1 & E2 & E3 & E4 & E5).
  destruct (@places_cells _ RT c p g L) as (x & y & P & Vx & Vy).
  destruct (grid_place k w c p L Hk Hw E1 E2 E3 E4 E5) as [GX GY].
  exists c, (cell_c c), (cell_r c), x, y. split; [exact E|]. split; [exact P|]. split.
  - intros i Hi. rewrite Vx by (rewrite E3; exact Hi). split; [pose proof (cell_c_range c p L i); lia|].
    unfold xc. cbn [nst nz RT]. rewrite <- E2, <- mult_IZR, <- plus_IZR, (GX i Hi), minus_IZR. destruct (is_1km k); reflexivity.
  - intros j Hj. rewrite Vy by (rewrite E1, E2; exact Hj). split; [pose proof (cell_r_range c p L j); lia|]. exact (GY j Hj).
Qed.
Print Assumptions C51_positions_partial.
(** modis_5km_to_500m and modis_5km_to_250m: two neighbouring columns of the same cell, the right one placed left *)
Theorem C51_5km_refuted : forall k w g, k = M5km_500m \/ k = M5km_250m -> std_width k w ->
  exists c col row x y i, cinit (coarse_of k) (fine_of k) w = Ok c /\ @places _ RT c g col row x y /\
    0 <= i /\ i + 1 < fine_width k /\ col (i + 1) = col i /\ (bat x (i + 1) < bat x i)%R.
Proof.
  intros k w g Hk Hw. destruct (cinit_std k w Hw) as (c & p & E & L & E1 & E2 & E3 & E4 & E5).
  replace (is_1km k) with false in E by (destruct Hk as [-> | ->]; reflexivity).
  destruct (@places_cells _ RT c p g L) as (x & y & P & Vx & Vy).
  assert (FA : fac c = 2 * p).
  { destruct L as [_ [(A & _)|(_ & _ & _ & _ & _ & ->)]]; [|reflexivity]. destruct Hk as [-> | ->]; cbn in E1; congruence. }
  exists c, (cell_c c), (cell_r c), x, y, (if fine_width k =? 2708 then 11 else 21). split; [exact E|]. split; [exact P|].
  destruct Hk as [-> | ->]; cbn [fine_width Z.eqb Pos.eqb scan_len factor std_width] in *; (split; [lia|]); (split; [lia|]);
    rewrite !Vx by (rewrite E3; lia); unfold cell_c, xc, xpos; rewrite E1, E2, E3, E4, FA, E5; destruct Hw as [-> | ->]; cbn -[IZR];
    (split; [reflexivity|lra]).
Qed.
Print Assumptions C51_5km_refuted.

(** C52 *)
Section Tie.
#[local] Existing Instance RN.
Lemma cy_round_trip thr lon lat : (-180 < lon < 180)%R -> (-90 < lat < 90)%R ->
  cy_xyz2lonlat true (Some thr) (cy_lonlat2xyz (Some lon) (Some lat)) = (Some lon, Some lat).
Proof.
  intros H1 H2. change (cy_lonlat2xyz (Some lon) (Some lat)) with (@lonlat2xyz_at _ RN (Some 6370997%R) (Some lon) (Some lat)).
  pose proof (C16_round_trip 6370997 thr true lon lat ltac:(lra) H1 H2) as RT.
  pose proof (lonlat2xyz_RN 6370997 lon lat) as X. destruct (@lonlat2xyz_at _ Num.RT 6370997%R lon lat) as [[x y] z]. rewrite X in *.
  rewrite cy_agrees. exact RT.
Qed.

Definition zero_one (v : option R) (b : bool) : Prop := v = Some (if b then 1 else 0)%R.
Lemma a_scan_tie ss st be bt e l : zero_one ss be -> zero_one st bt -> a_scan_value ss st (Some e) (Some l) = ss.
Proof.
  intros -> ->. unfold a_scan_value, fadd, fmul, fsub. cbn [nst nadd nmul nsub nz RN lift2]. f_equal. destruct be, bt; ring.
Qed.
Lemma fine_value_tie at1 as1 bt bs (a b c d : R) : zero_one at1 bt -> zero_one as1 bs ->
  fine_value at1 as1 (Some a) (Some b) (Some c) (Some d) = Some (if bt then (if bs then c else d) else (if bs then b else a)).
Proof.
  intros -> ->. unfold fine_value, fadd, fmul, fsub. cbn [nst nadd nmul nsub nz RN lift2]. f_equal. destruct bt, bs; ring.
Qed.
Lemma div5 (v : R) (b : bool) : v = IZR (if b then 5 else 0) -> zero_one (fdiv (nst (Some v)) (nz 5)) b.
Proof.
  intros ->. unfold zero_one, fdiv. cbn [nst ndiv nz RN]. rewrite RNdiv_some by lra. f_equal. destruct b; field.
Qed.

Definition admissible (n w : Z) (lon lat satz : ndarray (option R)) : Prop :=
  (forall r c, 0 <= r < n -> 0 <= c < w -> exists lo la z,
     aat lon r c = Some lo /\ aat lat r c = Some la /\ aat satz r c = Some z /\ (-180 < lo < 180)%R /\ (-90 < la < 90)%R /\ (0 <= z <= 89)%R) /\
  (forall r c, 0 <= r < n -> 0 <= c -> c + 1 < w -> aat satz r c <> Some 0%R \/ aat satz r (c + 1) <> Some 0%R).

Theorem C52_tie_points : forall g n w (lon lat satz olon olat : ndarray (option R)),
  0 <= n -> n mod 2 = 0 -> std_width M5km_1km w -> shaped Float32 n w lon lat satz -> admissible n w lon lat satz ->
  modis M5km_1km g lon lat satz = Ok (olon, olat) ->
  forall r c, 0 <= r < n -> 0 <= c < w ->
    aat olon (5 * r + 2) (5 * c + 2) = aat lon r c /\ aat olat (5 * r + 2) (5 * c + 2) = aat lat r c.
Proof.
  intros g n w lon lat satz olon olat Hn Hn2 Hw S [AD1 AD2] O r c Hr Hc.
  destruct (modis_run M5km_1km g n w lon lat satz Hn Hw S) as (cf & p & a & b & L & E1 & E2 & E3 & E4 & E5 & Rn & _ & V).
  rewrite Rn in O. injection O as -> ->. unfold fine_len in V. cbn [scan_len factor fine_width std_width] in *. change (1354 / 1354) with 1 in E5. subst p.
  assert (FA : fac cf = 2 /\ cpp cf = 5) by (destruct L as [_ [(A & _)|(_ & _ & -> & _ & _ & ->)]]; [congruence|auto]). destruct FA as [FA CP].
  pose proof (off_split 2 r ltac:(lia)) as [Er Hrm]. set (s := r / 2) in *. set (t := r mod 2) in *.
  pose proof (Z.div_mod n 2 ltac:(lia)) as Dn.
  assert (Hs : 0 <= s < n / 2) by (unfold s; split; [apply Z.div_pos; lia|]; lia).
  assert (P := V (5 * r + 2) (5 * c + 2) ltac:(lia) ltac:(lia)). change (2 * 5) with 10 in P.
  assert (Q1 : (5 * r + 2) / 10 = s) by (apply div_is; lia).
  assert (Q2 : (5 * r + 2) mod 10 = 5 * t + 2).
  { pose proof (Z.div_mod (5 * r + 2) 10 ltac:(lia)). lia. }
  rewrite Q1, Q2 in P. destruct (Z.ltb_spec (5 * r + 2) (n / 2 * 10)); [|lia].
  assert (GOAL : pixel cf lon lat satz s (5 * t + 2) (5 * c + 2) = (aat lon r c, aat lat r c)); [|rewrite GOAL in P; split; [exact (f_equal fst P)|exact (f_equal snd P)]].
  clear P V Rn.
  (* cell and fractions *)
  set (last := c =? w - 1). set (cc := if last then w - 2 else c).
  assert (CC : cell_c cf (5 * c + 2) = cc).
  { unfold cell_c, clampz. rewrite E1, E2, E4, FA. cbn [Z.eqb Pos.eqb]. replace ((5 * c + 2 - 2) / 5) with c by (symmetry; apply div_is; lia).
    unfold cc, last. destruct (Z.eqb_spec c (w - 1)); lia. }
  assert (CR : cell_r cf (5 * t + 2) = 0) by (unfold cell_r; rewrite E1; reflexivity).
  assert (SS : zero_one (fdiv (xc cf (5 * c + 2)) (nz (ff cf))) last).
  { rewrite E2. unfold xc. apply (div5 (IZR (xpos cf (5 * c + 2))) last). f_equal. unfold xpos. rewrite E1, E2, E3, E4. cbn [Z.eqb Pos.eqb].
    destruct (Z.ltb_spec (5 * c + 2) 2); [lia|]. replace (5 * c + 2 - 2) with (c * 5) by ring. rewrite Z_mod_mult.
    unfold last. destruct Hw as [-> | ->]; cbn [Z.eqb Pos.eqb].
    - change (270 - 1) with 269. destruct (Z.eqb_spec c 269), (Z.ltb_spec (5 * c + 2) (1354 - 7)); lia.
    - change (271 - 1) with 270. destruct (Z.eqb_spec c 270), (Z.ltb_spec (5 * c + 2) (1354 - 2)); lia. }
  assert (ST : zero_one (fdiv (yc cf (5 * t + 2)) (nz (ff cf))) (t =? 1)).
  { rewrite E2. unfold yc. rewrite E1. cbn [Z.eqb Pos.eqb]. apply (div5 (IZR (5 * t + 2 - 2)) (t =? 1)). f_equal. destruct (Z.eqb_spec t 1); lia. }
  assert (XYZ : forall i j, 0 <= i < 2 -> 0 <= j < w -> exists x y z, cy_lonlat2xyz (aat lon (s * 2 + i) j) (aat lat (s * 2 + i) j) = (Some x, Some y, Some z)).
  { intros i j Hi Hj. destruct (AD1 (s * 2 + i) j ltac:(lia) Hj) as (lo & la & zz & -> & -> & _). destruct (C15_sphere_cython lo la) as (x & y & z & -> & _). eauto. }
  assert (W2 : 2 <= w) by lia.
  assert (HC2 : 0 <= cc /\ cc + 1 < w) by (unfold cc, last; destruct (Z.eqb_spec c (w - 1)); lia).
  unfold pixel, scan_ll, a_scan_at. rewrite CR, CC, CP, E1, Z.add_0_r.
  destruct (AD1 (s * 2) cc ltac:(lia) ltac:(lia)) as (_ & _ & za & _ & _ & Za & _ & _ & Ba).
  destruct (AD1 (s * 2) (cc + 1) ltac:(lia) ltac:(lia)) as (_ & _ & zb & _ & _ & Zb & _ & _ & Bb).
  destruct (exp_ali_finite 5 za zb) as (e & l & EA); auto.
  { intros [-> ->]. destruct (AD2 (s * 2) cc ltac:(lia) ltac:(lia) ltac:(lia)) as [A|A]; [apply A, Za|apply A, Zb]. }
  rewrite Za, Zb, EA. cbn [fst snd]. rewrite (a_scan_tie _ _ _ _ e l SS ST).
  unfold fine_xyz, fine_comp. cbv zeta. rewrite CR, CC.
  change (0 + 1) with 1.
  destruct (XYZ 0 cc ltac:(lia) ltac:(lia)) as (x1 & y1 & z1 & X1). destruct (XYZ 0 (cc + 1) ltac:(lia) ltac:(lia)) as (x2 & y2 & z2 & X2).
  destruct (XYZ 1 (cc + 1) ltac:(lia) ltac:(lia)) as (x3 & y3 & z3 & X3). destruct (XYZ 1 cc ltac:(lia) ltac:(lia)) as (x4 & y4 & z4 & X4).
  rewrite X1, X2, X3, X4. cbn [comp Z.eqb Pos.eqb]. rewrite !(fine_value_tie _ _ _ _ _ _ _ _ ST SS).
  assert (END : cy_lonlat2xyz (aat lon r c) (aat lat r c) =
     (Some (if t =? 1 then if last then x3 else x4 else if last then x2 else x1),
      Some (if t =? 1 then if last then y3 else y4 else if last then y2 else y1),
      Some (if t =? 1 then if last then z3 else z4 else if last then z2 else z1))).
  { assert (CE : c = if last then cc + 1 else cc) by (unfold cc, last; destruct (Z.eqb_spec c (w - 1)); lia).
    destruct (Z.eqb_spec t 1) as [T1|T1].
    - replace r with (s * 2 + 1) by lia. rewrite CE. destruct last; [exact X3|exact X4].
    - replace r with (s * 2 + 0) by lia. rewrite CE. destruct last; [exact X2|exact X1]. }
  rewrite <- END.
  destruct (AD1 r c Hr Hc) as (lo & la & _ & -> & -> & _ & B1 & B2 & _).
  unfold thr8. cbn [nst ndiv nz RN]. rewrite RNdiv_some by lra. now apply cy_round_trip.
Qed.
End Tie.
Print Assumptions C52_tie_points.

(** ** Non-vacuity and witnesses *)
Definition const_array {T} (dt : dtype) (n w : Z) (v : T) : ndarray T := {| adt := dt; arows := n; acols := w; aat := fun _ _ => v |}.
Lemma const_shaped {T} dt n w (a b d : T) : shaped dt n w (const_array dt n w a) (const_array dt n w b) (const_array dt n w d).
Proof. repeat split. Qed.
Example C48_case : forall k, exists w, std_width k w.
Proof. intros []; [exists 1354|exists 1354|exists 271|exists 270|exists 271]; cbn; auto. Qed.
Example C52_case : admissible 4 271 (const_array Float32 4 271 (Some 10%R)) (const_array Float32 4 271 (Some 50%R)) (const_array Float32 4 271 (Some 30%R)).
Proof.
  split.
  - intros r c _ _. exists 10%R, 50%R, 30%R. cbn [const_array aat]. do 3 (split; [reflexivity|]). lra.
  - intros r c _ _ _. left. cbn [const_array aat]. intros H. injection H. lra.
Qed.
(** C49, C50, C55, C66 with witnesses *)
Theorem C49_refuted : exists k n w, ~ std_width k w /\ forall T (N : NumOps T) g (v : T),
  modis k g (const_array Float32 n w v) (const_array Float32 n w v) (const_array Float32 n w v) = Err OutOfBounds.
Proof.
  exists M1km_250m, 10, 1355. split; [cbn; lia|]. intros T N g v. apply (C49_wide M1km_250m g 10 1355); auto using const_shaped; lia.
Qed.
Print Assumptions C49_refuted.
Theorem C50_refuted : exists k n w, std_width k w /\ forall T (N : NumOps T) (v : T) (junk : Z -> T) g, g_lons g = junk ->
  exists olon olat, modis k g (const_array Float32 n w v) (const_array Float32 n w v) (const_array Float32 n w v) = Ok (olon, olat) /\ aat olon 0 0 = junk 0.
Proof.
  exists M5km_1km, 1, 271. split; [cbn; auto|]. intros T N v junk g Hg.
  destruct (C48_memory_safe M5km_1km g 1 271 (const_array Float32 1 271 v) (const_array Float32 1 271 v) (const_array Float32 1 271 v)) as (olon & olat & E & _);
    [lia|cbn; auto|apply const_shaped|].
  exists olon, olat. split; [exact E|].
  destruct (C50_leftover M5km_1km g 1 271 _ _ _ olon olat ltac:(lia) ltac:(cbn; auto) (const_shaped _ _ _ _ _ _) E 0 0) as [-> _];
    [cbn; lia|cbn; lia|]. now rewrite Hg.
Qed.
Print Assumptions C50_refuted.
Theorem C55_refuted : exists k n w, std_width k w /\ forall T (N : NumOps T) g (v : T),
  modis k g (const_array Float64 n w v) (const_array Float64 n w v) (const_array Float64 n w v) = Err ValueError.
Proof.
  exists M5km_1km, 2, 271. split; [cbn; auto|]. intros T N g v. apply (C55_float64 M5km_1km g 2 271); [cbn; auto|apply const_shaped].
Qed.
Print Assumptions C55_refuted.
Theorem C66_refuted : exists k n m, m <> n /\ forall T (N : NumOps T) g (v : T),
  modis k g (const_array Float32 n 1354 v) (const_array Float32 m 1354 v) (const_array Float32 n 1354 v) = Err OutOfBounds.
Proof.
  exists M1km_500m, 20, 10. split; [lia|]. intros T N g v. apply (C66_shapes M1km_500m g 20 10); try reflexivity; lia.
Qed.
Print Assumptions C66_refuted.
