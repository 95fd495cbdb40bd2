(** C56 - C58, and C50, C66 for the simple MODIS interpolation (simple_modis_interpolator.modis_1km_to_250m, ..._to_500m)
    of plain arrays. [simple k g lon lat]: function k, g = contents of uninitialised memory. *)
From Coq Require Import ZArith List Bool Lia Reals Lra.
From Verif Require Import Base Num Geo GeoProofs GeoAgree Mem Modis ModisProofs ModisOob SimpleModis SimpleModisProofs SimpleModisOob SimpleModisReal PropsGeo.
Import ListNotations.
Open Scope Z_scope.

Inductive simple_fn := To500m | To250m.
Definition simple {T} {N : NumOps T} (k : simple_fn) : garbage2 T -> ndarray T -> ndarray T -> res (ndarray T * ndarray T) :=
  match k with To500m => simple_1km_to_500m | To250m => simple_1km_to_250m end.

(** ** Specification *)
(** fine pixels per tie-point distance; a scan has 10 rows of tie points *)
Definition fac2 (k : simple_fn) : Z := match k with To500m => 2 | To250m => 4 end.
Definition shaped2 {T} (dt : dtype) (n w : Z) (lon lat : ndarray T) : Prop :=
  adt lon = dt /\ adt lat = dt /\ arows lon = n /\ arows lat = n /\ acols lon = w /\ acols lat = w.
(** nominal position of fine row r and fine column i of a scan in units of tie-point distances *)
Definition row_pos (k : simple_fn) (r : Z) : R :=
  match k with To500m => (IZR r / 2 - 1 / 4)%R | To250m => (IZR r / 4 - 3 / 8)%R end.
Definition col_pos (k : simple_fn) (i : Z) : R := (IZR i / IZR (fac2 k))%R.
(** bilinear between the four neighbours, continued linearly outside the tie points ([pwl] of SimpleModisReal.v) *)
Definition bilinear (rows cols : Z) (v : Z -> Z -> R) (y x : R) : R := pwl rows (fun a => pwl cols (v a) x) y.
(** cartesian position of longitude and latitude in degrees *)
Definition at_x (lon lat : R) : R := (6370997 * cos (lat * (PI / 180)) * cos (lon * (PI / 180)))%R.
Definition at_y (lon lat : R) : R := (6370997 * cos (lat * (PI / 180)) * sin (lon * (PI / 180)))%R.
Definition at_z (lon lat : R) : R := (6370997 * sin (lat * (PI / 180)))%R.

(** ** Everything known about a run *)
Lemma simple_run {T} {N : NumOps T} k g dt n w (lon lat : ndarray T) : dt <> OtherDtype -> 0 <= n -> 2 <= w -> shaped2 dt n w lon lat ->
  exists olon olat, simple k g lon lat = Ok (olon, olat) /\ shaped2 dt (fac2 k * n) (fac2 k * w) olon olat /\
    forall R i, 0 <= R < fac2 k * n -> 0 <= i < fac2 k * w ->
      (aat olon R i, aat olat R i) =
      if R <? n / 10 * (fac2 k * 10) then ll_scan (fac2 k) 10 w lon lat (R / (fac2 k * 10)) (R mod (fac2 k * 10)) i
      else (s_lons g (R * (fac2 k * w) + i), s_lats g (R * (fac2 k * w) + i)).
Proof.
  intros Hdt Hn Hw (D1 & D2 & R1 & R2 & C1 & C2).
  destruct (simple_interp_ok g dt n w 1000 (match k with To500m => 500 | To250m => 250 end) 10 (fac2 k) lon lat) as (olon & olat & E & A1 & A2 & A3 & A4 & A5 & A6 & V);
    auto; try (destruct k; reflexivity || discriminate); try lia.
  - unfold fits. destruct k; cbn [fac2 Z.eqb Pos.eqb]; lia.
  - exists olon, olat. split; [destruct k; exact E|]. split; [unfold shaped2; repeat split; assumption|exact V].
Qed.

(** C58. The full statement (every accepted pair of resolutions) is false. It holds for the two functions of the module. *)
Theorem C58_safe_partial : forall {T} {N : NumOps T} k g dt n w (lon lat : ndarray T),
  dt <> OtherDtype -> 0 <= n -> 2 <= w -> shaped2 dt n w lon lat ->
  exists olon olat, simple k g lon lat = Ok (olon, olat) /\ shaped2 dt (fac2 k * n) (fac2 k * w) olon olat.
Proof.
  intros T N k g dt n w lon lat Hdt Hn Hw S. destruct (simple_run k g dt n w lon lat Hdt Hn Hw S) as (olon & olat & E & S' & _). eauto.
Qed.
Print Assumptions C58_safe_partial.
(** Exactly when the code stays inside its arrays, for every accepted pair of resolutions and at least one scan.
    f = resolution factor; rows = tie rows per scan. *)
Definition big_enough (f rows w : Z) : Prop :=
  if f =? 4 then 40 <= 4 * rows /\ 5 <= 4 * w else 20 <= f * rows /\ 3 <= f * w.
Theorem C58_exact : forall {T} {N : NumOps T} g dt coarse fine rows n w (lon lat : ndarray T),
  rows_per_scan_for_resolution coarse = Ok rows -> 0 < fine -> dt <> OtherDtype -> rows <= n -> 0 <= w -> shaped2 dt n w lon lat ->
  let f := coarse / fine in
  (f = 0 \/ big_enough f rows w -> exists olon olat, simple_interp g lon lat coarse fine = Ok (olon, olat)) /\
  (f <> 0 -> ~ big_enough f rows w -> simple_interp g lon lat coarse fine = Err OutOfBounds).
Proof.
  intros T N g dt coarse fine rows n w lon lat Hrps Hfine Hdt Hn Hw (D1 & D2 & R1 & R2 & C1 & C2) f.
  assert (Hr : 1 <= rows <= 40 /\ 250 <= coarse).
  { unfold rows_per_scan_for_resolution in Hrps.
    destruct (Z.eqb_spec coarse 5000); [injection Hrps; lia|]. destruct (Z.eqb_spec coarse 1000); [injection Hrps; lia|].
    destruct (Z.eqb_spec coarse 500); [injection Hrps; lia|]. destruct (Z.eqb_spec coarse 250); [injection Hrps; lia|]. discriminate. }
  assert (F0 : 0 <= f) by (apply Z.div_pos; lia).
  assert (B : 1 <= f -> (big_enough f rows w <-> fits f rows w)).
  { intros F1. unfold big_enough, fits. destruct (Z.eqb_spec f 4) as [-> |].
    - split; [intros []|intros (_ & _ & _ & A & B)]; repeat split; lia.
    - split; [intros []|intros (_ & _ & _ & A & B)]; repeat split; try lia; nia. }
  split.
  - intros [H|H].
    + destruct (simple_interp_empty g dt coarse fine rows lon lat) as (a & b & E & _); auto; try lia; eauto.
    + destruct (Z.eq_dec f 0) as [E0|E0].
      { destruct (simple_interp_empty g dt coarse fine rows lon lat) as (a & b & E & _); auto; try lia; eauto. }
      destruct (simple_interp_ok g dt n w coarse fine rows f lon lat) as (a & b & E & _); auto; try lia; [|eauto]. apply B; [lia|exact H].
  - intros H0 H. apply (simple_interp_must g dt coarse fine rows); auto; try lia. fold f. rewrite C1. rewrite <- B by lia. exact H.
Qed.
Print Assumptions C58_exact.
(** with fewer than two columns the two functions leave their arrays as soon as there is a scan *)
Theorem C58_narrow : forall {T} {N : NumOps T} k g dt n w (lon lat : ndarray T),
  dt <> OtherDtype -> 10 <= n -> 0 <= w < 2 -> shaped2 dt n w lon lat -> simple k g lon lat = Err OutOfBounds.
Proof.
  intros T N k g dt n w lon lat Hdt Hn Hw S.
  destruct k.
  - pose proof (proj2 (C58_exact g dt 1000 500 10 n w lon lat eq_refl ltac:(lia) Hdt Hn ltac:(lia) S)) as P.
    change (1000 / 500) with 2 in P. cbv zeta in P. unfold simple, simple_1km_to_500m. apply P; [discriminate|]. unfold big_enough. cbn [Z.eqb Pos.eqb]. lia.
  - pose proof (proj2 (C58_exact g dt 1000 250 10 n w lon lat eq_refl ltac:(lia) Hdt Hn ltac:(lia) S)) as P.
    change (1000 / 250) with 4 in P. cbv zeta in P. unfold simple, simple_1km_to_250m. apply P; [discriminate|]. unfold big_enough. cbn [Z.eqb Pos.eqb]. lia.
Qed.
Print Assumptions C58_narrow.
Definition const2 {T} (dt : dtype) (n w : Z) (v : T) : ndarray T := {| adt := dt; arows := n; acols := w; aat := fun _ _ => v |}.
Lemma const2_shaped {T} dt n w (a b : T) : shaped2 dt n w (const2 dt n w a) (const2 dt n w b).
Proof. repeat split. Qed.
(** 5km to 1km, supported by the rest of the package, leaves the arrays for every array of at least one scan *)
Theorem C58_refuted : exists coarse fine, rows_per_scan_for_resolution coarse = Ok 2 /\
  forall T (N : NumOps T) g n w (lon lat : ndarray T), 2 <= n -> 0 <= w -> shaped2 Float32 n w lon lat ->
    simple_interp g lon lat coarse fine = Err OutOfBounds.
Proof.
  exists 5000, 1000. split; [reflexivity|]. intros T N g n w lon lat Hn Hw S.
  pose proof (proj2 (C58_exact g Float32 5000 1000 2 n w lon lat eq_refl ltac:(lia) ltac:(discriminate) Hn Hw S)) as P.
  change (5000 / 1000) with 5 in P. cbv zeta in P. apply P; [discriminate|]. unfold big_enough. cbn [Z.eqb Pos.eqb]. lia.
Qed.
Print Assumptions C58_refuted.
Example C58_case : big_enough 2 10 1354 /\ big_enough 4 10 1354 /\ ~ big_enough 5 2 271 /\ ~ big_enough 1 10 1354.
Proof. unfold big_enough. cbn [Z.eqb Pos.eqb]. lia. Qed.

(** C57, any arithmetic *)
Definition same_scan2 {T} (w s s' : Z) (a a' : ndarray T) : Prop :=
  forall i j, 0 <= i < 10 -> 0 <= j < w -> aat a (s * 10 + i) j = aat a' (s' * 10 + i) j.
Lemma ll_scan_ext {T} {N : NumOps T} f w (lon lat lon' lat' : ndarray T) s s' r i : 1 <= w -> same_scan2 w s s' lon lon' -> same_scan2 w s s' lat lat' ->
  ll_scan f 10 w lon lat s r i = ll_scan f 10 w lon' lat' s' r i.
Proof.
  intros Hw E1 E2. unfold ll_scan. f_equal. apply fine_xyz2_ext; [lia|exact Hw|]. intros a b Ha Hb. rewrite (E1 a b Ha Hb), (E2 a b Ha Hb). reflexivity.
Qed.
Lemma scan_row {A} m (F : Z -> Z -> A) s r : 0 <= r < m -> F ((s * m + r) / m) ((s * m + r) mod m) = F s r.
Proof. intros H. exact (flat2_at m F s r H). Qed.
Lemma in_scans m n s r : 0 <= s -> (s + 1) * 10 <= n -> 0 <= r < m * 10 -> 0 <= s * (m * 10) + r < m * n /\ (s * (m * 10) + r <? n / 10 * (m * 10)) = true.
Proof.
  intros Hs Hn Hr. split; [nia|]. apply Z.ltb_lt. assert (s + 1 <= n / 10) by (apply Z.div_le_lower_bound; lia). nia.
Qed.
Theorem C57_scanwise : forall {T} {N : NumOps T} k g g' dt n n' w s s' (lon lat lon' lat' olon olat olon' olat' : ndarray T),
  dt <> OtherDtype -> 2 <= w -> shaped2 dt n w lon lat -> shaped2 dt n' w lon' lat' ->
  0 <= s -> (s + 1) * 10 <= n -> 0 <= s' -> (s' + 1) * 10 <= n' ->
  same_scan2 w s s' lon lon' -> same_scan2 w s s' lat lat' ->
  simple k g lon lat = Ok (olon, olat) -> simple k g' lon' lat' = Ok (olon', olat') ->
  forall r i, 0 <= r < fac2 k * 10 -> 0 <= i < fac2 k * w ->
    aat olon (s * (fac2 k * 10) + r) i = aat olon' (s' * (fac2 k * 10) + r) i /\
    aat olat (s * (fac2 k * 10) + r) i = aat olat' (s' * (fac2 k * 10) + r) i.
Proof.
  intros T N k g g' dt n n' w s s' lon lat lon' lat' olon olat olon' olat' Hdt Hw S S' Hs Hsn Hs' Hsn' E1 E2 O O' r i Hr Hi.
  destruct (simple_run k g dt n w lon lat Hdt ltac:(lia) Hw S) as (a & b & R & _ & V).
  destruct (simple_run k g' dt n' w lon' lat' Hdt ltac:(lia) Hw S') as (a' & b' & R' & _ & V').
  rewrite R in O. injection O as -> ->. rewrite R' in O'. injection O' as -> ->.
  destruct (in_scans (fac2 k) n s r Hs Hsn Hr) as [I1 Q1]. destruct (in_scans (fac2 k) n' s' r Hs' Hsn' Hr) as [I2 Q2].
  pose proof (V _ i I1 Hi) as P. rewrite Q1 in P. pose proof (V' _ i I2 Hi) as P'. rewrite Q2 in P'.
  rewrite (scan_row (fac2 k * 10) (fun x y => ll_scan (fac2 k) 10 w lon lat x y i)) in P by exact Hr.
  rewrite (scan_row (fac2 k * 10) (fun x y => ll_scan (fac2 k) 10 w lon' lat' x y i)) in P' by exact Hr.
  rewrite (ll_scan_ext (fac2 k) w lon lat lon' lat' s s' r i ltac:(lia) E1 E2), <- P' in P.
  split; [exact (f_equal fst P)|exact (f_equal snd P)].
Qed.
Print Assumptions C57_scanwise.

(** C50 for these functions: whole scans are computed, the rows after the last whole scan are uninitialised memory *)
Theorem C50_simple_partial : forall {T} {N : NumOps T} k g g' dt n w (lon lat olon olat olon' olat' : ndarray T),
  dt <> OtherDtype -> 0 <= n -> n mod 10 = 0 -> 2 <= w -> shaped2 dt n w lon lat ->
  simple k g lon lat = Ok (olon, olat) -> simple k g' lon lat = Ok (olon', olat') ->
  forall R i, 0 <= R < fac2 k * n -> 0 <= i < fac2 k * w -> aat olon R i = aat olon' R i /\ aat olat R i = aat olat' R i.
Proof.
  intros T N k g g' dt n w lon lat olon olat olon' olat' Hdt Hn Hm Hw S O O' R i HR Hi.
  pose proof (Z.div_mod n 10 ltac:(lia)) as D. assert (K : 0 < fac2 k * 10) by (destruct k; cbn; lia).
  destruct (off_split (fac2 k * 10) R K) as [E B].
  assert (Q : 0 <= R / (fac2 k * 10) < n / 10).
  { split; [apply Z.div_pos; lia|]. apply Z.div_lt_upper_bound; [lia|]. nia. }
  rewrite E. apply (C57_scanwise k g g' dt n n w (R / (fac2 k * 10)) (R / (fac2 k * 10)) lon lat lon lat); auto; try lia; intros ? ? ? ?; reflexivity.
Qed.
Print Assumptions C50_simple_partial.
Theorem C50_simple_leftover : forall {T} {N : NumOps T} k g dt n w (lon lat olon olat : ndarray T),
  dt <> OtherDtype -> 0 <= n -> 2 <= w -> shaped2 dt n w lon lat -> simple k g lon lat = Ok (olon, olat) ->
  forall R i, n / 10 * (fac2 k * 10) <= R < fac2 k * n -> 0 <= i < fac2 k * w ->
    aat olon R i = s_lons g (R * (fac2 k * w) + i) /\ aat olat R i = s_lats g (R * (fac2 k * w) + i).
Proof.
  intros T N k g dt n w lon lat olon olat Hdt Hn Hw S O R i HR Hi.
  destruct (simple_run k g dt n w lon lat Hdt Hn Hw S) as (a & b & E & _ & V). rewrite E in O. injection O as -> ->.
  assert (0 <= n / 10 * (fac2 k * 10)) by (apply Z.mul_nonneg_nonneg; [apply Z.div_pos; lia|destruct k; cbn; lia]).
  pose proof (V R i ltac:(lia) Hi) as P. destruct (Z.ltb_spec R (n / 10 * (fac2 k * 10))); [lia|]. injection P as -> ->. auto.
Qed.
Print Assumptions C50_simple_leftover.
Example C50_simple_leftover_rows : forall k n, 0 <= n -> n mod 10 <> 0 -> n / 10 * (fac2 k * 10) < fac2 k * n.
Proof.
  intros k n Hn Hm. pose proof (Z.div_mod n 10 ltac:(lia)). pose proof (Z.mod_pos_bound n 10 ltac:(lia)). destruct k; cbn [fac2]; lia.
Qed.

(** C66 for these functions: latitudes with too few rows are read beyond their end *)
Theorem C66_simple_shapes : forall {T} {N : NumOps T} k g dt n m w (lon lat : ndarray T),
  dt <> OtherDtype -> 0 <= m -> m < n / 10 * 10 -> 1 <= w ->
  adt lon = dt -> adt lat = dt -> arows lon = n -> arows lat = m -> acols lon = w -> acols lat = w ->
  simple k g lon lat = Err OutOfBounds.
Proof.
  intros T N k g dt n m w lon lat Hdt Hm Hmn Hw D1 D2 R1 R2 C1 C2.
  set (fine := match k with To500m => 500 | To250m => 250 end).
  transitivity (simple_interp g lon lat 1000 fine); [destruct k; reflexivity|].
  unfold simple_interp. rewrite D1, D2.
  replace (dtype_eqb dt OtherDtype) with false by (destruct dt; [reflexivity|reflexivity|contradiction]).
  replace (dtype_eqb dt dt) with true by (destruct dt; reflexivity). cbn [negb].
  change (rows_per_scan_for_resolution 1000) with (@Ok Z 10). cbn [bind].
  replace (fine =? 0) with false by (destruct k; reflexivity). replace (1000 / fine) with (fac2 k) by (destruct k; reflexivity). cbv zeta. rewrite R1, C1.
  assert (K : 2 <= fac2 k <= 4) by (destruct k; cbn; lia).
  destruct (compute_yx_ok (fac2 k) (fac2 k * 10) (fac2 k * w) (s_coords g) ltac:(nia) ltac:(nia)) as (coords & E0 & _). rewrite E0. cbn [bind].
  pose proof (Z.div_mod n 10 ltac:(lia)). pose proof (Z.mod_pos_bound n 10 ltac:(lia)). set (S := n / 10) in *.
  rewrite (for_must (fun q => bsize (v_res q) = fac2 k * 10 * (fac2 k * w)) _ (S - 1)); [reflexivity|reflexivity| | |].
  - intros s q Hq. now apply okb_simple_scan.
  - lia.
  - intros q _. unfold simple_scan. cbv zeta. rewrite R1, R2, C1, C2.
    rewrite (lonlat_must _ _ _ _ _ _ 9 (w - 1)); [reflexivity| | |].
    + unfold slice_rows. rewrite slice_in by (cbn [full vrows vcols]; lia). cbn [vrows]. lia.
    + unfold slice_rows. rewrite slice_in by (cbn [full vrows vcols]; lia). cbn [vcols full]. lia.
    + left. unfold addr, slice_rows, slice, bound, contiguous. cbn [full voff vs0 vrows vcols bsize]. rewrite R2, C2.
      destruct (Z.ltb_spec (10 * (S - 1)) 0); [lia|]. cbn [Z.ltb Z.compare]. nia.
Qed.
Print Assumptions C66_simple_shapes.
Example C66_simple_case : 10 < 20 / 10 * 10.
Proof. reflexivity. Qed.

(** C56 *)
Section Bilinear.
#[local] Existing Instance RN.
Lemma cy_place (lo la : R) : cy_lonlat2xyz (Some lo) (Some la) = (Some (at_x lo la), Some (at_y lo la), Some (at_z lo la)).
Proof.
  change (cy_lonlat2xyz (Some lo) (Some la)) with (@lonlat2xyz_at _ RN (Some 6370997%R) (Some lo) (Some la)).
  rewrite lonlat2xyz_RN. unfold lonlat2xyz_at, at_x, at_y, at_z. cbn [nmul ncos nsin RT].
  replace (@deg2rad _ RT lo) with (lo * (PI / 180))%R by reflexivity. replace (@deg2rad _ RT la) with (la * (PI / 180))%R by reflexivity. reflexivity.
Qed.
(** the latitude/longitude of the model's conversion of the bilinear position *)
Theorem C56_bilinear : forall k g dt n w (lon lat olon olat : ndarray (option R)) (lo la : Z -> Z -> R),
  dt <> OtherDtype -> 2 <= w -> shaped2 dt n w lon lat ->
  (forall a b, 0 <= a < n -> 0 <= b < w -> aat lon a b = Some (lo a b) /\ aat lat a b = Some (la a b)) ->
  simple k g lon lat = Ok (olon, olat) ->
  forall s r i, 0 <= s -> (s + 1) * 10 <= n -> 0 <= r < fac2 k * 10 -> 0 <= i < fac2 k * w ->
    let position (coordinate : R -> R -> R) :=
      bilinear 10 w (fun a b => coordinate (lo (s * 10 + a)%Z b) (la (s * 10 + a)%Z b)) (row_pos k r) (col_pos k i) in
    (aat olon (s * (fac2 k * 10) + r) i, aat olat (s * (fac2 k * 10) + r) i) =
    cy_xyz2lonlat true (Some (8 / 10)%R) (Some (position at_x), Some (position at_y), Some (position at_z)).
Proof.
  intros k g dt n w lon lat olon olat lo la Hdt Hw S F O s r i Hs Hsn Hr Hi position.
  destruct (simple_run k g dt n w lon lat Hdt ltac:(lia) Hw S) as (a & b & E & _ & V). rewrite E in O. injection O as -> ->.
  destruct (in_scans (fac2 k) n s r Hs Hsn Hr) as [I1 Q1]. pose proof (V _ i I1 Hi) as P. rewrite Q1 in P. rewrite P.
  rewrite (scan_row (fac2 k * 10) (fun x y => ll_scan (fac2 k) 10 w lon lat x y i)) by exact Hr.
  unfold ll_scan, thr8. cbn [nst ndiv nz RN]. rewrite RNdiv_some by lra. f_equal.
  assert (FK : fac2 k = 2 \/ fac2 k = 4) by (destruct k; auto).
  assert (Y : ypos (fac2 k) r = row_pos k r) by (unfold ypos, row_pos; destruct k; cbn [fac2]; lra).
  assert (T : forall (c : Z) (coordinate : R -> R -> R), (forall x y, comp c (cy_lonlat2xyz (Some x) (Some y)) = Some (coordinate x y)) ->
    fine_comp2 (fac2 k) 10 w (fun a b => comp c (cy_lonlat2xyz (aat lon (s * 10 + a) b) (aat lat (s * 10 + a) b))) r i = Some (position coordinate)).
  { intros c coordinate HC. unfold position, bilinear, col_pos. rewrite <- Y.
    apply (finished_real (fac2 k) w FK Hw _ (fun a b => coordinate (lo (s * 10 + a) b) (la (s * 10 + a) b))); [|exact Hr|exact Hi].
    intros a0 b0 Ha Hb. destruct (F (s * 10 + a0) b0 ltac:(lia) Hb) as [-> ->]. apply HC. }
  unfold fine_xyz2. rewrite (T 0 at_x), (T 1 at_y), (T 2 at_z); [reflexivity| | |]; intros x y; rewrite cy_place; reflexivity.
Qed.
(** so the longitude found points to the bilinear position (except on the antimeridian, C18) *)
Theorem C56_direction : forall k g dt n w (lon lat olon olat : ndarray (option R)) (lo la : Z -> Z -> R),
  dt <> OtherDtype -> 2 <= w -> shaped2 dt n w lon lat ->
  (forall a b, 0 <= a < n -> 0 <= b < w -> aat lon a b = Some (lo a b) /\ aat lat a b = Some (la a b)) ->
  simple k g lon lat = Ok (olon, olat) ->
  forall s r i, 0 <= s -> (s + 1) * 10 <= n -> 0 <= r < fac2 k * 10 -> 0 <= i < fac2 k * w ->
    let position (coordinate : R -> R -> R) :=
      bilinear 10 w (fun a b => coordinate (lo (s * 10 + a)%Z b) (la (s * 10 + a)%Z b)) (row_pos k r) (col_pos k i) in
    let x := position at_x in let y := position at_y in
    (x * x + y * y <> 0)%R -> ~ (y = 0 /\ x < 0)%R ->
    exists l, aat olon (s * (fac2 k * 10) + r) i = Some l /\ points_to l x y.
Proof.
  intros k g dt n w lon lat olon olat lo la Hdt Hw S F O s r i Hs Hsn Hr Hi position x y H1 H2.
  pose proof (C56_bilinear k g dt n w lon lat olon olat lo la Hdt Hw S F O s r i Hs Hsn Hr Hi) as P. cbv zeta in P.
  fold (position at_x) (position at_y) (position at_z) in P. fold x y in P.
  destruct (C18_direction_partial None (Some (8 / 10)%R) true x y (Some (position at_z)) H1 H2) as (l & _ & PT & _ & CL & _).
  exists l. split; [|exact PT]. exact (eq_trans (f_equal fst P) CL).
Qed.
End Bilinear.
Print Assumptions C56_bilinear.
Print Assumptions C56_direction.
(** the specification is what it says *)
Example C56_bilinear_inside : forall rows cols v a b (t u : R), 0 <= a <= rows - 2 -> 0 <= b <= cols - 2 -> (0 <= t <= 1)%R -> (0 <= u <= 1)%R ->
  bilinear rows cols v (IZR a + t) (IZR b + u) =
  ((1 - t) * ((1 - u) * v a b + u * v a (b + 1)%Z) + t * ((1 - u) * v (a + 1)%Z b + u * v (a + 1)%Z (b + 1)%Z))%R.
Proof.
  intros rows cols v a b t u Ha Hb Ht Hu. unfold bilinear. rewrite (pwl_piece rows _ _ a); [|exact Ha|right; lra|right; lra].
  rewrite !(pwl_piece cols _ _ b) by (exact Hb || (right; lra)). ring.
Qed.
Example C56_tie_columns : forall rows cols v a b, 2 <= rows -> 2 <= cols -> 0 <= a <= rows - 1 -> 0 <= b <= cols - 1 -> bilinear rows cols v (IZR a) (IZR b) = v a b.
Proof. intros. unfold bilinear. rewrite !pwl_node by assumption. reflexivity. Qed.
Example C56_case : exists lon lat : ndarray (option R), shaped2 Float32 10 2 lon lat /\
  forall a b, 0 <= a < 10 -> 0 <= b < 2 -> aat lon a b = Some (IZR b) /\ aat lat a b = Some (IZR a).
Proof.
  exists {| adt := Float32; arows := 10; acols := 2; aat := fun a b => Some (IZR b) |}, {| adt := Float32; arows := 10; acols := 2; aat := fun a b => Some (IZR a) |}.
  split; [repeat split|auto].
Qed.
