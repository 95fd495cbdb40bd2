(** Tie points in the result of the legacy functions; metop20kmto1km; generic_modis5kmto1km. *)
From Coq Require Import ZArith List Lia Bool Reals Lra Permutation.
From Verif Require Import Spec Base Num Splits SplitsProofs Geo GeoProofs Interp PlProofs InterpProofs Legacy LegacyProofs LegacyInst.
Import ListNotations.
#[local] Existing Instance RT.
Open Scope R_scope.

Lemma shaped_row {A} n w (a : list (list A)) r : shaped n w a -> (r < n)%nat -> length (nth r a []) = w.
Proof. intros [L F] H. rewrite Forall_forall in F. apply F. apply nth_In. lia. Qed.

Lemma at2_mat1 {A B} (f : A -> B) n w a r c d d' : shaped n w a -> (r < n)%nat -> (c < w)%nat ->
  at2 d' (mat1 f a) r c = f (at2 d a r c).
Proof.
  intros S Hr Hc. unfold at2, mat1. pose proof (shaped_row n w a r S Hr) as L. destruct S as [La _].
  rewrite (nth_map' (map f) a r []) by lia. apply nth_map'. lia.
Qed.
Lemma at2_mat2 {A B C} (f : A -> B -> C) n w a b r c da db dc : shaped n w a -> shaped n w b -> (r < n)%nat -> (c < w)%nat ->
  at2 dc (mat2 f a b) r c = f (at2 da a r c) (at2 db b r c).
Proof.
  intros Sa Sb Hr Hc. unfold at2, mat2. pose proof (shaped_row n w a r Sa Hr). pose proof (shaped_row n w b r Sb Hr).
  destruct Sa as [La _], Sb as [Lb _].
  rewrite (nth_map2 (map2 f) a b r [] []) by lia. apply nth_map2; lia.
Qed.

Lemma geo3_at n w x y z r c : shaped n w x -> shaped n w y -> shaped n w z -> (r < n)%nat -> (c < w)%nat ->
  (at2 None (fst (geo3 x y z)) r c, at2 None (snd (geo3 x y z)) r c) =
  @xyz2lonlat _ RN (Some (at2 0 x r c), Some (at2 0 y r c), Some (at2 0 z r c)).
Proof.
  intros Sx Sy Sz Hr Hc. unfold geo3, zip3. cbn [fst snd].
  assert (S1 : shaped n w (mat2 pair (mat2 pair x y) z)) by (apply mat2_shaped; auto; now apply mat2_shaped).
  set (f := fun p : R * R * R => let '(a, b, c0) := p in @xyz2lonlat _ RN (Some a, Some b, Some c0)).
  rewrite !(at2_mat1 _ n w _ r c (None, None)) by (auto; now apply mat1_shaped).
  rewrite (at2_mat1 f n w _ r c (0, 0, 0)) by auto.
  rewrite (at2_mat2 pair n w _ z r c (0, 0) 0) by (auto; now apply mat2_shaped).
  rewrite (at2_mat2 pair n w x y r c 0 0) by auto. unfold f. now rewrite <- surjective_pairing.
Qed.

Lemma c_at n w lons lats r c : shaped n w lons -> shaped n w lats -> (r < n)%nat -> (c < w)%nat ->
  (at2 0 (cx (lons, lats)) r c, at2 0 (cy (lons, lats)) r c, at2 0 (cz (lons, lats)) r c) =
  lonlat2xyz (at2 0 lons r c) (at2 0 lats r c).
Proof.
  intros S1 S2 Hr Hc. unfold cx, cy, cz. cbn [fst snd].
  rewrite !(at2_mat1 _ n w _ r c (0, 0, 0)) by (auto; now apply mat2_shaped).
  rewrite (at2_mat2 lonlat2xyz n w lons lats r c 0 0) by auto.
  now rewrite <- !surjective_pairing.
Qed.

(** lon/lat -> x, y, z (exact) -> lon/lat *)
Lemma geo_round_trip lon lat : -180 < lon < 180 -> -90 < lat < 90 ->
  (let '(x, y, z) := @lonlat2xyz _ RT lon lat in @xyz2lonlat _ RN (Some x, Some y, Some z)) = (Some lon, Some lat).
Proof.
  intros H1 H2. assert (E : 0 < IZR 6370997) by (apply IZR_lt; lia).
  pose proof (round_trip (IZR 6370997) (8 / 10) true lon lat E H1 H2) as G.
  rewrite lonlat2xyz_RN in G. unfold lonlat2xyz, xyz2lonlat. unfold EARTH_RADIUS. cbn [nz RT RN ndiv].
  rewrite RNdiv_some by lra.
  destruct (@lonlat2xyz_at _ RT (IZR 6370997) lon lat) as [[x y] z]. exact G.
Qed.

Lemma strict_inc_increasing l : strict_inc l = true -> increasing l.
Proof. intros H i j Hij. apply strict_inc_lt; auto; lia. Qed.

Lemma pair_inj {A B} (a c : A) (b d : B) : (a, b) = (c, d) -> a = c /\ b = d.
Proof. intros H. injection H. auto. Qed.
Lemma Ok_pair_inj {A B} (a c : A) (b d : B) : Ok (a, b) = Ok (c, d) -> a = c /\ b = d.
Proof. intros H. injection H. auto. Qed.

Section Layout.
Variables (g m : nat) (delta o : R) (cols hcols : list R).
Hypothesis (Hg : (1 <= g)%nat) (Hm : (2 <= m)%nat) (Hdelta : 0 <= delta < 1).
Hypothesis Hfirst : hposn g o 0 < posn delta 0.
Hypothesis Hlast : posn delta (m - 1) < hposn g o (g * m - 1).
Hypothesis Hgm : (g * m <> m + 2)%nat.
Hypothesis Hcols2 : (4 <= length cols)%nat.
Hypothesis Hhcols : hcols <> [].
Hypothesis Hcinc : strict_inc (ext_cols cols hcols) = true.
Hypothesis Hhinc : weak_inc hcols = true.
Variables spl1 spl2 : list R -> list R -> Z -> R -> R.
Hypothesis Hspl : interpolates spl2.

Lemma ext_nth c r : length r = length cols -> (c < length cols)%nat ->
  exists k, (k < length (ext_cols cols hcols))%nat /\
    nth k (ext_cols cols hcols) 0 = nth c cols 0 /\ nth k (ext_row cols hcols r) 0 = nth c r 0.
Proof.
  intros Hr Hc. unfold ext_cols, ext_row. destruct (need_first cols hcols).
  - exists (S c). cbn [app nth length]. rewrite !app_nth1 by lia. rewrite app_length. repeat split; lia.
  - exists c. cbn [app]. rewrite !app_nth1 by lia. rewrite app_length. repeat split; lia.
Qed.

Lemma sr_at_tie b i j C J :
  shaped m (length cols) b -> (i < m)%nat -> (j < g * m)%nat -> hposn g o j = posn delta i ->
  (C < length cols)%nat -> (J < length hcols)%nat -> nth J hcols 0 = nth C cols 0 ->
  at2 0 (sr g m delta o cols hcols spl2 b) j J = at2 0 b i C.
Proof.
  intros [Lb Wb] Hi Hj E HC HJ EJ. unfold at2, sr.
  rewrite (scan_result_at_tie g m delta o Hg Hm cols hcols 3 Hfirst Hlast spl2) with (i := i); auto; try lia.
  rewrite (nth_map' _ hcols J 0) by exact HJ. unfold axis_spline. cbn [Z.eqb Pos.eqb].
  assert (Lr : length (nth i b []) = length cols).
  { rewrite Forall_forall in Wb. apply Wb. apply nth_In. lia. }
  destruct (ext_nth C (nth i b []) Lr HC) as (k & Hk & E1 & E2).
  rewrite EJ, <- E1, <- E2. apply Hspl; auto.
  - now apply strict_inc_increasing.
  - now apply ext_row_length.
  - lia.
  - unfold ext_cols. rewrite !app_length. lia.
Qed.

Lemma geo_scan_at_tie s i j C J :
  scan_shaped m cols s -> (i < m)%nat -> (j < g * m)%nat -> hposn g o j = posn delta i ->
  (C < length cols)%nat -> (J < length hcols)%nat -> nth J hcols 0 = nth C cols 0 ->
  -180 < at2 0 (fst s) i C < 180 -> -90 < at2 0 (snd s) i C < 90 ->
  at2 None (fst (geo_scan g m delta o cols hcols spl2 s)) j J = Some (at2 0 (fst s) i C) /\
  at2 None (snd (geo_scan g m delta o cols hcols spl2 s)) j J = Some (at2 0 (snd s) i C).
Proof.
  intros [S1 S2] Hi Hj E HC HJ EJ Blon Blat. destruct s as [lons lats]. cbn [fst snd] in *.
  destruct (c_shaped _ _ lons lats S1 S2) as (Cx & Cy & Cz).
  assert (G : (at2 None (fst (geo_scan g m delta o cols hcols spl2 (lons, lats))) j J,
               at2 None (snd (geo_scan g m delta o cols hcols spl2 (lons, lats))) j J) =
              (Some (at2 0 lons i C), Some (at2 0 lats i C))).
  { unfold geo_scan. rewrite (geo3_at (g * m) (length hcols)); try apply sr_shaped; auto.
    rewrite !(sr_at_tie _ i j C J); auto.
    pose proof (geo_round_trip _ _ Blon Blat) as G.
    pose proof (c_at m (length cols) lons lats i C S1 S2 Hi HC) as CC. rewrite <- CC in G. exact G. }
  now apply pair_inj.
Qed.

Lemma layout_tie k lons lats lo la q i j C J :
  shaped (k * m) (length cols) lons -> shaped (k * m) (length cols) lats ->
  layout_run g m delta o cols hcols spl1 spl2 lons lats = Ok (lo, la) ->
  (q < k)%nat -> (i < m)%nat -> (j < g * m)%nat -> hposn g o j = posn delta i ->
  (C < length cols)%nat -> (J < length hcols)%nat -> nth J hcols 0 = nth C cols 0 ->
  -180 < at2 0 lons (q * m + i) C < 180 -> -90 < at2 0 lats (q * m + i) C < 90 ->
  at2 None lo (q * (g * m) + j) J = Some (at2 0 lons (q * m + i) C) /\
  at2 None la (q * (g * m) + j) J = Some (at2 0 lats (q * m + i) C).
Proof.
  intros Sl Sa Hrun Hq Hi Hj E HC HJ EJ Blon Blat.
  destruct (as_scans g m cols Hg Hm Hgm Hcols2 k lons lats Sl Sa) as (scans & L & F & El & Ea).
  rewrite El, Ea in Hrun.
  rewrite (layout_whole g m delta o cols hcols) in Hrun; auto; [|destruct scans; simpl in L; [lia|discriminate]].
  apply Ok_pair_inj in Hrun; destruct Hrun as [<- <-].
  assert (Hs : nth_error scans q <> None) by (apply nth_error_Some; lia).
  destruct (nth_error scans q) as [s|] eqn:Es; [clear Hs|congruence].
  assert (Hin : In s scans) by (eapply nth_error_In; eauto).
  assert (Nth : forall {B} (f : mat R * mat R -> list (list B)), nth q (map f scans) [] = f s).
  { intros B f. now apply nth_map_in. }
  assert (Al : forall (f : mat R * mat R -> mat R), (forall s, In s scans -> length (f s) = m) ->
     nth (q * m + i) (concat (map f scans)) [] = nth i (f s) []).
  { intros f Hf. rewrite (nth_concat_const _ m) by (try apply Forall_map, Forall_forall; try rewrite map_length; auto; lia).
    now rewrite Nth. }
  rewrite Forall_forall in F.
  assert (Elon : at2 0 lons (q * m + i) C = at2 0 (fst s) i C).
  { unfold at2. rewrite El, Al; [reflexivity|]. intros s' H'. apply (F s' H'). }
  assert (Elat : at2 0 lats (q * m + i) C = at2 0 (snd s) i C).
  { unfold at2. rewrite Ea, Al; [reflexivity|]. intros s' H'. apply (F s' H'). }
  rewrite Elon, Elat in *.
  destruct (geo_scan_at_tie s i j C J (F s Hin) Hi Hj E HC HJ EJ Blon Blat) as [R1 R2].
  rewrite <- R1, <- R2. unfold at2.
  rewrite !(nth_concat_const _ (g * m)).
  - rewrite !Nth. auto.
  - apply Forall_map, Forall_forall. intros s' _. apply geo_scan_shaped.
  - lia.
  - rewrite map_length. lia.
  - apply Forall_map, Forall_forall. intros s' _. apply geo_scan_shaped.
  - lia.
  - rewrite map_length. lia.
Qed.
End Layout.

Theorem modis5km_tie spl1 spl2 k lons lats lo la r c :
  interpolates spl2 ->
  shaped (2 * k) 271 lons -> shaped (2 * k) 271 lats ->
  modis5kmto1km spl1 spl2 lons lats = Ok (lo, la) ->
  (r < 2 * k)%nat -> (c < 271)%nat ->
  -180 < at2 0 lons r c < 180 -> -90 < at2 0 lats r c < 90 ->
  at2 None lo (5 * r + 2) (5 * c + 2) = Some (at2 0 lons r c) /\
  at2 None la (5 * r + 2) (5 * c + 2) = Some (at2 0 lats r c).
Proof.
  intros Hspl Sl Sa Hrun Hr Hc B1 B2. rewrite modis5km_layout in Hrun.
  replace (2 * k)%nat with (k * 2)%nat in * by lia. rewrite <- len_cols5 in Sl, Sa.
  pose proof (Nat.div_mod r 2 ltac:(lia)) as E. pose proof (Nat.mod_upper_bound r 2 ltac:(lia)) as U.
  set (q := (r / 2)%nat) in *. set (i := (r mod 2)%nat) in *.
  replace (5 * r + 2)%nat with (q * (5 * 2) + (5 * i + 2))%nat by lia.
  replace r with (q * 2 + i)%nat in * by lia.
  apply (layout_tie 5 2 (2 / 5) 0 cols5 hcols5) with (spl1 := spl1) (spl2 := spl2) (k := k);
    rewrite ?len_cols5, ?len_hcols5; try exact c5_first; try exact c5_last; try exact c5_cols; try assumption; try lia; try lra.
  - apply Hn_ne. lia.
  - apply weak_Hn. lia.
  - unfold hposn, posn. rewrite Nat2Z.inj_add, Nat2Z.inj_mul, plus_IZR, mult_IZR. simpl. field.
  - unfold hcols5, cols5. rewrite nth_Hn, nth_Pn by lia. unfold hposn, posn.
    rewrite Nat2Z.inj_add, Nat2Z.inj_mul, plus_IZR, mult_IZR. simpl. field.
Qed.

(** ** Metop *)
Definition metop_cols : list Z := 0%Z :: np_arange 4 2048 20 ++ [2047%Z].

Lemma metop_cols_length : length metop_cols = 105%nat.
Proof. reflexivity. Qed.

Fixpoint zinc (l : list Z) : bool :=
  match l with a :: ((b :: _) as l') => (a <? b)%Z && zinc l' | _ => true end.

Lemma zinc_strict l : zinc l = true -> strict_inc (map IZR l) = true.
Proof.
  induction l as [|a [|b l] IH]; intros H; [reflexivity|reflexivity|].
  cbn [zinc] in H. apply andb_true_iff in H. destruct H as [H1 H2]. apply Z.ltb_lt in H1.
  cbn [map]. apply strict_inc_cons. split; [now apply IZR_lt|]. now apply IH.
Qed.

Lemma metop_inc : strict_inc (map IZR metop_cols) = true.
Proof. apply zinc_strict. reflexivity. Qed.

Lemma array_equal_refl (l : list R) : array_equal l l = true.
Proof. induction l; simpl; [reflexivity|]. rt. now rewrite Reqb_refl. Qed.

Section Metop.
Variables spl1 spl2 : list R -> list R -> Z -> R -> R.

Definition metop_row (r : list R) : list R := map (fun j => spl1 (map IZR metop_cols) r 3 (IZR (Z.of_nat j))) (seq 0 2048).

Lemma metop_interp_one n data d : shaped n 105 d ->
  interp_one spl1 spl2 (metop_grid (Z.of_nat n) data) d = Ok (map metop_row d).
Proof.
  intros [L W]. unfold interp_one, metop_grid, make. cbn [hrow_indices row_indices fst snd].
  rewrite array_equal_refl. unfold interp1d_one. cbn [hrow_indices col_indices hcol_indices ky_ fst snd].
  assert (Lh : length (grid_of (T := R) (np_arange 0 (Z.of_nat n) 1)) = n).
  { unfold grid_of. now rewrite map_length, np_arange_seq, map_length, seq_length. }
  rewrite Lh, range0_map_of_nat, mapM_map, <- L.
  rewrite (mapM_seq_nth' metop_row d); [reflexivity|].
  intros i r Hr. assert (Hi : (i < length d)%nat) by (apply nth_error_Some; congruence).
  rewrite (nth_res_Ok d _ []) by lia. rewrite Nat2Z.id. rewrite (nth_error_nth d i [] Hr). cbn [bind].
  change (grid_of (0%Z :: np_arange 4 2048 20 ++ [2047%Z])) with (map IZR metop_cols).
  rewrite map_length, metop_cols_length.
  assert (Lr : length r = 105%nat) by (rewrite Forall_forall in W; apply W; eapply nth_error_In; eauto).
  rewrite Lr. rewrite (strict_inc_weak _ metop_inc). cbn [Nat.eqb negb]. 
  change ((1 <=? 3) && (3 <=? 5) && (3 <? Z.of_nat 105))%Z with true. cbn [negb].
  unfold metop_row, grid_of. replace 2048%Z with (Z.of_nat 2048) by reflexivity. rewrite np_arange_seq, !map_map. reflexivity.
Qed.

Theorem metop_result n lons lats : shaped n 105 lons -> shaped n 105 lats ->
  metop20kmto1km spl1 spl2 lons lats =
  Ok (geo3 (map metop_row (cx (lons, lats))) (map metop_row (cy (lons, lats))) (map metop_row (cz (lons, lats)))).
Proof.
  intros S1 S2. destruct (c_shaped _ _ lons lats S1 S2) as (Cx & Cy & Cz).
  unfold metop20kmto1km, geo_interpolate, nrows. rewrite (proj1 S1), tie_xyz_eq.
  set (data := [cx (lons, lats); cy (lons, lats); cz (lons, lats)]).
  unfold interpolate. change (tie_data (metop_grid (Z.of_nat n) data)) with data. unfold data at 2.
  cbn [interp_loop]. rewrite !metop_interp_one by assumption. reflexivity.
Qed.

Lemma metop_rows_shaped n d : shaped n 105 d -> shaped n 2048 (map metop_row d).
Proof.
  intros [L _]. split; [now rewrite map_length|]. apply Forall_map, Forall_forall. intros r _.
  unfold metop_row. now rewrite map_length, seq_length.
Qed.

Theorem metop_shape n lons lats : shaped n 105 lons -> shaped n 105 lats ->
  exists lo la, metop20kmto1km spl1 spl2 lons lats = Ok (lo, la) /\ shaped n 2048 lo /\ shaped n 2048 la.
Proof.
  intros S1 S2. destruct (c_shaped _ _ lons lats S1 S2) as (Cx & Cy & Cz).
  rewrite (metop_result n) by assumption. do 2 eexists. split; [rewrite <- surjective_pairing; reflexivity|].
  apply geo3_shaped; now apply metop_rows_shaped.
Qed.

Theorem metop_tie n lons lats lo la r c :
  interpolates spl1 -> shaped n 105 lons -> shaped n 105 lats ->
  metop20kmto1km spl1 spl2 lons lats = Ok (lo, la) ->
  (r < n)%nat -> (c < 105)%nat ->
  -180 < at2 0 lons r c < 180 -> -90 < at2 0 lats r c < 90 ->
  at2 None lo r (Z.to_nat (nth c metop_cols 0%Z)) = Some (at2 0 lons r c) /\
  at2 None la r (Z.to_nat (nth c metop_cols 0%Z)) = Some (at2 0 lats r c).
Proof.
  intros Hspl S1 S2 Hrun Hr Hc B1 B2.
  destruct (c_shaped _ _ lons lats S1 S2) as (Cx & Cy & Cz).
  rewrite (metop_result n) in Hrun by assumption.
  set (J := Z.to_nat (nth c metop_cols 0%Z)).
  assert (HJ : (J < 2048)%nat /\ Z.of_nat J = nth c metop_cols 0%Z).
  { assert (A : forallb (fun z => (0 <=? z)%Z && (z <? 2048)%Z) metop_cols = true) by reflexivity.
    rewrite forallb_forall in A.
    assert (I : In (nth c metop_cols 0%Z) metop_cols) by (apply nth_In; rewrite metop_cols_length; exact Hc).
    specialize (A _ I). apply andb_true_iff in A. destruct A as [A1 A2]. apply Z.leb_le in A1. apply Z.ltb_lt in A2.
    unfold J. split; [|lia]. apply Nat2Z.inj_lt. rewrite Z2Nat.id by lia. exact A2. }
  destruct HJ as [HJ EJ].
  assert (At : forall d, shaped n 105 d -> at2 0 (map metop_row d) r J = at2 0 d r c).
  { intros d [L W]. unfold at2. rewrite (nth_map' metop_row d r []) by lia. unfold metop_row.
    rewrite (nth_map' _ (seq 0 2048) J 0%nat) by (now rewrite seq_length). rewrite seq_nth by exact HJ. cbn [Nat.add].
    rewrite EJ. replace (IZR (nth c metop_cols 0%Z)) with (nth c (map IZR metop_cols) 0).
    2:{ apply nth_map'. rewrite metop_cols_length. exact Hc. }
    apply Hspl.
    - apply strict_inc_increasing, metop_inc.
    - rewrite map_length, metop_cols_length. rewrite Forall_forall in W. apply W. apply nth_In. lia.
    - lia.
    - rewrite map_length, metop_cols_length. lia.
    - rewrite map_length, metop_cols_length. exact Hc. }
  assert (G : (at2 None lo r J, at2 None la r J) = (Some (at2 0 lons r c), Some (at2 0 lats r c))).
  { rewrite (surjective_pairing (geo3 _ _ _)) in Hrun. apply Ok_pair_inj in Hrun; destruct Hrun as [<- <-].
    rewrite (geo3_at n 2048); auto; try now apply metop_rows_shaped.
    rewrite !At by assumption. pose proof (geo_round_trip _ _ B1 B2) as G.
    pose proof (c_at n 105 lons lats r c S1 S2 Hr Hc) as CC. rewrite <- CC in G. exact G. }
  now apply pair_inj.
Qed.
End Metop.

(** ** generic_modis5kmto1km *)
Lemma rows5_eq n : grid_of (np_arange 2 (Z.of_nat n * 5) 5) = map (fun i => 2 + 5 * IZR (Z.of_nat i)) (seq 0 n).
Proof.
  unfold grid_of. rewrite (np_arange_from 2 _ 5 n) by (symmetry; apply Z.div_unique with (r := 2%Z); lia).
  rewrite map_map. apply map_ext. intros i. rt. now rewrite plus_IZR, mult_IZR.
Qed.

Lemma generic_window n lo hi (sel : list nat) a k :
  lo = 2 * IZR (Z.of_nat a) -> hi = 2 * IZR (Z.of_nat a) + 2 -> 
  sel = seq k (if (a =? 1)%nat then 1 else 0) -> (a <= 1)%nat -> k = 0%nat -> (1 <= n)%nat ->
  window (map (fun i => 2 + 5 * IZR (Z.of_nat i)) (seq 0 n)) lo hi = sel.
Proof.
  intros -> -> -> Ha -> Hn. unfold window. rewrite map_length, seq_length.
  apply filter_seq_interval; [destruct (a =? 1)%nat; lia|].
  intros i Hi. rt. rewrite (nth_map' _ (seq 0 n) i 0%nat) by (now rewrite seq_length). rewrite seq_nth by exact Hi. cbn [Nat.add].
  assert (Hi0 : i = 0%nat \/ 1 <= IZR (Z.of_nat i)).
  { destruct i; [now left|right]. apply IZR_le. lia. }
  assert (Ea : a = 0%nat \/ a = 1%nat) by lia.
  destruct Ea as [-> | ->]; cbn [Nat.eqb Nat.add].
  - replace ((0 <=? i)%nat && (i <? 0)%nat) with false by (destruct i; reflexivity).
    apply andb_false_iff. right. apply Rltb_false. simpl (IZR (Z.of_nat 0)). destruct Hi0 as [->|H]; simpl; lra.
  - destruct Hi0 as [->|H].
    + cbn [Nat.leb Nat.ltb andb]. apply andb_true_iff. split; [apply Rleb_true|apply Rltb_true]; simpl; lra.
    + replace ((0 <=? i)%nat && (i <? 1)%nat) with false.
      2:{ destruct i; [simpl in H; lra|reflexivity]. }
      apply andb_false_iff. right. apply Rltb_false. simpl (IZR (Z.of_nat 1)). lra.
Qed.

Theorem generic_modis_raises spl1 spl2 n (data : list (mat R)) :
  data <> [] -> Forall (fun d => length d = n) data ->
  exists e, generic_modis5kmto1km spl1 spl2 data = Err e.
Proof.
  intros Hne Hd. destruct data as [|d0 data']; [congruence|].
  assert (L0 : length d0 = n) by (inversion Hd; auto).
  unfold generic_modis5kmto1km, fill_then_interpolate, fill_borders. cbn [resolve bind run_dims run_dim].
  rewrite L0, rows5_eq.
  assert (H1 : grid_of (np_arange 0 (Z.of_nat n * 5) 1) = map (fun i => IZR (Z.of_nat i)) (seq 0 (5 * n))).
  { replace (Z.of_nat n * 5)%Z with (Z.of_nat (5 * n)) by lia. unfold grid_of. now rewrite np_arange_seq, map_map. }
  rewrite H1. set (hrows := map (fun i => IZR (Z.of_nat i)) (seq 0 (5 * n))).
  set (rows := map (fun i => 2 + 5 * IZR (Z.of_nat i)) (seq 0 n)).
  set (st := make _ _ _ _ _ _).
  destruct n as [|n'].
  { exists ZeroDivisionError. reflexivity. }
  set (n := S n') in *.
  assert (Lh : length hrows = (5 * n)%nat) by (unfold hrows; now rewrite map_length, seq_length).
  assert (Lr : length rows = n) by (unfold rows; now rewrite map_length, seq_length).
  assert (Hrows : rows <> []) by (intros E; rewrite E in Lr; discriminate).
  assert (Efac : IZR (Z.of_nat (5 * n)) / IZR (Z.of_nat n) = 5).
  { rewrite Nat2Z.inj_mul, mult_IZR. field. apply not_0_IZR. lia. }
  assert (W0 : window rows (IZR 0 / 5) (IZR (0 + 10) / 5) = []).
  { unfold rows. apply (generic_window n _ _ [] 0 0); simpl; try lra; try lia; auto. }
  assert (W1 : window rows (IZR 10 / 5) (IZR (10 + 10) / 5) = [0%nat]).
  { unfold rows. apply (generic_window n _ _ [0%nat] 1 0); simpl; try lra; try lia; auto. }
  (* the first chunk *)
  assert (C0 : fill_chunk st 10 5 0 =
     bind (nth_res hrows 9) (fun h1 => Ok (map (fun _ => []) (d0 :: data'), [IZR 0; h1]))).
  { unfold fill_chunk. change (row_indices st) with rows. change (hrow_indices st) with hrows.
    change (tie_data st) with (d0 :: data'). rt. rewrite W0. cbn [map mapM].
    cbn [bind]. rewrite (mapM_Ok_map _ (fun _ => [])) by reflexivity. cbn [bind].
    rewrite (nth_res_Ok hrows 0 0) by lia. cbn [bind].
    change (0 + 10 - 1)%Z with 9%Z. destruct (nth_res hrows 9); [|reflexivity]. cbn [bind app].
    repeat f_equal. }
  assert (C1 : exists e, fill_chunk st 10 5 10 = Err e).
  { unfold fill_chunk. change (row_indices st) with rows. change (hrow_indices st) with hrows.
    change (tie_data st) with (d0 :: data'). rt. rewrite W1. cbn [mapM].
    rewrite (nth_res_Ok d0 (Z.of_nat 0) []) by (rewrite L0; unfold n; lia). cbn [bind].
    destruct (nth_res hrows 10) as [h0|e0]; cbn [bind]; [|eexists; reflexivity].
    destruct (nth_res hrows (10 + 10 - 1)) as [h1|e1]; cbn [bind]; eexists; reflexivity. }
  assert (F : exists e, fill_row_borders st = Err e).
  { unfold fill_row_borders. change (hrow_indices st) with hrows. change (row_indices st) with rows.
    change (chunk_size st) with 10%Z. change (tie_data st) with (d0 :: data'). cbn [Z.eqb].
    rewrite Lh, Lr. destruct rows as [|r0 rt0] eqn:Er; [congruence|]. rewrite <- Er in *. cbn [bind]. rt. rewrite Efac.
    unfold py_range. cbn [Z.eqb bind].
    destruct (Nat.le_gt_cases n 2) as [Hs|Hs].
    - (* one chunk *)
      replace ((Z.of_nat (5 * n) - 0 + 10 - 1) / 10)%Z with 1%Z.
      2:{ apply Z.div_unique with (r := (Z.of_nat (5 * n) - 1)%Z); unfold n in *; lia. }
      change (map (fun i => (0 + 10 * i)%Z) (range0 1)) with [0%Z]. cbn [mapM]. rewrite C0.
      destruct (nth_res hrows 9) as [h1|e]; cbn [bind]; [|eauto].
      exists ValueError. reflexivity.
    - replace ((Z.of_nat (5 * n) - 0 + 10 - 1) / 10)%Z
        with (Z.of_nat (2 + Z.to_nat ((Z.of_nat (5 * n) - 11) / 10)))%Z.
      2:{ rewrite Nat2Z.inj_add, Z2Nat.id by (apply Z.div_pos; lia).
          replace (Z.of_nat (5 * n) - 0 + 10 - 1)%Z with ((Z.of_nat (5 * n) - 11) + 2 * 10)%Z by lia.
          rewrite Z.div_add by lia. lia. }
      unfold range0. rewrite Nat2Z.id. cbn [Nat.add zrange map mapM].
      change (0 + 10 * 0)%Z with 0%Z. change (0 + 10 * (0 + 1))%Z with 10%Z.
      rewrite C0. rewrite (nth_res_Ok hrows 9 0) by lia. cbn [bind].
      destruct C1 as [e C1]. rewrite C1. cbn [bind]. eauto. }
  destruct F as [e F]. rewrite F. eauto.
Qed.
