(** C161: where the rows and columns are counted from, and in which steps, does not matter. *)
From Coq Require Import ZArith List Lia Bool Reals Lra Arith.
From Verif Require Import Spec Base Num Geo GeoProofs Interp PlProofs BorderProofs InterpProofs LegacyTie Chunks ChunksProofs PropsChunks PropsAnyOrder GridLinear PropsGridLinear PropsBilinear Cubic CubicProofs PropsCubic SplineGrid PropsSplineGrid PropsTwoSteps
  Multilinear MultilinearProofs PropsMultilinear.
Import ListNotations.
Open Scope R_scope.

(** ** Specification: positions counted from another origin, in other units *)
Definition rescaled (a k z : R) : R := a + k * z.
(** one origin and unit for each dimension *)
Definition rescaled_point (us : list (R * R)) (p : list R) : list R := map (fun q => rescaled (fst (fst q)) (snd (fst q)) (snd q)) (combine us p).
Definition rescaled_points (us : list (R * R)) (s : list (list R)) : list (list R) := map (fun q => map (rescaled (fst (fst q)) (snd (fst q))) (snd q)) (combine us s).

(** ** Proof *)
Section Rescaled.
Variables a k : R.
Hypothesis K : 0 < k.
Let g := rescaled a k.
Lemma g_lt x y : g x < g y <-> x < y.
Proof. unfold g, rescaled. split; intros H; [apply Rmult_lt_reg_l with k; lra|apply Rplus_lt_compat_l, Rmult_lt_compat_l; auto]. Qed.
Lemma g_le x y : g x <= g y <-> x <= y.
Proof. unfold g, rescaled. split; intros H; [apply Rmult_le_reg_l with k; lra|apply Rplus_le_compat_l, Rmult_le_compat_l; lra]. Qed.
Lemma g_eq x y : g x = g y <-> x = y.
Proof. split; [|congruence]. intros H. apply Rle_antisym; apply g_le; lra. Qed.
Lemma g_nth ks i : (i < length ks)%nat -> nth i (map g ks) 0 = g (nth i ks 0).
Proof. intros H. now rewrite (nth_map' _ _ _ 0). Qed.
Lemma g_increasing ks : increasing ks -> increasing (map g ks).
Proof. intros I i j H. rewrite map_length in H. rewrite !g_nth by lia. apply g_lt, I. lia. Qed.
Lemma g_cell ks r z : in_cell ks r z -> in_cell (map g ks) r (g z).
Proof.
  intros (A & B & C). unfold in_cell. rewrite map_length, !g_nth by lia. split; [exact A|]. split; [destruct B; [now left|right]|destruct C; [now left|right]]; now apply g_le.
Qed.
Lemma g_inside ks z : (0 < length ks)%nat -> PropsGridLinear.inside (map g ks) (g z) <-> PropsGridLinear.inside ks z.
Proof. intros L. unfold PropsGridLinear.inside. rewrite map_length, !g_nth by lia. rewrite !g_le. tauto. Qed.
Lemma g_line p0 u p1 v z : p0 < p1 -> straight_line (g p0) u (g p1) v (g z) = straight_line p0 u p1 v z.
Proof. intros H. unfold straight_line, g, rescaled. field. split; [lra|]. replace (a + k * p1 - (a + k * p0)) with (k * (p1 - p0)) by ring. apply Rgt_not_eq, Rmult_lt_0_compat; lra. Qed.
Lemma g_nearest ks z : (0 < length ks)%nat -> nearest (map g ks) (g z) = g (nearest ks z).
Proof.
  intros L. unfold nearest. rewrite map_length, !g_nth by lia. set (p := nth 0 ks 0). set (q := nth (length ks - 1) ks 0).
  assert (M1 : Rmin (g z) (g q) = g (Rmin z q)).
  { destruct (Rle_dec z q) as [H|H]; [rewrite !Rmin_left by (lra || (apply g_le; lra))|rewrite !Rmin_right by (lra || (apply g_le; lra))]; reflexivity. }
  rewrite M1. destruct (Rle_dec p (Rmin z q)) as [H|H]; [rewrite !Rmax_right by (lra || (apply g_le; lra))|rewrite !Rmax_left by (lra || (apply g_le; lra))]; reflexivity.
Qed.
Lemma g_cube t x : cube_from (g t) (g x) = k ^ 3 * cube_from t x.
Proof.
  unfold cube_from, g, rescaled. replace (a + k * x - (a + k * t)) with (k * (x - t)) by ring.
  destruct (Rle_dec 0 (x - t)) as [H|H].
  - rewrite !Rmax_right; [ring|exact H|apply Rmult_le_pos; lra].
  - rewrite !Rmax_left; [ring|lra|]. rewrite <- (Rmult_0_r k). apply Rmult_le_compat_l; lra.
Qed.
Lemma g_spline ks s : spline3 (map g ks) s -> spline3 ks (fun x => s (g x)).
Proof.
  intros (c0 & c1 & c2 & c3 & w & H).
  exists (c0 + c1 * a + c2 * a ^ 2 + c3 * a ^ 3), (k * (c1 + 2 * c2 * a + 3 * c3 * a ^ 2)), (k ^ 2 * (c2 + 3 * c3 * a)), (k ^ 3 * c3), (fun j => w j * k ^ 3).
  intros x. rewrite H, map_length. f_equal; [unfold cubic_of, g, rescaled; ring|]. f_equal. apply map_ext_in. intros j Hj. apply in_seq in Hj.
  rewrite g_nth by lia. rewrite g_cube. ring.
Qed.
Lemma g_fit d ks vs s : increasing ks -> fit d (map g ks) vs s -> fit d ks vs (fun x => s (g x)).
Proof.
  intros I [T F]. split.
  - intros i Hi. rewrite <- g_nth by exact Hi. apply T. now rewrite map_length.
  - destruct F as [[E F]|[E F]]; [left; split; [exact E|now apply g_spline]|right; split; [exact E|]].
    intros r x C. rewrite (F r (g x)) by now apply g_cell. pose proof (proj1 C). rewrite !g_nth by lia. apply g_line, step_pos; auto.
Qed.
Lemma g_axis other d ks vs z : enough d ks -> degree d -> length vs = length ks ->
  @axis_spline R RT (@spl2_with R RT other) (map g ks) vs d (g z) = @axis_spline R RT (@spl2_with R RT other) ks vs d z.
Proof.
  intros [I L] D Lv. assert (E : enough d (map g ks)) by (split; [now apply g_increasing|now rewrite map_length]).
  destruct (fit_exists d (map g ks) vs E D ltac:(now rewrite map_length)) as (s & F).
  rewrite (axis_fit other d (map g ks) vs s (g z) E ltac:(now rewrite map_length) F), (axis_fit other d ks vs _ z (conj I L) Lv (g_fit d ks vs s I F)).
  rewrite g_nearest by (destruct D; subst d; lia). reflexivity.
Qed.
Lemma g_splev ks vs z : increasing ks -> (4 <= length ks)%nat -> @cubic_splev R RT (map g ks) vs (g z) = @cubic_splev R RT ks vs z.
Proof.
  intros I L. destruct (C99_spline (map g ks) vs (g_increasing ks I) ltac:(now rewrite map_length)) as (S1 & T1 & _).
  destruct (C99_spline ks vs I L) as (_ & _ & U). apply (U (fun x => @cubic_splev R RT (map g ks) vs (g x))); [now apply g_spline|].
  intros i Hi. rewrite <- g_nth by exact Hi. apply T1. now rewrite map_length.
Qed.
Lemma g_strict ks : @strict_inc R RT (map g ks) = @strict_inc R RT ks.
Proof.
  induction ks as [|x [|y l] IH]; [reflexivity..|]. cbn [map strict_inc] in *. rewrite IH. f_equal. cbn [nltb RT].
  destruct (Rltb x y) eqn:E; [apply Rltb_true in E; apply Rltb_true; now apply g_lt|]. destruct (Rltb (g x) (g y)) eqn:E'; [|reflexivity].
  apply Rltb_true in E'. apply (proj1 (g_lt x y)) in E'. apply Rltb_true in E'. congruence.
Qed.
Lemma g_weak ks : @weak_inc R RT (map g ks) = @weak_inc R RT ks.
Proof.
  induction ks as [|x [|y l] IH]; [reflexivity..|]. cbn [map weak_inc] in *. rewrite IH. f_equal. cbn [nleb RT].
  destruct (Rleb x y) eqn:E; [apply Rleb_true in E; apply Rleb_true; now apply g_le|]. destruct (Rleb (g x) (g y)) eqn:E'; [|reflexivity].
  apply Rleb_true in E'. apply (proj1 (g_le x y)) in E'. apply Rleb_true in E'. congruence.
Qed.
Lemma g_equal ks ls : @array_equal R RT (map g ks) (map g ls) = @array_equal R RT ks ls.
Proof.
  revert ls. induction ks as [|x ks IH]; intros [|y ls]; cbn [map array_equal]; auto. rewrite IH. f_equal. cbn [neqb RT]. unfold Reqb.
  destruct (Req_EM_T (g x) (g y)) as [E|E], (Req_EM_T x y) as [E'|E']; auto; exfalso; [apply E', (proj1 (g_eq x y)), E|apply E, (proj2 (g_eq x y)), E'].
Qed.
End Rescaled.

(** ** Grid interpolators, for all tie values, whole numbers and missing ones included, also outside the tie points *)
Lemma g_locate a k ys y : 0 < k -> @GridLinear.locate _ RN (map Some (map (rescaled a k) ys)) (Some (rescaled a k y)) = @GridLinear.locate _ RN (map Some ys) (Some y).
Proof.
  intros K. induction ys as [|p [|q [|r l]] IH]; [reflexivity..|]. cbn [map GridLinear.locate] in *. rewrite IH.
  replace (@nltb _ RN (Some (rescaled a k y)) (Some (rescaled a k q))) with (@nltb _ RN (Some y) (Some q)); [reflexivity|].
  apply eq_true_iff_eq. cbn [nltb RN liftb]. rewrite !Rltb_true. symmetry. now apply g_lt.
Qed.
Theorem C161_grid : forall i ys xs d y x a k b l, 0 < k -> 0 < l -> axes ys xs ->
  grid i (points_of (map (rescaled a k) ys) (map (rescaled b l) xs)) d tt (Some (rescaled a k y)) (Some (rescaled b l x)) =
  grid i (points_of ys xs) d tt (Some y) (Some x).
Proof.
  intros i ys xs d y x a k b l K L Ha. pose proof Ha as (Iy & Ix & Ly & Lx).
  assert (Ha' : axes (map (rescaled a k) ys) (map (rescaled b l) xs)).
  { split; [now apply g_increasing|]. split; [now apply g_increasing|]. now rewrite !map_length. }
  rewrite !grid_RN by assumption. cbv zeta. rewrite !g_locate by assumption.
  pose proof (located_in_cell ys y Iy Ly) as (Cr & _). pose proof (located_in_cell xs x Ix Lx) as (Cc & _).
  assert (In : forall o u ks z, 0 < u -> (2 <= length ks)%nat -> @within _ RN (map Some (map (rescaled o u) ks)) (Some (rescaled o u z)) = @within _ RN (map Some ks) (Some z)).
  { intros o u ks z U Lk. apply eq_true_iff_eq. rewrite !within_RN. apply g_inside; auto. lia. }
  assert (Q : forall o u p0 p1 z, 0 < u -> p0 < p1 -> (rescaled o u z - rescaled o u p0) / (rescaled o u p1 - rescaled o u p0) = (z - p0) / (p1 - p0)).
  { intros o u p0 p1 z U P. unfold rescaled. field. split; [lra|]. replace (o + u * p1 - (o + u * p0)) with (u * (p1 - p0)) by ring. apply Rgt_not_eq, Rmult_lt_0_compat; lra. }
  rewrite !In by assumption. rewrite !g_nth by lia. rewrite !Q by (auto; now apply step_pos). reflexivity.
Qed.
Print Assumptions C161_grid.

(** the whole of GeoGridInterpolator: longitudes and latitudes, or the exception *)
Theorem C161_geo_grid : forall i ys xs lons lats fy fx a k b l, 0 < k -> 0 < l -> axes ys xs ->
  geo_grid i (map (rescaled a k) ys) (map (rescaled b l) xs) lons lats (map (rescaled a k) fy) (map (rescaled b l) fx) = geo_grid i ys xs lons lats fy fx.
Proof.
  intros i ys xs lons lats fy fx a k b l K L Ha. pose proof Ha as (Iy & Ix & Ly & Lx).
  assert (V : forall d, @rgi_valid _ RN Grid i (points_of (map (rescaled a k) ys) (map (rescaled b l) xs)) d = @rgi_valid _ RN Grid i (points_of ys xs) d).
  { intros d. apply eq_true_iff_eq. rewrite !C90_accepted, !map_length. pose proof (g_increasing a k K ys Iy). pose proof (g_increasing b l L xs Ix). tauto. }
  assert (S : forall d, interpolate_numpy (N := RN) (@rgi _ RN) {| s_kind := Grid; s_init := i; s_points := points_of (map (rescaled a k) ys) (map (rescaled b l) xs); s_values := d |}
      (points_of (map (rescaled a k) fy) (map (rescaled b l) fx)) tt =
    interpolate_numpy (N := RN) (@rgi _ RN) {| s_kind := Grid; s_init := i; s_points := points_of ys xs; s_values := d |} (points_of fy fx) tt).
  { intros d. change (points_of (map (rescaled a k) fy) (map (rescaled b l) fx)) with (map Some (map (rescaled a k) fy), map Some (map (rescaled b l) fx)).
    change (points_of fy fx) with (map Some fy, map Some fx). unfold interpolate_numpy. cbn [s_kind s_init s_points s_values]. unfold eval_grid. rewrite !mapM_map. apply mapM_ext. intros y _. rewrite !mapM_map. apply mapM_ext. intros x _.
    now rewrite C161_grid. }
  unfold geo_grid, make_geo. destruct (to_xyz geo_conv _) as [[[x y] z]|e]; [|reflexivity]. cbn [bind]. unfold make_multiple, make_single. cbn [mapM]. rewrite !V.
  destruct (rgi_valid Grid i (points_of ys xs) x); [|reflexivity]. destruct (rgi_valid Grid i (points_of ys xs) y); [|reflexivity]. destruct (rgi_valid Grid i (points_of ys xs) z); [|reflexivity].
  cbn [bind]. unfold geo_interpolate, interpolate_multiple. cbn [mapM]. now rewrite !S.
Qed.
Print Assumptions C161_geo_grid.

(** ** Splines of degrees 1 and 3, for all tie values *)
Lemma g_valid i ys xs d a k b l : 0 < k -> 0 < l ->
  @spline_valid R RT i (map (rescaled a k) ys, map (rescaled b l) xs) d = @spline_valid R RT i (ys, xs) d.
Proof. intros K L. unfold spline_valid. cbn [fst snd]. now rewrite !g_strict, !map_length. Qed.
Lemma valid_facts i ys xs d : @spline_valid R RT i (ys, xs) d = true -> enough (deg_y i) ys /\ enough (deg_x i) xs /\ shaped (length ys) (length xs) (v_data d).
Proof. intros H. destruct (proj1 (C103_accepted i ys xs (v_data d)) H) as (A & B & C & _). auto. Qed.
Theorem C161_spline : forall other i ys xs d y x a k b l, 0 < k -> 0 < l -> degree (deg_y i) -> degree (deg_x i) -> @rbs_valid R RT Spline i (ys, xs) d = true ->
  @rbs R RT other Spline i (map (rescaled a k) ys, map (rescaled b l) xs) d tt (rescaled a k y) (rescaled b l x) =
  @rbs R RT other Spline i (ys, xs) d tt y x.
Proof.
  intros other i ys xs d y x a k b l K L Dy Dx V. destruct (valid_facts i ys xs d V) as (Ey & Ex & Lw & Fw). rewrite Forall_forall in Fw. unfold rbs, spline_point. cbn [fst snd]. do 2 f_equal.
  rewrite g_axis by (auto; now rewrite map_length). f_equal. apply map_ext_in. intros r Hr. apply g_axis; auto.
Qed.
Print Assumptions C161_spline.

(** the whole of GeoSplineInterpolator *)
Lemma g_sorted a k l : 0 < k -> @sorted_le R RT (map (rescaled a k) l) = @sorted_le R RT l.
Proof. intros K. pose proof (g_weak a k K l) as H. induction l as [|x [|y l] IH]; [reflexivity..|]. exact H. Qed.
Theorem C161_geo_spline : forall other i ys xs lons lats fy fx a k b l, 0 < k -> 0 < l -> degree (deg_y i) -> degree (deg_x i) ->
  geo_spline other i (map (rescaled a k) ys) (map (rescaled b l) xs) lons lats (map (rescaled a k) fy) (map (rescaled b l) fx) = geo_spline other i ys xs lons lats fy fx.
Proof.
  intros other i ys xs lons lats fy fx a k b l K L Dy Dx.
  assert (S : forall d, @rbs_valid R RT Spline i (ys, xs) d = true ->
    interpolate_numpy (N := RT) (rbs_nan other) {| s_kind := Spline; s_init := i; s_points := (map (rescaled a k) ys, map (rescaled b l) xs); s_values := d |} (map (rescaled a k) fy, map (rescaled b l) fx) tt =
    interpolate_numpy (N := RT) (rbs_nan other) {| s_kind := Spline; s_init := i; s_points := (ys, xs); s_values := d |} (fy, fx) tt).
  { intros d V. unfold interpolate_numpy. cbn [s_kind s_init s_points s_values]. rewrite !map_length, !g_sorted by assumption. destruct (_ && _ && negb _); [reflexivity|].
    unfold eval_grid. rewrite !mapM_map. apply mapM_ext. intros y _. rewrite !mapM_map. apply mapM_ext. intros x _. unfold rbs_nan. now rewrite C161_spline. }
  unfold geo_spline, make_geo. destruct (to_xyz conv_arrays _) as [[[x y] z]|e]; [|reflexivity]. cbn [bind]. unfold make_multiple, make_single. cbn [mapM].
  unfold rbs_valid at 1 2 3. rewrite !g_valid by assumption.
  pose proof (S x) as Sx. pose proof (S y) as Sy. pose proof (S z) as Sz. unfold rbs_valid in *.
  destruct (spline_valid i (ys, xs) x); [|reflexivity]. destruct (spline_valid i (ys, xs) y); [|reflexivity]. destruct (spline_valid i (ys, xs) z); [|reflexivity].
  cbn [bind]. unfold geo_interpolate, interpolate_multiple. cbn [mapM]. now rewrite Sx, Sy, Sz.
Qed.
Print Assumptions C161_geo_spline.

(** ** Interpolator of orders 1 and 3: results and exceptions *)
Theorem C161_interpolator : forall other data rows cols hrows hcols kx ky chunk a k b l, 0 < k -> 0 < l -> degree kx -> degree ky ->
  (hrows = rows -> ky = 3%Z /\ increasing cols) ->
  let run r c hr hc := fst (@interpolate R RT (@spl1_with R RT other) (@spl2_with R RT other) (@make R data (r, c) (hr, hc) kx ky chunk)) in
  run (map (rescaled a k) rows) (map (rescaled b l) cols) (map (rescaled a k) hrows) (map (rescaled b l) hcols) = run rows cols hrows hcols.
Proof.
  intros other data rows cols hrows hcols kx ky chunk a k b l K L Dx Dy One run. unfold run.
  assert (W : forall r c hr hc, well_formed (@make R data (r, c) (hr, hc) kx ky chunk)) by (intros; unfold well_formed, make; cbn; now rewrite map_length).
  rewrite !(proj1 (interpolate_spec _ _ _ (W _ _ _ _))). cbn [tie_data make]. apply mapM_ext. intros d _. unfold interp_one. cbn [hrow_indices row_indices make fst snd].
  rewrite g_equal by exact K. destruct (array_equal hrows rows) eqn:AE.
  - apply array_equal_eq in AE. destruct (One AE) as [-> I]. unfold interp1d_one. cbn [hrow_indices row_indices col_indices hcol_indices ky_ make fst snd].
    rewrite !map_length. apply mapM_ext. intros n _. destruct (nth_res d n) as [r|]; [|reflexivity]. cbn [bind]. rewrite g_weak by exact L.
    destruct (negb (Nat.eqb (length cols) (length r))); [reflexivity|]. destruct (negb _) eqn:N; [reflexivity|]. destruct (negb (weak_inc cols)); [reflexivity|]. f_equal.
    apply negb_false_iff in N. apply andb_true_iff in N as [_ N]. apply Z.ltb_lt in N. rewrite map_map. apply map_ext. intros z. unfold spl1_with. cbn [Z.eqb Pos.eqb]. apply g_splev; auto. lia.
  - unfold interp2d_one, rect_bivariate. cbn [hrow_indices row_indices col_indices hcol_indices kx_ ky_ make fst snd].
    rewrite !g_strict, !g_weak, !map_length by assumption.
    destruct (strict_inc rows) eqn:S1; [|reflexivity]. destruct (strict_inc cols) eqn:S2; [|reflexivity]. cbn [negb].
    destruct (Nat.eqb_spec (length rows) (length d)) as [L1|]; [|reflexivity]. cbn [negb].
    destruct (forallb (fun r => Nat.eqb (length cols) (length r)) d) eqn:L2; [|reflexivity]. cbn [negb]. rewrite forallb_forall in L2.
    destruct (negb ((1 <=? kx) && _ && _ && _)%Z); [reflexivity|].
    destruct ((kx <? Z.of_nat (length rows)) && (ky <? Z.of_nat (length cols)))%Z eqn:Q; [|reflexivity]. cbn [negb]. apply andb_true_iff in Q as [Q1 Q2]. apply Z.ltb_lt in Q1, Q2.
    apply strict_inc_increasing in S1, S2. destruct (negb _); [reflexivity|]. f_equal. rewrite map_map. apply map_ext. intros x. rewrite map_map. apply map_ext. intros y.
    rewrite g_axis by (auto; try (now split); now rewrite map_length). f_equal. apply map_ext_in. intros r Hr. apply g_axis; auto; try (now split). symmetry. apply Nat.eqb_eq, L2, Hr.
Qed.
Print Assumptions C161_interpolator.

(** ** Multilinear interpolation, in up to four dimensions *)
Lemma same_dims us : Forall (fun u => 0 < snd u) us -> forall smin smax orders s n i, Forall2 Rlt smin smax -> length smin = length us -> length s = length us ->
  Forall (fun r => length r = n) s -> (i < n)%nat ->
  @dims_of R RT (rescaled_point us smin) (rescaled_point us smax) orders (@column R RT (rescaled_points us s) i) = @dims_of R RT smin smax orders (@column R RT s i).
Proof.
  intros Hu. induction Hu as [|[a k] us K Hu IH]; intros smin smax orders s n i F Ls Lp Fp Hi.
  - destruct smin; [|discriminate]. reflexivity.
  - destruct F as [|lo hi smin smax Lt F]; [discriminate|]. destruct s as [|r s]; [discriminate|]. inversion Fp as [|? ? Lr Fp']; subst. cbn [snd] in K.
    unfold rescaled_point, rescaled_points, column in *. cbn [combine map fst snd dims_of]. destruct orders as [|o orders]; [reflexivity|].
    rewrite (IH smin smax orders s (length r) i F ltac:(now injection Ls) ltac:(now injection Lp) Fp' Hi).
    cbn [nsub ndiv nmul nz RT]. rewrite (nth_map' _ _ _ 0) by exact Hi.
    replace ((rescaled a k (nth i r 0) - rescaled a k lo) / (rescaled a k hi - rescaled a k lo)) with ((nth i r 0 - lo) / (hi - lo)); [reflexivity|].
    unfold rescaled. field. split; [|lra]. replace (a + k * hi - (a + k * lo)) with (k * (hi - lo)) by ring. apply Rgt_not_eq, Rmult_lt_0_compat; lra.
Qed.
Theorem C161_multilinear : forall scheds empty us smin smax ns values s n, (1 <= length ns <= 4)%nat -> grid_ok smin smax ns -> points_ok (length ns) n s -> few n ->
  run_ok n scheds empty values -> length us = length ns -> Forall (fun u => 0 < snd u) us ->
  @multilinear_interpolation R RT scheds empty (rescaled_point us smin) (rescaled_point us smax) (map Z.of_nat ns) values (rescaled_points us s) =
  @multilinear_interpolation R RT scheds empty smin smax (map Z.of_nat ns) values s.
Proof.
  intros scheds empty us smin smax ns values s n Hd (G1 & G2 & G3 & G4 & G5) [P1 P2] Hn Hr Lu Hu.
  assert (Lc : forall l : list R, length l = length ns -> length (rescaled_point us l) = length ns) by (intros l Hl; unfold rescaled_point; rewrite map_length, combine_length; lia).
  rewrite !(run_generic (length ns) n); rewrite ?map_length; auto using F_I; [|now split|].
  - apply mapM_ext. intros vals _. apply mapM_ext. intros i Hi. apply in_seq in Hi. rewrite (same_dims us Hu _ _ _ _ n); auto; try lia.
  - split; [unfold rescaled_points; rewrite map_length, combine_length; lia|]. apply Forall_forall. intros r Hin. unfold rescaled_points in Hin. apply in_map_iff in Hin as ([u q] & <- & Hq).
    rewrite map_length. rewrite Forall_forall in P2. apply P2. now apply in_combine_r in Hq.
Qed.
Print Assumptions C161_multilinear.

(** counted from 1 in steps of 5 km instead of from 0 in steps of 1 km *)
Example C161_case : axes [0; 1; 3] [0; 2] /\ map (rescaled 1 5) [0; 1; 3] = [1; 6; 16] /\ shaped 3 2 [[1; 5]; [2; 5]; [4; 9]].
Proof.
  split; [|split].
  - repeat split; try (cbn; lia); repeat (apply increasing_cons; [lra|]); intros i j H; cbn in H; lia.
  - unfold rescaled. cbn [map]. repeat (f_equal; try lra).
  - split; [reflexivity|repeat constructor].
Qed.
Example C161_multilinear_case : grid_ok [0; 10] [1; 12] [2; 3]%nat /\ rescaled_point [(1, 5); (- 20, 2)] [0; 10] = [1; 0] /\
  rescaled_points [(1, 5); (- 20, 2)] [[1; 1 / 2]; [11; 12]] = [[6; 7 / 2]; [2; 4]].
Proof.
  split; [|split].
  - unfold grid_ok. cbn. repeat split; auto; try (unfold int_max; lia); repeat constructor; unfold int_max; try lia; lra.
  - unfold rescaled_point, rescaled. cbn [combine map fst snd]. repeat (f_equal; try lra).
  - unfold rescaled_points, rescaled. cbn [combine map fst snd]. repeat (f_equal; try lra).
Qed.
