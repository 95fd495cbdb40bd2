(** C156: errors of the tie values are not amplified. *)
From Coq Require Import ZArith QArith List Lia Bool Reals Lra Arith.
From Verif Require Import Spec Base Num Geo GeoProofs Interp PlProofs BorderProofs InterpProofs LegacyTie Chunks ChunksProofs PropsChunks PropsAnyOrder GridLinear PropsGridLinear PropsBilinear Cubic CubicProofs PropsCubic SplineGrid PropsSplineGrid
  Multilinear MultilinearProofs PropsMultilinear Basic PropsBasic Vii ViiProofs PropsVii PropsScales PropsLinear.
Import ListNotations.
Open Scope R_scope.

(** ** Specification: two sets of values differ by at most e, element by element *)
Definition close (n m : nat) (e : R) (u v : list (list R)) : Prop :=
  forall r c, (r < n)%nat -> (c < m)%nat -> Rabs (at2 0 u r c - at2 0 v r c) <= e.

Lemma weights_close t a b a' b' e : 0 <= t <= 1 -> Rabs (a - a') <= e -> Rabs (b - b') <= e ->
  Rabs (((1 - t) * a + t * b) - ((1 - t) * a' + t * b')) <= e.
Proof.
  intros Ht Ha Hb. apply Rabs_le_inv in Ha, Hb. apply Rabs_le.
  assert (T1 := Rmult_le_compat_l t _ _ (proj1 Ht) (proj1 Hb)). assert (T2 := Rmult_le_compat_l t _ _ (proj1 Ht) (proj2 Hb)).
  assert (T3 := Rmult_le_compat_l (1 - t) _ _ ltac:(lra) (proj1 Ha)). assert (T4 := Rmult_le_compat_l (1 - t) _ _ ltac:(lra) (proj2 Ha)). lra.
Qed.
Lemma line_close p0 p1 x a b a' b' e : p0 < p1 -> p0 <= x <= p1 -> Rabs (a - a') <= e -> Rabs (b - b') <= e ->
  Rabs (straight_line p0 a p1 b x - straight_line p0 a' p1 b' x) <= e.
Proof.
  intros Hp Hx Ha Hb. destruct (line_weights p0 p1 x Hp Hx) as (t & Ht & Et). rewrite !Et. now apply weights_close.
Qed.
Lemma bilinear_close ys xs u v r c y x e : increasing ys -> increasing xs -> (S r < length ys)%nat -> (S c < length xs)%nat ->
  nth r ys 0 <= y <= nth (S r) ys 0 -> nth c xs 0 <= x <= nth (S c) xs 0 ->
  (forall a b, a = r \/ a = S r -> b = c \/ b = S c -> Rabs (u a b - v a b) <= e) ->
  Rabs (bilinear ys xs u r c y x - bilinear ys xs v r c y x) <= e.
Proof.
  intros Iy Ix Hr Hc Hy Hx H. unfold bilinear. cbv zeta.
  apply line_close; [apply Iy; lia|exact Hy| |]; (apply line_close; [apply Ix; lia|exact Hx| |]); apply H; auto.
Qed.
Lemma cell_bounds ys r y : in_cell ys r y -> PropsGridLinear.inside ys y -> nth r ys 0 <= y <= nth (S r) ys 0.
Proof.
  intros (H & A & B) [I1 I2]. split.
  - destruct A as [->|A]; assumption.
  - destruct B as [B|B]; [|exact B]. replace (S r) with (length ys - 1)%nat by lia. exact I2.
Qed.

(** ** Grid interpolators, inside the grid: only the corners of the cell count *)
Theorem C156_grid_partial : forall i ys xs u v r c y x e,
  axes ys xs -> shaped (length ys) (length xs) u -> shaped (length ys) (length xs) v -> (S r < length ys)%nat -> (S c < length xs)%nat ->
  nth r ys 0 <= y <= nth (S r) ys 0 -> nth c xs 0 <= x <= nth (S c) xs 0 ->
  (forall a b, a = r \/ a = S r -> b = c \/ b = S c -> Rabs (at2 0 u a b - at2 0 v a b) <= e) ->
  exists p q, grid i (points_of ys xs) (finite u) tt (Some y) (Some x) = Some (Some p) /\
    grid i (points_of ys xs) (finite v) tt (Some y) (Some x) = Some (Some q) /\ Rabs (p - q) <= e.
Proof.
  intros i ys xs u v r c y x e Ha Su Sv Hr Hc Hy Hx H. pose proof Ha as (Iy & Ix & _ & _).
  assert (Cy : in_cell ys r y) by (split; [exact Hr|]; split; right; lra).
  assert (Cx : in_cell xs c x) by (split; [exact Hc|]; split; right; lra).
  assert (In : PropsGridLinear.inside ys y /\ PropsGridLinear.inside xs x).
  { split.
    - pose proof (node_inside ys r Iy ltac:(lia)). pose proof (node_inside ys (S r) Iy Hr). unfold PropsGridLinear.inside in *. lra.
    - pose proof (node_inside xs c Ix ltac:(lia)). pose proof (node_inside xs (S c) Ix Hc). unfold PropsGridLinear.inside in *. lra. }
  rewrite (C90_bilinear i ys xs u r c y x Ha Su Cy Cx (or_intror In)), (C90_bilinear i ys xs v r c y x Ha Sv Cy Cx (or_intror In)).
  eexists _, _. split; [reflexivity|]. split; [reflexivity|]. now apply bilinear_close.
Qed.
Print Assumptions C156_grid_partial.

(** beyond the grid, with fill_value=None, errors grow: tie values within 1, a result off by 3 one cell further out *)
Theorem C156_extrapolated_refuted : exists i ys xs u v y x p q, axes ys xs /\ shaped (length ys) (length xs) u /\ shaped (length ys) (length xs) v /\ extrapolates i /\
  close (length ys) (length xs) 1 u v /\ grid i (points_of ys xs) (finite u) tt (Some y) (Some x) = Some (Some p) /\
  grid i (points_of ys xs) (finite v) tt (Some y) (Some x) = Some (Some q) /\ Rabs (p - q) = 3.
Proof.
  set (i := {| bounds_error := false; fill_value := None |} : grid_init (option R)).
  exists i, [0; 1], [0; 1], [[-1; -1]; [1; 1]], [[0; 0]; [0; 0]], 2, 0.
  assert (I : increasing [0; 1]) by (intros a b H; cbn [length] in H; destruct a as [|[|a]]; destruct b as [|[|b]]; cbn; try lia; lra).
  assert (Ha : axes [0; 1] [0; 1]) by (split; [exact I|]; split; [exact I|]; cbn; lia).
  assert (Su : shaped 2 2 [[-1; -1]; [1; 1]]) by (split; [reflexivity|repeat constructor]).
  assert (Sv : shaped 2 2 [[0; 0]; [0; 0]]) by (split; [reflexivity|repeat constructor]).
  assert (C : forall z, in_cell [0; 1] 0 z) by (intros z; split; [cbn; lia|]; split; left; reflexivity).
  eexists _, _. do 3 (split; [assumption|]). split; [split; reflexivity|]. split.
  { intros r c Hr Hc. cbn [length] in Hr, Hc. destruct r as [|[|r]]; try lia; destruct c as [|[|c]]; try lia; unfold at2; cbn [nth]; apply Rabs_le; lra. }
  split; [apply (C90_bilinear i [0; 1] [0; 1] _ 0 0 2 0 Ha Su (C _) (C _)); left; split; reflexivity|].
  split; [apply (C90_bilinear i [0; 1] [0; 1] _ 0 0 2 0 Ha Sv (C _) (C _)); left; split; reflexivity|].
  unfold bilinear, straight_line, at2. cbn [nth]. match goal with |- Rabs ?z = _ => replace z with 3 by field end. apply Rabs_right. lra.
Qed.
Print Assumptions C156_extrapolated_refuted.

(** ** Spline interpolators *)
Definition spline_stable (i : spline_init) (k : R) : Prop := forall other ys xs u v e y x p q,
  enough (deg_y i) ys -> enough (deg_x i) xs -> shaped (length ys) (length xs) u -> shaped (length ys) (length xs) v ->
  close (length ys) (length xs) e u v ->
  @rbs R RT other Spline i (ys, xs) (double_data u) tt y x = Some p -> @rbs R RT other Spline i (ys, xs) (double_data v) tt y x = Some q -> Rabs (p - q) <= k * e.

Definition minus (n m : nat) (u v : list (list R)) : list (list R) := map (fun r => map (fun c => at2 0 u r c - at2 0 v r c) (seq 0 m)) (seq 0 n).
Lemma minus_shaped n m u v : shaped n m (minus n m u v).
Proof. unfold minus. split; [now rewrite map_length, seq_length|]. apply Forall_forall. intros l Hl. apply in_map_iff in Hl. destruct Hl as (r & <- & _). now rewrite map_length, seq_length. Qed.
Lemma minus_at n m u v r c : (r < n)%nat -> (c < m)%nat -> at2 0 (minus n m u v) r c = at2 0 u r c - at2 0 v r c.
Proof.
  intros Hr Hc. unfold minus, at2 at 1. rewrite (nth_map' _ _ _ 0%nat) by (now rewrite seq_length). rewrite (nth_map' _ _ _ 0%nat) by (now rewrite seq_length).
  now rewrite !seq_nth by assumption.
Qed.
Lemma minus_between n m e u v : close n m e u v -> between (- e) e (minus n m u v).
Proof.
  intros C. unfold between, all2, minus. apply Forall_forall. intros l Hl. apply in_map_iff in Hl. destruct Hl as (r & <- & Hr). apply in_seq in Hr.
  apply Forall_forall. intros z Hz. apply in_map_iff in Hz. destruct Hz as (c & <- & Hc). apply in_seq in Hc. apply Rabs_le_inv, C; lia.
Qed.
Lemma minus_combined n m u v : combined n m 1 (-1) u v (minus n m u v).
Proof. intros r c Hr Hc. rewrite minus_at by assumption. ring. Qed.

(** with straight lines along both axes *)
Theorem C156_spline_partial : spline_stable {| deg_y := 1; deg_x := 1 |} 1.
Proof.
  intros other ys xs u v e y x p q Ey Ex Su Sv C Ep Eq. cbn [deg_y deg_x] in Ey, Ex.
  set (w := minus (length ys) (length xs) u v).
  destruct (C153_spline other {| deg_y := 1; deg_x := 1 |} ys xs 1 (-1) u v w y x Ey Ex (or_introl eq_refl) (or_introl eq_refl) Su Sv (minus_shaped _ _ _ _) (minus_combined _ _ _ _))
    as (p' & q' & A & B & D). rewrite Ep in A. rewrite Eq in B. injection A as <-. injection B as <-.
  assert (V : @spline_valid R RT {| deg_y := 1; deg_x := 1 |} (ys, xs) (double_data w) = true).
  { apply C103_accepted. cbn [deg_y deg_x]. split; [exact Ey|]. split; [exact Ex|]. split; [apply minus_shaped|lia]. }
  pose proof (C105_linear_partial other ys xs w (- e) e y x _ V (minus_between _ _ _ _ _ C) D). apply Rabs_le. lra.
Qed.
Print Assumptions C156_spline_partial.
(** not with the default degrees *)
Theorem C156_refuted : ~ spline_stable default_degrees 1.
Proof.
  intros S. apply C105_range_refuted. intros other ys xs w lo hi y x v V B E. apply C103_accepted in V. destruct V as (Ey & Ex & Sw & _ & _).
  set (m := (lo + hi) / 2). set (k := map (fun _ : R => map (fun _ : R => m) xs) ys).
  assert (Sk : shaped (length ys) (length xs) k).
  { unfold k. split; [now rewrite map_length|]. apply Forall_forall. intros l Hl. apply in_map_iff in Hl. destruct Hl as (r & <- & _). now rewrite map_length. }
  assert (Ak : forall r c, (r < length ys)%nat -> (c < length xs)%nat -> at2 0 k r c = m).
  { intros r c Hr Hc. unfold k, at2. rewrite (nth_map' _ _ _ 0) by exact Hr. now rewrite (nth_map' _ _ _ 0) by exact Hc. }
  assert (Ck : close (length ys) (length xs) ((hi - lo) / 2) w k).
  { intros r c Hr Hc. rewrite Ak by assumption. pose proof (all2_at _ 0 _ _ w r c B Sw Hr Hc) as Q. cbv beta in Q. unfold m. apply Rabs_le. lra. }
  assert (Ek : @rbs R RT other Spline default_degrees (ys, xs) (double_data k) tt y x = Some m).
  { rewrite (C103_polynomials other default_degrees ys xs k (fun _ _ => m) y x Ey Ex Sk); [reflexivity| |].
    - intros r c Hr Hc. now apply Ak.
    - split; intros z; right; (split; [reflexivity|]); exists m, 0, 0, 0; intros z'; unfold cubic_of; ring. }
  pose proof (S other ys xs w k ((hi - lo) / 2) y x v m Ey Ex Sw Sk Ck E Ek) as Q. apply Rabs_le_inv in Q. unfold m in Q. lra.
Qed.
Print Assumptions C156_refuted.
(** but then, on evenly spaced tie points, by no more than a factor *)
Theorem C156_cubic_partial : forall other hy hx ys xs u v r c y x e, 0 <= e ->
  evenly hy ys -> evenly hx xs -> (4 <= length ys)%nat -> (4 <= length xs)%nat -> shaped (length ys) (length xs) u -> shaped (length ys) (length xs) v ->
  close (length ys) (length xs) e u v ->
  (S r < length ys)%nat -> nth r ys 0 <= y <= nth (S r) ys 0 -> (S c < length xs)%nat -> nth c xs 0 <= x <= nth (S c) xs 0 ->
  exists p q, @rbs R RT other Spline default_degrees (ys, xs) (double_data u) tt y x = Some p /\ @rbs R RT other Spline default_degrees (ys, xs) (double_data v) tt y x = Some q /\
    Rabs (p - q) <= 31 * e.
Proof.
  intros other hy hx ys xs u v r c y x e He Ey Ex Ly Lx Su Sv C Hr Hy Hc Hx.
  set (w := minus (length ys) (length xs) u v).
  assert (Iy : enough 3 ys) by (split; [exact (evenly_increasing _ _ Ey)|lia]). assert (Ix : enough 3 xs) by (split; [exact (evenly_increasing _ _ Ex)|lia]).
  destruct (C153_spline other default_degrees ys xs 1 (-1) u v w y x Iy Ix (or_intror eq_refl) (or_intror eq_refl) Su Sv (minus_shaped _ _ _ _) (minus_combined _ _ _ _))
    as (p & q & A & B & D).
  destruct (C105_excess_partial other hy hx ys xs w (- e) e r c y x Ey Ex Ly Lx (minus_shaped _ _ _ _) (minus_between _ _ _ _ _ C) Hr Hy Hc Hx) as (z & Ez & [Q1 Q2] & Q3).
  rewrite D in Ez. injection Ez as <-. exists p, q. split; [exact A|]. split; [exact B|]. cbv zeta in *.
  match type of Q3 with ?f < 15 => set (f0 := f) in * end.
  assert (M := Rmult_le_compat_r (e - - e) f0 15 ltac:(lra) ltac:(lra)). apply Rabs_le. lra.
Qed.
Print Assumptions C156_cubic_partial.

(** ** Interpolator of order 1, also beyond the tie points: two arrays of one object *)
Theorem C156_interpolator_partial : forall spl1 spl2 (st : istate R) out p q e, well_formed st -> kx_ st = 1%Z -> ky_ st = 1%Z -> hrow_indices st <> row_indices st ->
  increasing (row_indices st) -> increasing (col_indices st) -> (2 <= length (row_indices st))%nat -> (2 <= length (col_indices st))%nat ->
  (p < length (tie_data st))%nat -> (q < length (tie_data st))%nat ->
  close (length (row_indices st)) (length (col_indices st)) e (nth p (tie_data st) []) (nth q (tie_data st) []) ->
  fst (@interpolate R RT spl1 spl2 st) = Ok out ->
  close (length (hrow_indices st)) (length (hcol_indices st)) e (nth p out []) (nth q out []).
Proof.
  intros spl1 spl2 st out p q e W Kx Ky Hne Ir Ic Lr Lc Hp Hq C E a b Ha Hb.
  destruct (C96_bilinear spl1 spl2 st out W Kx Ky Hne E) as (_ & H).
  set (y := nearest (row_indices st) (nth a (hrow_indices st) 0)). set (x := nearest (col_indices st) (nth b (hcol_indices st) 0)).
  destruct (C90_cells (row_indices st) y Ir Lr) as (r & Hr). destruct (C90_cells (col_indices st) x Ic Lc) as (c & Hc).
  rewrite (proj2 (H p Hp) a b r c Ha Hb Hr Hc), (proj2 (H q Hq) a b r c Ha Hb Hr Hc).
  pose proof (proj1 Hr). pose proof (proj1 Hc).
  apply bilinear_close; auto.
  - apply cell_bounds; [exact Hr|]. apply nearest_inside; [exact Ir|lia].
  - apply cell_bounds; [exact Hc|]. apply nearest_inside; [exact Ic|lia].
  - intros i j Hi Hj. apply C; destruct Hi, Hj; subst; lia.
Qed.
Print Assumptions C156_interpolator_partial.

(** ** Multilinear interpolation inside the grid: two rows of values of one call *)
Section Multi.
#[local] Existing Instance RT.
Theorem C156_multilinear_partial : forall scheds empty smin smax ns values s n out p q e,
  (1 <= length ns <= 4)%nat -> grid_ok smin smax ns -> points_ok (length ns) n s -> few n -> run_ok n scheds empty values ->
  Forall (fun l => length l = prodn ns) values -> (p < length values)%nat -> (q < length values)%nat ->
  (forall k, (k < prodn ns)%nat -> Rabs (at2 0 values p k - at2 0 values q k) <= e) ->
  multilinear_interpolation scheds empty smin smax (map Z.of_nat ns) values s = Ok out ->
  forall i, (i < n)%nat -> inside smin smax (column s i) -> Rabs (at2 0 out p i - at2 0 out q i) <= e.
Proof.
  intros scheds empty smin smax ns values s n out p q e Hd (G1 & G2 & G3 & G4 & G5) Hs Hn Hr Hv Hp Hq C.
  rewrite (run_generic (length ns) n) by (rewrite ?map_length; auto using F_I). intros E i Hi Hin. apply mapM_F2 in E. rewrite Forall_forall in Hv.
  assert (V : forall k, (k < length values)%nat -> ml (dims_of smin smax (map Z.of_nat ns) (column s i)) (nth k values []) 0 = Ok (at2 0 out k i)).
  { intros k Hk. pose proof (F2_nth _ _ _ k [] [] E Hk) as Ek. cbv beta in Ek. apply mapM_F2 in Ek. pose proof (F2_nth _ _ _ i 0%nat 0 Ek) as Ei.
    rewrite seq_length in Ei. specialize (Ei Hi). cbv beta in Ei. now rewrite seq_nth in Ei by exact Hi. }
  pose proof (Hv _ (nth_In values [] Hp)) as Lp. pose proof (Hv _ (nth_In values [] Hq)) as Lq. cbv beta in Lp, Lq.
  set (w := map (fun k => at2 0 values p k - at2 0 values q k) (seq 0 (prodn ns))).
  assert (Lw : length w = prodn ns) by (unfold w; now rewrite map_length, seq_length).
  pose proof (ml_lin (dims_of smin smax (map Z.of_nat ns) (column s i)) (nth p values []) (nth q values []) w 1 (-1)) as F.
  rewrite Lw in F. specialize (F Lp Lq).
  assert (Fe : ml (dims_of smin smax (map Z.of_nat ns) (column s i)) w 0 = Ok (1 * at2 0 out p i + -1 * at2 0 out q i)).
  { apply F; [|exact (V p Hp)|exact (V q Hq)]. intros k Hk. unfold w. rewrite (nth_map' _ _ _ 0%nat) by (now rewrite seq_length). rewrite seq_nth by exact Hk. unfold at2. cbn [Nat.add]. ring. }
  assert (B : Forall (fun z => - e <= z <= e) w).
  { apply Forall_forall. intros z Hz. apply in_map_iff in Hz. destruct Hz as (k & <- & Hk). apply in_seq in Hk. apply Rabs_le_inv, C. lia. }
  pose proof (ml_bounds smin smax ns (column s i) w 0 (- e) e _ G1 G2 G3 G4 Hin B Fe). apply Rabs_le. lra.
Qed.
Print Assumptions C156_multilinear_partial.
End Multi.

(** ** tie_points_interpolation *)
Theorem C156_vii_partial : forall nan s f n (da db oa ob : darray (option R)) va vb la lb e,
  produced nan la s f n da oa -> produced nan lb s f n db ob -> ncols da = ncols db -> finite_da da va -> finite_da db vb ->
  (forall i k, (i < n * s)%nat -> (k < ncols db)%nat -> Rabs (va i k - vb i k) <= e) ->
  forall y x, (y < nrows ob)%nat -> (x < ncols ob)%nat ->
    exists p q, at_ oa y x = Some p /\ at_ ob y x = Some q /\ Rabs (p - q) <= e.
Proof.
  intros nan s f n da db oa ob va vb la lb e Pa Pb Ca Fa Fb H y x Hy Hx.
  destruct (produced_pixels _ _ _ _ _ _ _ Pb) as ((_ & M1 & M2 & _) & _ & _ & Hf & Hs). rewrite M1 in Hy. rewrite M2 in Hx.
  destruct (split_index y (s - 1) f n ltac:(lia) Hy) as (j & r & c & -> & Hj & Hr & Hc).
  destruct (split_index x 1 f (ncols db - 1) ltac:(lia) ltac:(nia)) as (k & r' & d & -> & Hk & Hr' & Hd). assert (r' = 0)%nat as -> by lia.
  replace (k * 1 * f + 0 * f + d)%nat with (k * f + d)%nat by lia.
  rewrite (C37_bilinear nan _ _ _ _ _ _ va j r c k d Pa Fa Hj Hr Hc ltac:(lia) Hd), (C37_bilinear nan _ _ _ _ _ _ vb j r c k d Pb Fb Hj Hr Hc ltac:(lia) Hd). cbv zeta.
  eexists _, _. split; [reflexivity|]. split; [reflexivity|]. assert (B : (j * s + r + 1 < n * s)%nat) by nia.
  assert (T : forall a, (a < f)%nat -> 0 <= INR a / INR f <= 1).
  { intros a Ha. assert (0 < INR f) by (apply lt_0_INR; lia). assert (INR a <= INR f) by (apply le_INR; lia). pose proof (pos_INR a).
    split; [apply Rmult_le_pos; [assumption|left; now apply Rinv_0_lt_compat]|]. apply Rmult_le_reg_r with (INR f); [assumption|]. unfold Rdiv. rewrite Rmult_assoc, Rinv_l by lra. lra. }
  pose proof (T c Hc) as Tc. pose proof (T d Hd) as Td. set (t := INR c / INR f) in *. set (g := INR d / INR f) in *.
  pose proof (weights_close t _ _ _ _ e Tc (weights_close g _ _ _ _ e Td (H (j * s + r)%nat k ltac:(lia) ltac:(lia)) (H (j * s + r)%nat (k + 1)%nat ltac:(lia) ltac:(lia)))
    (weights_close g _ _ _ _ e Td (H (j * s + r + 1)%nat k ltac:(lia) ltac:(lia)) (H (j * s + r + 1)%nat (k + 1)%nat ltac:(lia) ltac:(lia)))) as Q.
  eapply Rle_trans; [|exact Q]. right. f_equal. ring.
Qed.
Print Assumptions C156_vii_partial.

(** ** BasicSatelliteInterpolator *)
Lemma lerp_close a b i x y x' y' e : (a < b)%Z -> (a <= i <= b)%Z -> Rabs (x - x') <= e -> Rabs (y - y') <= e -> Rabs (lerp a b i x y - lerp a b i x' y') <= e.
Proof.
  intros Hab Hi Hx Hy. unfold lerp. set (t := (IZR i - IZR a) / (IZR b - IZR a)).
  assert (Ht : 0 <= t <= 1).
  { assert (0 < IZR b - IZR a) by (pose proof (IZR_lt a b Hab); lra). pose proof (IZR_le a i ltac:(lia)). pose proof (IZR_le i b ltac:(lia)). unfold t.
    split; [apply Rmult_le_pos; [lra|left; now apply Rinv_0_lt_compat]|]. apply Rmult_le_reg_r with (IZR b - IZR a); [assumption|]. unfold Rdiv. rewrite Rmult_assoc, Rinv_l by lra. lra. }
  pose proof (weights_close t x y x' y' e Ht Hx Hy) as Q. eapply Rle_trans; [|exact Q]. right. f_equal. ring.
Qed.
Theorem C156_basic_partial : forall cols rows (lat lon lat' lon' : frame R) va vo va' vo' oa oo oa' oo' e,
  indices cols -> indices rows -> ties cols rows lat va -> ties cols rows lon vo -> ties cols rows lat' va' -> ties cols rows lon' vo' ->
  (forall p q, (0 <= p < lenz rows)%Z -> (0 <= q < lenz cols)%Z -> Rabs (va p q - va' p q) <= e /\ Rabs (vo p q - vo' p q) <= e) ->
  @basic_interpolate R RT true cols rows lat lon = Ok (oa, oo) -> @basic_interpolate R RT true cols rows lat' lon' = Ok (oa', oo') ->
  forall p q i j, (0 <= p)%Z -> (p + 1 < lenz rows)%Z -> (0 <= q)%Z -> (q + 1 < lenz cols)%Z ->
    (nthz rows p <= i <= nthz rows (p + 1))%Z -> (nthz cols q <= j <= nthz cols (q + 1))%Z ->
    exists x x' y y', f_at oa i j = Some x /\ f_at oa' i j = Some x' /\ Rabs (x - x') <= e /\
      f_at oo i j = Some y /\ f_at oo' i j = Some y' /\ Rabs (y - y') <= e.
Proof.
  intros cols rows lat lon lat' lon' va vo va' vo' oa oo oa' oo' e Hc Hr T1 T2 T3 T4 C E1 E2 p q i j Hp Hp1 Hq Hq1 Hi Hj.
  destruct (C59_bilinear _ _ _ _ _ _ _ _ Hc Hr T1 T2 E1 p q i j Hp Hp1 Hq Hq1 Hi Hj) as [A1 A2].
  destruct (C59_bilinear _ _ _ _ _ _ _ _ Hc Hr T3 T4 E2 p q i j Hp Hp1 Hq Hq1 Hi Hj) as [B1 B2]. cbv zeta in *.
  assert (Sr : (nthz rows p < nthz rows (p + 1))%Z) by (apply Hr; lia). assert (Sc : (nthz cols q < nthz cols (q + 1))%Z) by (apply Hc; lia).
  do 4 eexists. split; [exact A1|]. split; [exact B1|]. split; [|split; [exact A2|split; [exact B2|]]];
    (apply lerp_close; [exact Sc|exact Hj| |]); (apply lerp_close; [exact Sr|exact Hi| |]); apply C; lia.
Qed.
Print Assumptions C156_basic_partial.

(** a run of order 1 on rational numbers: the tie values differ by 1 at most, and so do the pixels, also those beyond the tie points *)
Example C156_case : let run := fst (@interpolate Q QT (fun _ _ _ _ => 0%Q) (fun _ _ _ _ => 0%Q)
      (@make Q [[[1; 5]; [3; 1]]; [[2; 5]; [2; 1 # 2]]]%Q ([0; 2]%Q, [0; 4]%Q) ([0; 1; 3]%Q, [0; 1; 5]%Q) 1 1 0)) in
  match run with
  | Ok [a; b] => map (map Qred) a = [[1; 2; 5]; [2; 9 # 4; 3]; [3; 5 # 2; 1]]%Q /\ map (map Qred) b = [[2; 11 # 4; 5]; [2; 35 # 16; 11 # 4]; [2; 13 # 8; 1 # 2]]%Q
  | _ => False end.
Proof. vm_compute. split; reflexivity. Qed.
