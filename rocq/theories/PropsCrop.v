(** C162: pixels do not depend on tie points further away than those around them. *)
From Coq Require Import ZArith List Lia Bool Reals Lra Arith.
From Verif Require Import Spec Base Num Geo GeoProofs Interp PlProofs BorderProofs InterpProofs LegacyTie Chunks ChunksProofs PropsChunks PropsAnyOrder GridLinear PropsGridLinear PropsBilinear Cubic CubicProofs PropsCubic SplineGrid PropsSplineGrid PropsTwoSteps PropsMonotone.
Import ListNotations.
Open Scope R_scope.

(** ** Specification: n elements from number a on, of vectors and of arrays *)
Definition crop {A} (a n : nat) (l : list A) : list A := firstn n (skipn a l).
Definition crop2 (a n b m : nat) (w : list (list R)) : list (list R) := map (crop b m) (crop a n w).

(** ** Proof *)
Lemma crop_length {A} a n (l : list A) : (a + n <= length l)%nat -> length (crop a n l) = n.
Proof. intros H. unfold crop. rewrite firstn_length, skipn_length. lia. Qed.
Lemma crop_nth {A} a n (l : list A) d j : (j < n)%nat -> nth j (crop a n l) d = nth (a + j) l d.
Proof.
  unfold crop. revert n j l. induction a as [|a IH]; intros n j l H.
  - cbn [skipn Nat.add]. revert n l H. induction j as [|j IHj]; intros [|n] l H; try lia; destruct l; cbn; auto. apply IHj. lia.
  - destruct l as [|x l]; [cbn [skipn]; rewrite firstn_nil; now destruct j|]. cbn [skipn Nat.add nth]. now apply IH.
Qed.
Lemma crop_increasing a n ks : increasing ks -> (a + n <= length ks)%nat -> increasing (crop a n ks).
Proof. intros I H i j L. rewrite crop_length in L by exact H. rewrite !crop_nth by lia. apply I. lia. Qed.
Lemma crop_at2 a n b m w r c N : (a + n <= length w)%nat -> Forall (fun l => length l = N) w -> (r < n)%nat -> (c < m)%nat -> at2 0 (crop2 a n b m w) r c = at2 0 w (a + r) (b + c).
Proof.
  intros H F Hr Hc. unfold at2, crop2. rewrite (nth_map' _ _ _ []) by (rewrite crop_length; lia). rewrite crop_nth by exact Hc. now rewrite crop_nth by exact Hr.
Qed.
Lemma crop_shaped a n b m w N M : shaped N M w -> (a + n <= N)%nat -> (b + m <= M)%nat -> shaped n m (crop2 a n b m w).
Proof.
  intros [L F] H H'. rewrite Forall_forall in F. unfold crop2. split; [rewrite map_length, crop_length; lia|]. apply Forall_forall. intros r Hr. apply in_map_iff in Hr as (q & <- & Hq).
  apply crop_length. rewrite (F q); [exact H'|]. unfold crop in Hq. rewrite <- (firstn_skipn a w). apply in_or_app. right. rewrite <- (firstn_skipn n (skipn a w)). apply in_or_app. now left.
Qed.
Lemma crop_cell a n ks r y : increasing ks -> (a + n <= length ks)%nat -> in_cell (crop a n ks) r y -> inside (crop a n ks) y -> in_cell ks (a + r) y /\ (S r < n)%nat.
Proof.
  intros I H (A & B & C) [X1 X2]. rewrite crop_length in * by exact H. rewrite !crop_nth in * by lia. split; [|exact A].
  split; [lia|]. split; right.
  - destruct B as [->|B]; [exact X1|exact B].
  - replace (S (a + r)) with (a + S r)%nat by lia. destruct C as [C|C]; [|exact C]. now replace (S r) with (n - 1)%nat by lia.
Qed.
Lemma crop_inside a n ks y : increasing ks -> (a + n <= length ks)%nat -> (0 < n)%nat -> inside (crop a n ks) y -> inside ks y.
Proof.
  intros I H P [X1 X2]. rewrite crop_length in X2 by exact H. rewrite crop_nth in X1, X2 by lia. split.
  - destruct (Nat.eq_dec (a + 0) 0) as [E|E]; [now rewrite E in X1|]. pose proof (I 0%nat (a + 0)%nat ltac:(lia)). lra.
  - destruct (Nat.eq_dec (a + (n - 1)) (length ks - 1)) as [E|E]; [now rewrite E in X2|]. pose proof (I (a + (n - 1))%nat (length ks - 1)%nat ltac:(lia)). lra.
Qed.
Lemma crop_bilinear ys xs v v' a n b m r c y x : (S r < n)%nat -> (S c < m)%nat ->
  (forall p q, (p < n)%nat -> (q < m)%nat -> v' p q = v (a + p)%nat (b + q)%nat) ->
  bilinear (crop a n ys) (crop b m xs) v' r c y x = bilinear ys xs v (a + r) (b + c) y x.
Proof.
  intros Hr Hc H. unfold bilinear. cbv zeta. rewrite !crop_nth by lia. rewrite !H by lia. now replace (S (a + r)) with (a + S r)%nat by lia; replace (S (b + c)) with (b + S c)%nat by lia.
Qed.
Definition fits_in (ys xs : list R) (a n b m : nat) : Prop := (2 <= n)%nat /\ (2 <= m)%nat /\ (a + n <= length ys)%nat /\ (b + m <= length xs)%nat.
Lemma crop_axes ys xs a n b m : axes ys xs -> fits_in ys xs a n b m -> axes (crop a n ys) (crop b m xs).
Proof. intros (Iy & Ix & _ & _) (N & M & Hn & Hm). split; [now apply crop_increasing|]. split; [now apply crop_increasing|]. now rewrite !crop_length. Qed.

(** ** Grid interpolators *)
Theorem C162_grid_partial : forall i ys xs w a n b m y x, axes ys xs -> shaped (length ys) (length xs) w -> fits_in ys xs a n b m ->
  inside (crop a n ys) y -> inside (crop b m xs) x ->
  grid i (points_of (crop a n ys) (crop b m xs)) (finite (crop2 a n b m w)) tt (Some y) (Some x) = grid i (points_of ys xs) (finite w) tt (Some y) (Some x).
Proof.
  intros i ys xs w a n b m y x Ha Sw Hf Hy Hx. pose proof (crop_axes _ _ _ _ _ _ Ha Hf) as Hc. pose proof Ha as (Iy & Ix & _). pose proof Hf as (N & M & Hn & Hm).
  destruct (C90_cells (crop a n ys) y (proj1 Hc) ltac:(rewrite crop_length; lia)) as (r & Cr). destruct (C90_cells (crop b m xs) x (proj1 (proj2 Hc)) ltac:(rewrite crop_length; lia)) as (c & Cc).
  destruct (crop_cell a n ys r y Iy Hn Cr Hy) as [Cr' Hr]. destruct (crop_cell b m xs c x Ix Hm Cc Hx) as [Cc' Hcc].
  rewrite (C90_bilinear i ys xs w _ _ y x Ha Sw Cr' Cc') by (right; split; [apply (crop_inside a n)|apply (crop_inside b m)]; auto; lia).
  rewrite (C90_bilinear i _ _ (crop2 a n b m w) r c y x Hc) by (auto; rewrite !crop_length by lia; now apply (crop_shaped a n b m w (length ys) (length xs))).
  do 2 f_equal. apply crop_bilinear; auto. intros p q Hp Hq. destruct Sw as [Lw Fw]. apply (crop_at2 a n b m w p q (length xs)); auto. lia.
Qed.
Print Assumptions C162_grid_partial.
Theorem C162_geo_grid_partial : forall i ys xs lons lats a n b m fy fx, axes ys xs -> shaped (length ys) (length xs) lons -> shaped (length ys) (length xs) lats -> fits_in ys xs a n b m ->
  Forall (inside (crop a n ys)) fy -> Forall (inside (crop b m xs)) fx ->
  geo_grid i (crop a n ys) (crop b m xs) (crop2 a n b m lons) (crop2 a n b m lats) fy fx = geo_grid i ys xs lons lats fy fx.
Proof.
  intros i ys xs lons lats a n b m fy fx Ha S1 S2 Hf Hy Hx. pose proof (crop_axes _ _ _ _ _ _ Ha Hf) as Hc. pose proof Ha as (Iy & Ix & _). pose proof Hf as (N & M & Hn & Hm).
  assert (Sc : forall w, shaped (length ys) (length xs) w -> shaped (length (crop a n ys)) (length (crop b m xs)) (crop2 a n b m w)) by (intros w Sw; rewrite !crop_length by lia; now apply (crop_shaped a n b m w (length ys) (length xs))).
  assert (Hy' : Forall (inside ys) fy) by (revert Hy; apply Forall_impl; intros z; apply crop_inside; auto; lia).
  assert (Hx' : Forall (inside xs) fx) by (revert Hx; apply Forall_impl; intros z; apply crop_inside; auto; lia).
  destruct (C91_position i ys xs lons lats fy fx Ha S1 S2 (or_intror (conj Hy' Hx'))) as (o1 & o2 & E & T1 & T2 & H).
  destruct (C91_position i _ _ _ _ fy fx Hc (Sc _ S1) (Sc _ S2) (or_intror (conj Hy Hx))) as (p1 & p2 & E' & T1' & T2' & H').
  rewrite E, E'. rewrite Forall_forall in Hy, Hx.
  assert (Q : forall u v, (u < length fy)%nat -> (v < length fx)%nat -> (at2 None p1 u v, at2 None p2 u v) = (at2 None o1 u v, at2 None o2 u v)).
  { intros u v Hu Hv. pose proof (Hy _ (nth_In fy 0 Hu)) as Yi. pose proof (Hx _ (nth_In fx 0 Hv)) as Xi.
    destruct (C90_cells (crop a n ys) (nth u fy 0) (proj1 Hc) ltac:(rewrite crop_length; lia)) as (r & Cr). destruct (C90_cells (crop b m xs) (nth v fx 0) (proj1 (proj2 Hc)) ltac:(rewrite crop_length; lia)) as (c & Cc).
    destruct (crop_cell a n ys r _ Iy Hn Cr Yi) as [Cr' Hr]. destruct (crop_cell b m xs c _ Ix Hm Cc Xi) as [Cc' Hcc].
    rewrite (H u v _ _ Hu Hv Cr' Cc'), (H' u v r c Hu Hv Cr Cc). cbv beta zeta.
    assert (W : forall (f : R * R * R -> R), bilinear (crop a n ys) (crop b m xs) (fun p q => f (tie_xyz (crop2 a n b m lons) (crop2 a n b m lats) p q)) r c (nth u fy 0) (nth v fx 0) =
      bilinear ys xs (fun p q => f (tie_xyz lons lats p q)) (a + r) (b + c) (nth u fy 0) (nth v fx 0)).
    { intros f. apply (crop_bilinear ys xs (fun p q => f (tie_xyz lons lats p q))); auto. intros p q Hp Hq. unfold tie_xyz. destruct S1 as [L1 F1], S2 as [L2 F2]. now rewrite !(crop_at2 a n b m _ p q (length xs)) by (auto; lia). }
    rewrite (W (fun p => fst (fst p))), (W (fun p => snd (fst p))), (W snd). reflexivity. }
  f_equal. f_equal; apply (at2_ext None (length fy) (length fx)); auto; intros u v Hu Hv; pose proof (Q u v Hu Hv) as P; now injection P.
Qed.
Print Assumptions C162_geo_grid_partial.

(** ** Splines *)
Definition spline_local (i : spline_init) : Prop := forall other ys xs w a n b m y x, enough (deg_y i) ys -> enough (deg_x i) xs -> shaped (length ys) (length xs) w -> fits_in ys xs a n b m ->
  (deg_y i < Z.of_nat n)%Z -> (deg_x i < Z.of_nat m)%Z -> inside (crop a n ys) y -> inside (crop b m xs) x ->
  @rbs R RT other Spline i (crop a n ys, crop b m xs) (double_data (crop2 a n b m w)) tt y x = @rbs R RT other Spline i (ys, xs) (double_data w) tt y x.
Lemma inside_nearest ks z : increasing ks -> (2 <= length ks)%nat -> inside ks z -> nearest ks z = z.
Proof. intros I L H. now apply (proj2 (proj2 (C96_constant_outside ks z I L))). Qed.
Theorem C162_spline_partial : spline_local {| deg_y := 1; deg_x := 1 |}.
Proof.
  intros other ys xs w a n b m y x Ey Ex Sw Hf _ _ Hy Hx. cbn [deg_y deg_x] in *. pose proof Ey as [Iy Ly]. pose proof Ex as [Ix Lx]. pose proof Hf as (N & M & Hn & Hm).
  assert (Ha : axes ys xs) by (repeat split; auto; lia). pose proof (crop_axes _ _ _ _ _ _ Ha Hf) as Hc.
  destruct (C90_cells (crop a n ys) y (proj1 Hc) ltac:(rewrite crop_length; lia)) as (r & Cr). destruct (C90_cells (crop b m xs) x (proj1 (proj2 Hc)) ltac:(rewrite crop_length; lia)) as (c & Cc).
  destruct (crop_cell a n ys r y Iy Hn Cr Hy) as [Cr' Hr]. destruct (crop_cell b m xs c x Ix Hm Cc Hx) as [Cc' Hcc].
  pose proof (crop_inside a n ys y Iy Hn ltac:(lia) Hy) as Hy'. pose proof (crop_inside b m xs x Ix Hm ltac:(lia) Hx) as Hx'.
  assert (N1 : nearest ys y = y) by (apply inside_nearest; auto; lia). assert (N2 : nearest xs x = x) by (apply inside_nearest; auto; lia).
  assert (N3 : nearest (crop a n ys) y = y) by (apply inside_nearest; auto; apply Hc). assert (N4 : nearest (crop b m xs) x = x) by (apply inside_nearest; auto; apply Hc).
  rewrite (spline_bilinear other ys xs w y x (a + r) (b + c)) by (auto; now rewrite ?N1, ?N2).
  rewrite (spline_bilinear other (crop a n ys) (crop b m xs) (crop2 a n b m w) y x r c); [| | | |now rewrite N3|now rewrite N4].
  - rewrite N1, N2, N3, N4. f_equal. apply crop_bilinear; auto. intros p q Hp Hq. destruct Sw as [Lw Fw]. apply (crop_at2 a n b m w p q (length xs)); auto. lia.
  - split; [apply Hc|rewrite crop_length; lia].
  - split; [apply Hc|rewrite crop_length; lia].
  - rewrite !crop_length by lia. now apply (crop_shaped a n b m w (length ys) (length xs)).
Qed.
Print Assumptions C162_spline_partial.
(** not with the default degrees: a fifth row makes a difference between the first two *)
Theorem C162_refuted : ~ spline_local default_degrees.
Proof.
  intros H. set (k4 := [0; 1; 2; 3]). set (k5 := [0; 1; 2; 3; 4]). set (w := [[0; 0; 0; 0]; [0; 0; 0; 0]; [0; 0; 0; 0]; [0; 0; 0; 0]; [1; 1; 1; 1]]).
  assert (I4 : increasing k4) by (unfold k4; repeat (apply increasing_cons; [lra|]); intros i j L; cbn in L; lia).
  assert (I5 : increasing k5) by (unfold k5; repeat (apply increasing_cons; [lra|]); intros i j L; cbn in L; lia).
  assert (E4 : enough 3 k4) by (split; [exact I4|cbn; lia]). assert (E5 : enough 3 k5) by (split; [exact I5|cbn; lia]).
  assert (Co : forall v z, @axis_spline R RT (@spl2_with R RT (fun _ _ _ _ => 0)) k4 [v; v; v; v] 3 z = v).
  { intros v z. rewrite (axis_fit _ 3 k4 [v; v; v; v] (fun _ => v) z E4 eq_refl); [reflexivity|]. split.
    - intros i Hi. destruct i as [|[|[|[|i]]]]; try reflexivity. cbn in Hi. lia.
    - left. split; [reflexivity|]. exists v, 0, 0, 0, (fun _ => 0). intros z'. unfold cubic_of. cbn. ring. }
  assert (Sp : @axis_spline R RT (@spl2_with R RT (fun _ _ _ _ => 0)) k5 [0; 0; 0; 0; 1] 3 (1 / 2) = - (1 / 64)).
  { rewrite (axis_fit _ 3 k5 [0; 0; 0; 0; 1] (fun z => cubic_of 0 (- (1 / 12)) (1 / 8) (- (1 / 24)) z + 1 / 4 * cube_from 2 z) (1 / 2) E5 eq_refl).
    - rewrite inside_nearest by (auto; try (cbn; lia); unfold inside; cbn; lra). unfold cubic_of, cube_from. rewrite Rmax_left by lra. field.
    - split.
      + intros i Hi. destruct i as [|[|[|[|[|i]]]]]; [| | | | |cbn in Hi; lia]; cbn [nth k5]; unfold cubic_of, cube_from; [rewrite Rmax_left by lra|rewrite Rmax_left by lra|rewrite Rmax_left by lra|rewrite Rmax_right by lra|rewrite Rmax_right by lra]; field.
      + left. split; [reflexivity|]. exists 0, (- (1 / 12)), (1 / 8), (- (1 / 24)), (fun _ => 1 / 4). intros z. cbn. ring. }
  assert (Sw : shaped 5 4 w) by (split; [reflexivity|repeat constructor]).
  pose proof (H (fun _ _ _ _ => 0) k5 k4 w 0%nat 4%nat 0%nat 4%nat (1 / 2) 0 E5 E4 Sw ltac:(unfold fits_in; cbn; lia) ltac:(cbn; lia) ltac:(cbn; lia) ltac:(unfold inside; cbn; lra) ltac:(unfold inside; cbn; lra)) as Q.
  unfold rbs, spline_point, double_data, astype in Q. cbn [fst snd v_int v_data nst RT crop2 crop firstn skipn map w deg_x deg_y default_degrees k5 k4] in Q. fold k4 k5 in Q. rewrite !Co, Sp in Q. injection Q as Q. lra.
Qed.
Print Assumptions C162_refuted.

Example C162_case : crop 1 2 [0; 1; 3; 7] = [1; 3] /\ crop2 1 2 0 2 [[1; 2; 3]; [4; 5; 6]; [7; 8; 9]; [0; 0; 0]] = [[4; 5]; [7; 8]] /\ fits_in [0; 1; 3; 7] [0; 2; 4] 1 2 0 2.
Proof. repeat split; cbn; lia. Qed.
