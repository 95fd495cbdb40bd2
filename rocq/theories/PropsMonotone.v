(** C160: rising tie values give rising pixels. *)
From Coq Require Import ZArith List Lia Bool Reals Lra Arith.
From Verif Require Import Spec Base Num Geo GeoProofs Interp PlProofs BorderProofs InterpProofs LegacyTie Chunks ChunksProofs PropsChunks PropsAnyOrder GridLinear PropsGridLinear PropsBilinear Cubic CubicProofs PropsCubic SplineGrid PropsSplineGrid PropsTwoSteps.
Import ListNotations.
Open Scope R_scope.

(** ** Specification: values that do not fall from one row, or column, to the next *)
Definition rising_rows (n m : nat) (w : list (list R)) : Prop := forall r c, (S r < n)%nat -> (c < m)%nat -> at2 0 w r c <= at2 0 w (S r) c.
Definition rising_cols (n m : nat) (w : list (list R)) : Prop := forall r c, (r < n)%nat -> (S c < m)%nat -> at2 0 w r c <= at2 0 w r (S c).

(** ** Proof *)
Lemma climbs (f : nat -> R) n : (forall r, (S r < n)%nat -> f r <= f (S r)) -> forall a b, (a <= b < n)%nat -> f a <= f b.
Proof.
  intros H a b [L B]. induction L as [|b L IH]; [lra|]. eapply Rle_trans; [apply IH; lia|]. apply H. exact B.
Qed.
Lemma line_rises p0 p1 a b x y : p0 < p1 -> a <= b -> x <= y -> straight_line p0 a p1 b x <= straight_line p0 a p1 b y.
Proof.
  intros P H X. unfold straight_line. assert (K : 0 <= (b - a) / (p1 - p0)) by (apply Rmult_le_pos; [lra|left; apply Rinv_0_lt_compat; lra]).
  pose proof (Rmult_le_compat_l _ _ _ K (Rplus_le_compat_r (- p0) _ _ X)). unfold Rminus in *. lra.
Qed.
Lemma lines_rise ks (f : nat -> R) r r' y y' : increasing ks -> in_cell ks r y -> in_cell ks r' y' -> y <= y' ->
  (forall q, (S q < length ks)%nat -> f q <= f (S q)) ->
  straight_line (nth r ks 0) (f r) (nth (S r) ks 0) (f (S r)) y <= straight_line (nth r' ks 0) (f r') (nth (S r') ks 0) (f (S r')) y'.
Proof.
  intros I C C' L H. destruct (lt_eq_lt_dec r r') as [[Lt| ->]|Gt].
  - pose proof C as (A1 & A2 & A3). pose proof C' as (B1 & B2 & B3). pose proof (step_pos ks r I A1) as P. pose proof (step_pos ks r' I B1) as P'.
    assert (Y : y <= nth (S r) ks 0) by (destruct A3; [lia|assumption]). assert (Y' : nth r' ks 0 <= y') by (destruct B2; [lia|assumption]).
    pose proof (line_rises _ _ _ _ _ _ P (H r A1) Y) as Q1. rewrite straight_line_right in Q1 by exact P.
    pose proof (line_rises _ _ _ _ _ _ P' (H r' B1) Y') as Q2. rewrite straight_line_left in Q2.
    pose proof (climbs f (length ks) H (S r) r' ltac:(lia)). lra.
  - apply line_rises; auto; [apply step_pos; auto; apply C|apply H, C].
  - pose proof C as (A1 & A2 & A3). pose proof C' as (B1 & B2 & B3).
    assert (Y : nth r ks 0 <= y) by (destruct A2; [lia|assumption]). assert (Y' : y' <= nth (S r') ks 0) by (destruct B3; [lia|assumption]).
    assert (N : nth (S r') ks 0 <= nth r ks 0) by (destruct (Nat.eq_dec (S r') r) as [->|]; [lra|left; apply I; lia]).
    assert (y = y') as -> by lra. right. now apply line_cells.
Qed.
Lemma line_keeps p0 p1 a b a' b' x : p0 < p1 -> p0 <= x <= p1 -> a <= a' -> b <= b' -> straight_line p0 a p1 b x <= straight_line p0 a' p1 b' x.
Proof.
  intros P X A B. destruct (line_weights p0 p1 x P X) as (t & T & E). rewrite !E.
  pose proof (Rmult_le_compat_l t _ _ (proj1 T) B). pose proof (Rmult_le_compat_l (1 - t) _ _ ltac:(lra) A). lra.
Qed.
Lemma bilinear_rises ys xs v r c r' y x y' : increasing ys -> increasing xs -> in_cell ys r y -> in_cell ys r' y' -> in_cell xs c x -> inside xs x -> y <= y' ->
  (forall a b, (S a < length ys)%nat -> (b < length xs)%nat -> v a b <= v (S a) b) ->
  bilinear ys xs v r c y x <= bilinear ys xs v r' c y' x.
Proof.
  intros Iy Ix Cy Cy' Cx Hx L H. unfold bilinear. cbv zeta.
  apply (lines_rise ys (fun row => straight_line (nth c xs 0) (v row c) (nth (S c) xs 0) (v row (S c)) x)); auto.
  intros a Ha. pose proof Cx as (A & B & D). destruct Hx as [X1 X2]. apply line_keeps; [now apply step_pos| |apply H; lia|apply H; lia].
  split; [destruct B as [->|B]; [exact X1|exact B]|]. destruct D as [D|D]; [|exact D]. replace (S c) with (length xs - 1)%nat by lia. exact X2.
Qed.
Lemma bilinear_turned ys xs v r c y x : bilinear ys xs v r c y x = bilinear xs ys (fun a b => v b a) c r x y.
Proof. unfold bilinear. cbv zeta. apply line_swap. Qed.

(** ** Grid interpolators; also extrapolated ones along the axis in question *)
Theorem C160_rows_partial : forall i ys xs w y y' x, axes ys xs -> shaped (length ys) (length xs) w -> rising_rows (length ys) (length xs) w ->
  inside xs x -> extrapolates i \/ (inside ys y /\ inside ys y') -> y <= y' ->
  exists p q, grid i (points_of ys xs) (finite w) tt (Some y) (Some x) = Some (Some p) /\
    grid i (points_of ys xs) (finite w) tt (Some y') (Some x) = Some (Some q) /\ p <= q.
Proof.
  intros i ys xs w y y' x Ha Sw H Hx He L. pose proof Ha as (Iy & Ix & Ly & Lx).
  destruct (C90_cells ys y Iy Ly) as (r & Cr). destruct (C90_cells ys y' Iy Ly) as (r' & Cr'). destruct (C90_cells xs x Ix Lx) as (c & Cc).
  rewrite (C90_bilinear i ys xs w r c y x Ha Sw Cr Cc), (C90_bilinear i ys xs w r' c y' x Ha Sw Cr' Cc) by tauto.
  eexists _, _. split; [reflexivity|]. split; [reflexivity|]. now apply bilinear_rises.
Qed.
Print Assumptions C160_rows_partial.
Theorem C160_cols_partial : forall i ys xs w y x x', axes ys xs -> shaped (length ys) (length xs) w -> rising_cols (length ys) (length xs) w ->
  inside ys y -> extrapolates i \/ (inside xs x /\ inside xs x') -> x <= x' ->
  exists p q, grid i (points_of ys xs) (finite w) tt (Some y) (Some x) = Some (Some p) /\
    grid i (points_of ys xs) (finite w) tt (Some y) (Some x') = Some (Some q) /\ p <= q.
Proof.
  intros i ys xs w y x x' Ha Sw H Hy He L. pose proof Ha as (Iy & Ix & Ly & Lx).
  destruct (C90_cells ys y Iy Ly) as (r & Cr). destruct (C90_cells xs x Ix Lx) as (c & Cc). destruct (C90_cells xs x' Ix Lx) as (c' & Cc').
  rewrite (C90_bilinear i ys xs w r c y x Ha Sw Cr Cc), (C90_bilinear i ys xs w r c' y x' Ha Sw Cr Cc') by tauto.
  eexists _, _. split; [reflexivity|]. split; [reflexivity|]. rewrite !(bilinear_turned ys xs). apply bilinear_rises; auto.
Qed.
Print Assumptions C160_cols_partial.

(** ** Interpolator of order 1, on all target rows and columns *)
Lemma nearest_rises ks x y : x <= y -> nearest ks x <= nearest ks y.
Proof. intros H. unfold nearest. apply Rmax_lub; [apply Rmax_l|]. eapply Rle_trans; [|apply Rmax_r]. apply Rle_min_compat_r. exact H. Qed.
Theorem C160_interpolator_partial : forall spl1 spl2 (st : istate R) out p, well_formed st -> kx_ st = 1%Z -> ky_ st = 1%Z -> hrow_indices st <> row_indices st ->
  increasing (row_indices st) -> increasing (col_indices st) -> (2 <= length (row_indices st))%nat -> (2 <= length (col_indices st))%nat ->
  (p < length (tie_data st))%nat -> fst (@interpolate R RT spl1 spl2 st) = Ok out ->
  let n := length (row_indices st) in let m := length (col_indices st) in let hn := length (hrow_indices st) in let hm := length (hcol_indices st) in
  (rising_rows n m (nth p (tie_data st) []) -> forall a a' b, (a < hn)%nat -> (a' < hn)%nat -> (b < hm)%nat -> nth a (hrow_indices st) 0 <= nth a' (hrow_indices st) 0 ->
     at2 0 (nth p out []) a b <= at2 0 (nth p out []) a' b) /\
  (rising_cols n m (nth p (tie_data st) []) -> forall a b b', (a < hn)%nat -> (b < hm)%nat -> (b' < hm)%nat -> nth b (hcol_indices st) 0 <= nth b' (hcol_indices st) 0 ->
     at2 0 (nth p out []) a b <= at2 0 (nth p out []) a b').
Proof.
  intros spl1 spl2 st out p W Kx Ky Hne Ir Ic Lr Lc Hp E n m hn hm. destruct (C96_bilinear spl1 spl2 st out W Kx Ky Hne E) as (_ & H). specialize (proj2 (H p Hp)) as P. cbv zeta in P.
  assert (Cell : forall ks z, increasing ks -> (2 <= length ks)%nat -> exists r, in_cell ks r (nearest ks z)) by (intros ks z I L; now apply C90_cells).
  split; intros Ri.
  - intros a a' b Ha Ha' Hb L. destruct (Cell (row_indices st) (nth a (hrow_indices st) 0) Ir Lr) as (r & Cr). destruct (Cell (row_indices st) (nth a' (hrow_indices st) 0) Ir Lr) as (r' & Cr').
    destruct (Cell (col_indices st) (nth b (hcol_indices st) 0) Ic Lc) as (c & Cc).
    rewrite (P a b r c Ha Hb Cr Cc), (P a' b r' c Ha' Hb Cr' Cc). apply bilinear_rises; auto; [now apply nearest_inside|now apply nearest_rises].
  - intros a b b' Ha Hb Hb' L. destruct (Cell (row_indices st) (nth a (hrow_indices st) 0) Ir Lr) as (r & Cr). destruct (Cell (col_indices st) (nth b (hcol_indices st) 0) Ic Lc) as (c & Cc).
    destruct (Cell (col_indices st) (nth b' (hcol_indices st) 0) Ic Lc) as (c' & Cc').
    rewrite (P a b r c Ha Hb Cr Cc), (P a b' r c' Ha Hb' Cr Cc'). rewrite !(bilinear_turned (row_indices st)). apply bilinear_rises; auto; [now apply nearest_inside|now apply nearest_rises].
Qed.
Print Assumptions C160_interpolator_partial.

(** ** Splines *)
Definition spline_rises (i : spline_init) : Prop := forall other ys xs w y y' x p q, enough (deg_y i) ys -> enough (deg_x i) xs -> shaped (length ys) (length xs) w ->
  rising_rows (length ys) (length xs) w -> y <= y' ->
  @rbs R RT other Spline i (ys, xs) (double_data w) tt y x = Some p -> @rbs R RT other Spline i (ys, xs) (double_data w) tt y' x = Some q -> p <= q.
Lemma axis_line other ks vs z r : enough 1 ks -> length vs = length ks -> in_cell ks r (nearest ks z) ->
  @axis_spline R RT (@spl2_with R RT other) ks vs 1 z = straight_line (nth r ks 0) (nth r vs 0) (nth (S r) ks 0) (nth (S r) vs 0) (nearest ks z).
Proof. intros [I L] Lv C. unfold axis_spline. cbn [Z.eqb Pos.eqb]. apply pl_line; auto. lia. Qed.
Lemma spline_bilinear other ys xs w y x r c : enough 1 ys -> enough 1 xs -> shaped (length ys) (length xs) w -> in_cell ys r (nearest ys y) -> in_cell xs c (nearest xs x) ->
  @rbs R RT other Spline {| deg_y := 1; deg_x := 1 |} (ys, xs) (double_data w) tt y x = Some (bilinear ys xs (at2 0 w) r c (nearest ys y) (nearest xs x)).
Proof.
  intros Ey Ex [Lw Fw] Cr Cc. rewrite Forall_forall in Fw. unfold rbs, spline_point, double_data, astype. cbn [fst snd v_int v_data nst RT deg_x deg_y]. f_equal.
  rewrite (axis_line _ _ _ _ r) by (auto; now rewrite map_length). unfold bilinear. cbv zeta. pose proof (proj1 Cr).
  rewrite !(nth_map' _ _ _ []) by lia. rewrite !(axis_line _ _ _ _ c) by (auto; apply Fw, nth_In; lia). reflexivity.
Qed.
Theorem C160_spline_partial : spline_rises {| deg_y := 1; deg_x := 1 |}.
Proof.
  intros other ys xs w y y' x p q Ey Ex Sw H L Ep Eq. cbn [deg_y deg_x] in Ey, Ex. pose proof Ey as [Iy Ly]. pose proof Ex as [Ix Lx].
  destruct (C90_cells ys (nearest ys y) Iy ltac:(lia)) as (r & Cr). destruct (C90_cells ys (nearest ys y') Iy ltac:(lia)) as (r' & Cr'). destruct (C90_cells xs (nearest xs x) Ix ltac:(lia)) as (c & Cc).
  rewrite (spline_bilinear other ys xs w y x r c Ey Ex Sw Cr Cc) in Ep. rewrite (spline_bilinear other ys xs w y' x r' c Ey Ex Sw Cr' Cc) in Eq.
  injection Ep as <-. injection Eq as <-. apply bilinear_rises; auto; [apply nearest_inside; auto; lia|now apply nearest_rises].
Qed.
Print Assumptions C160_spline_partial.
Theorem C160_spline_cols_partial : forall other ys xs w y x x' p q, enough 1 ys -> enough 1 xs -> shaped (length ys) (length xs) w ->
  rising_cols (length ys) (length xs) w -> x <= x' ->
  @rbs R RT other Spline {| deg_y := 1; deg_x := 1 |} (ys, xs) (double_data w) tt y x = Some p ->
  @rbs R RT other Spline {| deg_y := 1; deg_x := 1 |} (ys, xs) (double_data w) tt y x' = Some q -> p <= q.
Proof.
  intros other ys xs w y x x' p q Ey Ex Sw H L Ep Eq. pose proof Ey as [Iy Ly]. pose proof Ex as [Ix Lx].
  destruct (C90_cells ys (nearest ys y) Iy ltac:(lia)) as (r & Cr). destruct (C90_cells xs (nearest xs x) Ix ltac:(lia)) as (c & Cc). destruct (C90_cells xs (nearest xs x') Ix ltac:(lia)) as (c' & Cc').
  rewrite (spline_bilinear other ys xs w y x r c Ey Ex Sw Cr Cc) in Ep. rewrite (spline_bilinear other ys xs w y x' r c' Ey Ex Sw Cr Cc') in Eq.
  injection Ep as <-. injection Eq as <-. rewrite !(bilinear_turned ys xs). apply bilinear_rises; auto; [apply nearest_inside; auto; lia|now apply nearest_rises].
Qed.
Print Assumptions C160_spline_cols_partial.
(** not with the default degrees: rows of 0, 0, 0 and 1 dip between the second and the third *)
Theorem C160_refuted : ~ spline_rises default_degrees.
Proof.
  intros S. set (ks := [0; 1; 2; 3]). set (w := [[0; 0; 0; 0]; [0; 0; 0; 0]; [0; 0; 0; 0]; [1; 1; 1; 1]]).
  assert (I : increasing ks) by (unfold ks; repeat (apply increasing_cons; [lra|]); intros i j H; cbn in H; lia).
  assert (E : enough 3 ks) by (split; [exact I|cbn; lia]).
  assert (Sw : shaped 4 4 w) by (split; [reflexivity|repeat constructor]).
  assert (Ri : rising_rows 4 4 w).
  { intros r c Hr Hc. destruct r as [|[|[|r]]]; try lia; destruct c as [|[|[|[|c]]]]; try lia; unfold at2; cbn [nth w]; lra. }
  assert (V : forall y x, @rbs R RT (fun _ _ _ _ => 0) Spline default_degrees (ks, ks) (double_data w) tt y x = Some ((fun y _ => y * (y - 1) * (y - 2) / 6) (nearest ks y) (nearest ks x))).
  { intros y x. apply (C103_polynomials (fun _ _ _ _ => 0) default_degrees ks ks w (fun y _ => y * (y - 1) * (y - 2) / 6) y x E E Sw).
    - intros r c Hr Hc. cbn [length ks] in Hr, Hc. destruct r as [|[|[|[|r]]]]; try lia; destruct c as [|[|[|[|c]]]]; try lia; unfold at2; cbn [nth w ks]; lra.
    - split; intros z; right; (split; [reflexivity|]).
      + exists (z * (z - 1) * (z - 2) / 6), 0, 0, 0. intros u. unfold cubic_of. ring.
      + exists 0, (1 / 3), (- 1 / 2), (1 / 6). intros u. unfold cubic_of. field. }
  pose proof (S (fun _ _ _ _ => 0) ks ks w 1 (3 / 2) 0 _ _ E E Sw Ri ltac:(lra) (V 1 0) (V (3 / 2) 0)) as Q. cbv beta in Q.
  assert (N : forall z, 0 <= z <= 3 -> nearest ks z = z) by (intros z Hz; unfold nearest, ks; cbn [nth length Nat.sub]; rewrite Rmin_left, Rmax_right by lra; reflexivity).
  rewrite !N in Q by lra. lra.
Qed.
Print Assumptions C160_refuted.

Example C160_case : axes [0; 1; 3] [0; 2] /\ rising_rows 3 2 [[1; 5]; [2; 5]; [4; 9]] /\ rising_cols 3 2 [[1; 5]; [2; 5]; [4; 9]].
Proof.
  split; [|split].
  - repeat split; try (cbn; lia); repeat (apply increasing_cons; [lra|]); intros i j H; cbn in H; lia.
  - intros r c Hr Hc. destruct r as [|[|r]]; try lia; destruct c as [|[|c]]; try lia; unfold at2; cbn [nth]; lra.
  - intros r c Hr Hc. destruct r as [|[|[|r]]]; try lia; destruct c as [|c]; try lia; unfold at2; cbn [nth]; lra.
Qed.
