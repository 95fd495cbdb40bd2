(** C90 - C94: SingleGridInterpolator, MultipleGridInterpolator and GeoGridInterpolator with scipy's linear
    RegularGridInterpolator (GridLinear.v). *)
From Coq Require Import ZArith List Bool Arith Lia QArith Reals Lra.
From Verif Require Import Spec Base Num Geo GeoProofs Chunks ChunksProofs GridLinear PropsGeo PropsChunks.
Import ListNotations.
Open Scope nat_scope.

(** ** Specification *)
(** the cell between axis points r and r + 1 is used for y (the first and the last one also beyond the axis) *)
Definition in_cell (ys : list R) (r : nat) (y : R) : Prop :=
  S r < length ys /\ (r = 0 \/ (nth r ys 0 <= y)%R) /\ (S (S r) = length ys \/ (y <= nth (S r) ys 0)%R).
Definition inside (ys : list R) (y : R) : Prop := (nth 0 ys 0 <= y <= nth (length ys - 1) ys 0)%R.
(** straight lines along one axis of straight lines along the other *)
Definition bilinear (ys xs : list R) (v : nat -> nat -> R) (r c : nat) (y x : R) : R :=
  let along row := straight_line (nth c xs 0%R) (v row c) (nth (S c) xs 0%R) (v row (S c)) x in
  straight_line (nth r ys 0%R) (along r) (nth (S r) ys 0%R) (along (S r)) y.
Definition extrapolates (i : grid_init (option R)) : Prop := bounds_error i = false /\ fill_value i = None.

(** two axes of at least two points *)
Definition axes (ys xs : list R) : Prop := increasing ys /\ increasing xs /\ 2 <= length ys /\ 2 <= length xs.
Definition points_of (ys xs : list R) : list (option R) * list (option R) := (map Some ys, map Some xs).
(** finite real data / data that may have holes, in a floating-point array *)
Definition floats (w : list (list (option R))) : tie_values (option R) := {| v_int := false; v_data := w |}.
Definition finite (w : list (list R)) : tie_values (option R) := floats (map (map Some) w).
Notation grid := (@rgi (option R) RN Grid).
Notation grid_ok := (@rgi_valid (option R) RN Grid).

(** ** The model on real coordinates *)
Lemma increasing_tail a l : increasing (a :: l) -> increasing l.
Proof. intros H i j Hij. apply (H (S i) (S j)). cbn. lia. Qed.

Lemma ascending_RN l : @ascending _ RN (map Some l) = true <-> increasing l.
Proof.
  induction l as [|a [|b l] IH].
  - split; [intros _ i j H; cbn in H; lia|reflexivity].
  - split; [intros _ i j H; cbn in H; lia|reflexivity].
  - cbn [map ascending] in *. rewrite andb_true_iff. cbn [nltb RN liftb]. rewrite Rltb_true, IH. split.
    + intros [H1 H2] [|i] [|j] Hij; cbn [length] in Hij; try lia.
      * cbn [nth]. destruct j as [|j]; [exact H1|]. pose proof (H2 0 (S j) ltac:(cbn [length]; lia)) as G. cbn [nth] in *. lra.
      * apply (H2 i j). cbn [length]. lia.
    + intros H. split; [apply (H 0 1); cbn; lia|now apply increasing_tail in H].
Qed.

Lemma desc_app p a : @descending _ RN (map Some (p ++ [a])) =
  @descending _ RN (map Some p) && match rev p with [] => true | b :: _ => Rltb a b end.
Proof.
  induction p as [|x [|y p] IH]; [reflexivity| |].
  - cbn. now rewrite andb_comm.
  - cbn [app map descending] in *. rewrite IH. rewrite andb_assoc. f_equal.
    cbn [rev]. rewrite <- app_assoc. destruct (rev p); reflexivity.
Qed.

Lemma descending_RN l : @descending _ RN (map Some l) = @ascending _ RN (map Some (rev l)).
Proof.
  rewrite <- (rev_involutive l) at 1. generalize (rev l) as p. clear l. intros p.
  induction p as [|a p IH]; [reflexivity|]. cbn [rev]. rewrite desc_app, IH, rev_involutive. destruct p as [|b p]; [reflexivity|].
  cbn [map ascending nltb RN liftb]. apply andb_comm.
Qed.

Lemma locate_cons a b c ys y : @locate _ RN (map Some (a :: b :: c :: ys)) (Some y) =
  if Rltb y b then 0 else S (@locate _ RN (map Some (b :: c :: ys)) (Some y)).
Proof. reflexivity. Qed.

Lemma locate_spec ys y : increasing ys -> 2 <= length ys ->
  let r := @locate _ RN (map Some ys) (Some y) in
  S r < length ys /\ (r = 0 \/ (nth r ys 0 <= y)%R) /\ (S (S r) = length ys \/ (y < nth (S r) ys 0)%R).
Proof.
  induction ys as [|a [|b [|c ys]] IH]; intros Hi Hl; [cbn in Hl; lia|cbn in Hl; lia|cbn; auto|].
  rewrite locate_cons. destruct (Rltb y b) eqn:E.
  - apply Rltb_true in E. cbv zeta. split; [cbn [length]; lia|]. split; [now left|]. right. exact E.
  - apply Rltb_false in E. apply increasing_tail in Hi. specialize (IH Hi ltac:(cbn; lia)). cbv zeta in *.
    set (r := @locate _ RN (map Some (b :: c :: ys)) (Some y)) in *. clearbody r.
    destruct IH as (I1 & I2 & I3). cbn [length] in *. split; [lia|]. split.
    + right. destruct I2 as [->|I2]; [exact E|exact I2].
    + destruct I3 as [I3|I3]; [left; lia|right; exact I3].
Qed.

Lemma located_in_cell ys y : increasing ys -> 2 <= length ys -> in_cell ys (@locate _ RN (map Some ys) (Some y)) y.
Proof.
  intros H L. destruct (locate_spec ys y H L) as (A & B & C). split; [exact A|]. split; [exact B|].
  destruct C as [C|C]; [now left|right; lra].
Qed.

(** two cells used for the same y: the same one, or y is the point between them *)
Lemma cell_unique ys y r r' : increasing ys -> in_cell ys r y -> in_cell ys r' y -> r < r' ->
  r' = S r /\ y = nth (S r) ys 0%R.
Proof.
  intros H (A & B & C) (A' & B' & C') L.
  assert (C0 : (y <= nth (S r) ys 0)%R) by (destruct C as [C|C]; [lia|exact C]).
  assert (B0 : (nth r' ys 0 <= y)%R) by (destruct B' as [B'|B']; [lia|exact B']).
  destruct (Nat.eq_dec r' (S r)) as [->|N].
  - split; [reflexivity|lra].
  - exfalso. pose proof (H (S r) r' ltac:(lia)). lra.
Qed.

Lemma straight_line_left p0 d0 p1 d1 : straight_line p0 d0 p1 d1 p0 = d0.
Proof. unfold straight_line. ring. Qed.
Lemma straight_line_right p0 d0 p1 d1 : (p0 < p1)%R -> straight_line p0 d0 p1 d1 p1 = d1.
Proof. intros H. unfold straight_line. field. lra. Qed.
Lemma step_pos ys r : increasing ys -> S r < length ys -> (nth r ys 0 < nth (S r) ys 0)%R.
Proof. intros H L. apply H. lia. Qed.

Lemma line_cells ys y r r' (f : nat -> R) : increasing ys -> in_cell ys r y -> in_cell ys r' y ->
  straight_line (nth r ys 0%R) (f r) (nth (S r) ys 0%R) (f (S r)) y =
  straight_line (nth r' ys 0%R) (f r') (nth (S r') ys 0%R) (f (S r')) y.
Proof.
  assert (G : forall r r', increasing ys -> in_cell ys r y -> in_cell ys r' y -> r < r' ->
    straight_line (nth r ys 0%R) (f r) (nth (S r) ys 0%R) (f (S r)) y =
    straight_line (nth r' ys 0%R) (f r') (nth (S r') ys 0%R) (f (S r')) y).
  { intros a b H Ha Hb L. destruct (cell_unique ys y a b H Ha Hb L) as [-> ->].
    destruct Ha as (A & _). rewrite straight_line_left, straight_line_right by (apply step_pos; assumption). reflexivity. }
  intros H Ha Hb. destruct (Nat.lt_trichotomy r r') as [L|[->|L]]; [now apply G|reflexivity|symmetry; now apply G].
Qed.

Lemma bilinear_cells ys xs v r r' c c' y x : increasing ys -> increasing xs ->
  in_cell ys r y -> in_cell ys r' y -> in_cell xs c x -> in_cell xs c' x ->
  bilinear ys xs v r c y x = bilinear ys xs v r' c' y x.
Proof.
  intros Iy Ix Hr Hr' Hc Hc'. unfold bilinear. cbv zeta.
  rewrite (line_cells ys y r r' (fun row => straight_line (nth c xs 0%R) (v row c) (nth (S c) xs 0%R) (v row (S c)) x) Iy Hr Hr').
  rewrite (line_cells xs x c c' (v r') Ix Hc Hc'), (line_cells xs x c c' (v (S r')) Ix Hc Hc'). reflexivity.
Qed.

Lemma nth_some l r : nth r (map Some l) (@nz _ RN 0) = Some (nth r l 0%R).
Proof. change (@nz _ RN 0) with (Some 0%R). apply map_nth. Qed.

Lemma distance_RN ys r y : increasing ys -> S r < length ys ->
  @distance _ RN (map Some ys) r (Some y) = Some ((y - nth r ys 0) / (nth (S r) ys 0 - nth r ys 0))%R.
Proof.
  intros H L. unfold distance. rewrite !nth_some. cbn [nsub ndiv RN lift2]. apply RNdiv_some.
  pose proof (step_pos ys r H L). lra.
Qed.

Lemma within_RN ys y : @within _ RN (map Some ys) (Some y) = true <-> inside ys y.
Proof.
  unfold within, inside. rewrite map_length, !nth_some. cbn [nleb RN liftb].
  rewrite andb_true_iff, !Rleb_true. tauto.
Qed.

Lemma flip_up {A} ys (l : list A) : increasing ys -> @flip _ RN _ (map Some ys) l = l.
Proof. intros H. unfold flip. apply ascending_RN in H. now rewrite H. Qed.
Lemma flip_down {A} ys (l : list A) : increasing ys -> 2 <= length ys -> @flip _ RN _ (map Some (rev ys)) l = rev l.
Proof.
  intros H L. unfold flip. destruct (ascending (map Some (rev ys))) eqn:E; [|reflexivity].
  apply ascending_RN in E. exfalso. pose proof (E 0 (length ys - 1) ltac:(rewrite rev_length; lia)) as G.
  rewrite !rev_nth in G by lia. replace (length ys - S (length ys - 1)) with 0 in G by lia.
  pose proof (H 0 (length ys - 1) ltac:(lia)) as G'. replace (length ys - 1) with (length ys - 1) in G by lia. lra.
Qed.
Lemma map_flip_up {A} ys (l : list (list A)) : increasing ys -> map (@flip _ RN _ (map Some ys)) l = l.
Proof. intros H. rewrite <- (map_id l) at 2. apply map_ext. intros r. now apply flip_up. Qed.
Lemma map_flip_down {A} ys (l : list (list A)) : increasing ys -> 2 <= length ys -> map (@flip _ RN _ (map Some (rev ys))) l = map (@rev A) l.
Proof. intros H L. apply map_ext. intros r. now apply flip_down. Qed.

(** one point: the cell found, and the weights *)
Lemma grid_RN i ys xs d y x : axes ys xs ->
  let r := @locate _ RN (map Some ys) (Some y) in let c := @locate _ RN (map Some xs) (Some x) in
  let t := ((y - nth r ys 0) / (nth (S r) ys 0 - nth r ys 0))%R in
  let u := ((x - nth c xs 0) / (nth (S c) xs 0 - nth c xs 0))%R in
  let ins := @within _ RN (map Some ys) (Some y) && @within _ RN (map Some xs) (Some x) in
  let value := @linear_2d _ RN (fun r c => nth c (nth r (v_data d) []) (Some 0%R)) r c (Some t) (Some u) in
  grid i (points_of ys xs) d tt (Some y) (Some x) =
  if bounds_error i && negb ins then None else
  Some (@astype _ RN (v_int d) (match fill_value i with Some f => if ins then value else f | None => value end)).
Proof.
  intros (Iy & Ix & Ly & Lx). cbv zeta. unfold rgi, grid_point, grid_point_with, points_of. cbn [fst snd].
  rewrite !flip_up, map_flip_up by assumption.
  rewrite !distance_RN; try assumption; [reflexivity|apply located_in_cell; assumption|apply located_in_cell; assumption].
Qed.

Lemma linear_2d_RN v r c t u a00 a01 a10 a11 :
  v r c = Some a00 -> v r (S c) = Some a01 -> v (S r) c = Some a10 -> v (S r) (S c) = Some a11 ->
  @linear_2d _ RN v r c (Some t) (Some u) =
  Some (a00 * (1 - t) * (1 - u) + a01 * (1 - t) * u + a10 * t * (1 - u) + a11 * t * u)%R.
Proof. intros H1 H2 H3 H4. unfold linear_2d. rewrite H1, H2, H3, H4. reflexivity. Qed.

Lemma linear_2d_hole v r c t u :
  @linear_2d _ RN v r c (Some t) (Some u) = None <->
  v r c = None \/ v r (S c) = None \/ v (S r) c = None \/ v (S r) (S c) = None.
Proof.
  unfold linear_2d. destruct (v r c), (v r (S c)), (v (S r) c), (v (S r) (S c)); cbn;
    (split; [intros H; try discriminate; tauto|intros H; try reflexivity; intuition discriminate]).
Qed.

Lemma bilinear_weights ys xs v r c y x :
  (nth r ys 0 < nth (S r) ys 0)%R -> (nth c xs 0 < nth (S c) xs 0)%R ->
  let t := ((y - nth r ys 0) / (nth (S r) ys 0 - nth r ys 0))%R in
  let u := ((x - nth c xs 0) / (nth (S c) xs 0 - nth c xs 0))%R in
  bilinear ys xs v r c y x =
  (v r c * (1 - t) * (1 - u) + v r (S c) * (1 - t) * u + v (S r) c * t * (1 - u) + v (S r) (S c) * t * u)%R.
Proof. intros Hy Hx. cbv zeta. unfold bilinear, straight_line. cbv zeta. field. lra. Qed.

Lemma at_finite (w : list (list R)) n m r c : shaped n m w -> r < n -> c < m ->
  nth c (nth r (map (map Some) w) []) (Some 0%R) = Some (at2 0%R w r c).
Proof.
  intros [L F] Hr Hc. unfold at2. rewrite (nth_indep _ [] (map Some [])) by (rewrite map_length; lia). rewrite map_nth. apply map_nth.
Qed.

(** the value of the cell that is used *)
Lemma cell_value b ys xs w r c y x : axes ys xs -> shaped (length ys) (length xs) w ->
  in_cell ys r y -> in_cell xs c x ->
  let r' := @locate _ RN (map Some ys) (Some y) in let c' := @locate _ RN (map Some xs) (Some x) in
  @linear_2d _ RN (fun r c => nth c (nth r (v_data {| v_int := b; v_data := map (map Some) w |}) []) (Some 0%R)) r' c'
    (Some ((y - nth r' ys 0) / (nth (S r') ys 0 - nth r' ys 0))%R) (Some ((x - nth c' xs 0) / (nth (S c') xs 0 - nth c' xs 0))%R)
  = Some (bilinear ys xs (at2 0%R w) r c y x).
Proof.
  intros (Iy & Ix & Ly & Lx) Sw Hr Hc. cbv zeta. cbn [v_data].
  pose proof (located_in_cell ys y Iy Ly) as Hr'. pose proof (located_in_cell xs x Ix Lx) as Hc'.
  set (r' := locate (map Some ys) (Some y)) in *. set (c' := locate (map Some xs) (Some x)) in *.
  rewrite (bilinear_cells ys xs (at2 0%R w) r r' c c' y x Iy Ix Hr Hr' Hc Hc').
  destruct Hr' as (A & _), Hc' as (B & _).
  rewrite bilinear_weights by (apply step_pos; assumption). cbv zeta.
  apply linear_2d_RN; eapply at_finite; try exact Sw; lia.
Qed.

(** ** C90: the grid interpolator is bilinear in every cell *)
(** constructor: accepted exactly when both axes are strictly monotonic and the shape fits *)
Theorem C90_accepted : forall i ys xs d,
  grid_ok i (points_of ys xs) d = true <->
  (increasing ys \/ increasing (rev ys)) /\ (increasing xs \/ increasing (rev xs)) /\ shaped (length ys) (length xs) (v_data d).
Proof.
  intros i ys xs d. unfold rgi_valid, grid_valid, points_of. cbn [fst snd].
  rewrite !andb_true_iff, !orb_true_iff, !descending_RN, !ascending_RN, !map_length, Nat.eqb_eq, forallb_forall. unfold shaped.
  rewrite Forall_forall. setoid_rewrite Nat.eqb_eq. tauto.
Qed.
Print Assumptions C90_accepted.

(** closed cells; beyond the axes the outermost cells, if the interpolator extrapolates *)
Theorem C90_bilinear : forall i ys xs w r c y x,
  axes ys xs -> shaped (length ys) (length xs) w -> in_cell ys r y -> in_cell xs c x ->
  extrapolates i \/ (inside ys y /\ inside xs x) ->
  grid i (points_of ys xs) (finite w) tt (Some y) (Some x) = Some (Some (bilinear ys xs (at2 0%R w) r c y x)).
Proof.
  intros i ys xs w r c y x Ha Sw Hr Hc He. rewrite grid_RN by exact Ha. cbv zeta. unfold finite, floats.
  rewrite (cell_value false ys xs w r c y x Ha Sw Hr Hc).
  destruct He as [[-> ->]|[Y X]]; [reflexivity|].
  apply within_RN in Y, X. rewrite Y, X. cbn [andb negb]. rewrite andb_false_r. destruct (fill_value i); reflexivity.
Qed.
Print Assumptions C90_bilinear.
(** every point belongs to a cell *)
Theorem C90_cells : forall ys y, increasing ys -> 2 <= length ys -> exists r, in_cell ys r y.
Proof. intros ys y H L. eexists. now apply located_in_cell. Qed.

(** tie points *)
Lemma node_in_cell ys r : increasing ys -> 2 <= length ys -> r < length ys -> in_cell ys (if S r =? length ys then r - 1 else r) (nth r ys 0%R).
Proof.
  intros H L Hr. destruct (S r =? length ys) eqn:E.
  - apply Nat.eqb_eq in E. unfold in_cell. split; [lia|]. split; [|left; lia].
    right. left. apply H. lia.
  - apply Nat.eqb_neq in E. split; [lia|]. split; [right; lra|]. right. left. apply step_pos; [exact H|lia].
Qed.
Lemma node_inside ys r : increasing ys -> r < length ys -> inside ys (nth r ys 0%R).
Proof.
  intros H Hr. unfold inside. split.
  - destruct r as [|r]; [lra|left; apply H; lia].
  - destruct (Nat.eq_dec r (length ys - 1)) as [->|N]; [lra|left; apply H; lia].
Qed.
Lemma bilinear_node ys xs v r c : axes ys xs -> r < length ys -> c < length xs ->
  bilinear ys xs v (if S r =? length ys then r - 1 else r) (if S c =? length xs then c - 1 else c) (nth r ys 0%R) (nth c xs 0%R) = v r c.
Proof.
  intros (Iy & Ix & Ly & Lx) Hr Hc. unfold bilinear. cbv zeta.
  assert (G : forall l (f : nat -> R) k, increasing l -> 2 <= length l -> k < length l -> let q := if S k =? length l then k - 1 else k in
    straight_line (nth q l 0%R) (f q) (nth (S q) l 0%R) (f (S q)) (nth k l 0%R) = f k).
  { intros l f k I L Hk. cbv zeta. destruct (S k =? length l) eqn:E.
    - apply Nat.eqb_eq in E. replace (S (k - 1)) with k by lia. apply straight_line_right. apply I. lia.
    - apply straight_line_left. }
  pose proof (G xs (v (if S r =? length ys then r - 1 else r)) c Ix Lx Hc) as G1.
  pose proof (G xs (v (S (if S r =? length ys then r - 1 else r))) c Ix Lx Hc) as G2. cbv zeta in G1, G2. rewrite G1, G2.
  apply (G ys (fun q => v q c) r Iy Ly Hr).
Qed.
Lemma grid_node i ys xs w r c : axes ys xs -> shaped (length ys) (length xs) w -> r < length ys -> c < length xs ->
  grid i (points_of ys xs) (finite w) tt (Some (nth r ys 0%R)) (Some (nth c xs 0%R)) = Some (Some (at2 0%R w r c)).
Proof.
  intros Ha Sw Hr Hc. pose proof Ha as (Iy & Ix & Ly & Lx).
  rewrite (C90_bilinear i ys xs w (if S r =? length ys then r - 1 else r) (if S c =? length xs then c - 1 else c));
    try assumption; try (now apply node_in_cell); [now rewrite bilinear_node|right; split; now apply node_inside].
Qed.

(** interpolate at the tie points returns the data, whatever bounds_error and fill_value are *)
Theorem C90_tie_points : forall i ys xs w, axes ys xs -> shaped (length ys) (length xs) w ->
  (let* s := make_single (@rgi_valid _ RN) Grid i (points_of ys xs) (finite w) in
   interpolate_numpy (N := RN) (@rgi _ RN) s (points_of ys xs) tt) = Ok (map (map Some) w).
Proof.
  intros i ys xs w Ha Sw. pose proof Ha as (Iy & Ix & Ly & Lx). unfold make_single.
  assert (V : grid_ok i (points_of ys xs) (finite w) = true).
  { apply C90_accepted. split; [now left|]. split; [now left|]. now apply shaped_map. }
  rewrite V. cbn [bind]. unfold interpolate_numpy, points_of. cbn [s_kind s_init s_points s_values].
  pose proof Sw as [L F]. unfold eval_grid.
  apply (mapM_by_nth _ _ _ (Some 0%R) []); [rewrite !map_length; exact L|]. rewrite map_length. intros r Hr.
  assert (Lr : length (nth r w []) = length xs) by (rewrite Forall_forall in F; apply F, nth_In; lia).
  rewrite (nth_indep (map (map Some) w) [] (map Some [])) by (rewrite map_length; lia). rewrite (map_nth (map Some) w [] r).
  apply (mapM_by_nth _ _ _ (Some 0%R) None); [rewrite !map_length; exact Lr|]. rewrite map_length. intros c Hc.
  rewrite !map_nth. change (map Some ys, map Some xs) with (points_of ys xs). rewrite (grid_node i ys xs w r c Ha Sw Hr Hc).
  rewrite (nth_indep _ None (Some 0%R)) by (rewrite map_length; lia). now rewrite map_nth.
Qed.
Print Assumptions C90_tie_points.

(** between the values at the corners of the cell *)
Lemma straight_line_between p0 d0 p1 d1 x lo hi : (p0 < p1)%R -> (p0 <= x <= p1)%R -> (lo <= d0 <= hi)%R -> (lo <= d1 <= hi)%R ->
  (lo <= straight_line p0 d0 p1 d1 x <= hi)%R.
Proof.
  intros Hp Hx H0 H1. unfold straight_line. set (t := ((x - p0) / (p1 - p0))%R).
  replace (d0 + (d1 - d0) / (p1 - p0) * (x - p0))%R with (d0 * (1 - t) + d1 * t)%R by (unfold t; field; lra).
  assert (0 <= t <= 1)%R.
  { unfold t. split.
    - apply Rmult_le_pos; [lra|left; apply Rinv_0_lt_compat; lra].
    - apply Rmult_le_reg_r with (p1 - p0)%R; [lra|]. unfold Rdiv. rewrite Rmult_assoc, Rinv_l by lra. lra. }
  assert (lo * (1 - t) <= d0 * (1 - t) <= hi * (1 - t))%R by (split; apply Rmult_le_compat_r; lra).
  assert (lo * t <= d1 * t <= hi * t)%R by (split; apply Rmult_le_compat_r; lra). lra.
Qed.
Theorem C90_between : forall i ys xs w r c y x lo hi,
  axes ys xs -> shaped (length ys) (length xs) w -> S r < length ys -> S c < length xs ->
  (nth r ys 0 <= y <= nth (S r) ys 0)%R -> (nth c xs 0 <= x <= nth (S c) xs 0)%R ->
  (forall a b, a = r \/ a = S r -> b = c \/ b = S c -> (lo <= at2 0 w a b <= hi)%R) ->
  exists v, grid i (points_of ys xs) (finite w) tt (Some y) (Some x) = Some (Some v) /\ (lo <= v <= hi)%R.
Proof.
  intros i ys xs w r c y x lo hi Ha Sw Hr Hc Hy Hx Hb. eexists. split.
  - apply (C90_bilinear i ys xs w r c y x Ha Sw).
    + split; [exact Hr|]. split; right; lra.
    + split; [exact Hc|]. split; right; lra.
    + right. destruct Ha as (Iy & Ix & _ & _). split.
      * pose proof (node_inside ys r Iy ltac:(lia)). pose proof (node_inside ys (S r) Iy Hr). unfold inside in *. lra.
      * pose proof (node_inside xs c Ix ltac:(lia)). pose proof (node_inside xs (S c) Ix Hc). unfold inside in *. lra.
  - destruct Ha as (Iy & Ix & _ & _). unfold bilinear. cbv zeta.
    apply straight_line_between; [now apply step_pos|exact Hy| |];
      (apply straight_line_between; [now apply step_pos|exact Hx| |]; apply Hb; auto).
Qed.
Print Assumptions C90_between.

(** functions a + b y + c x + d y x are reproduced everywhere, also beyond the axes *)
Theorem C90_exact : forall i ys xs w (a b c d : R) y x,
  axes ys xs -> shaped (length ys) (length xs) w ->
  (forall r k, r < length ys -> k < length xs ->
     at2 0%R w r k = (a + b * nth r ys 0 + c * nth k xs 0 + d * nth r ys 0 * nth k xs 0)%R) ->
  extrapolates i \/ (inside ys y /\ inside xs x) ->
  grid i (points_of ys xs) (finite w) tt (Some y) (Some x) = Some (Some (a + b * y + c * x + d * y * x)%R).
Proof.
  intros i ys xs w a b c d y x Ha Sw Hw He. pose proof Ha as (Iy & Ix & Ly & Lx).
  destruct (C90_cells ys y Iy Ly) as (r & Hr). destruct (C90_cells xs x Ix Lx) as (k & Hk).
  rewrite (C90_bilinear i ys xs w r k y x Ha Sw Hr Hk He). f_equal. f_equal.
  destruct Hr as (Hr & _), Hk as (Hk & _). unfold bilinear. cbv zeta. rewrite !Hw by lia.
  pose proof (step_pos ys r Iy Hr). pose proof (step_pos xs k Ix Hk). unfold straight_line. field. lra.
Qed.
Print Assumptions C90_exact.

(** bounds_error: the whole call raises exactly when some target point is outside; fill_value otherwise *)
Lemma grid_outside i ys xs d y x : axes ys xs ->
  (grid i (points_of ys xs) d tt (Some y) (Some x) = None <-> bounds_error i = true /\ ~ (inside ys y /\ inside xs x)).
Proof.
  intros Ha. rewrite grid_RN by exact Ha. cbv zeta. rewrite <- !within_RN, <- andb_true_iff.
  destruct (bounds_error i), (within (map Some ys) (Some y) && within (map Some xs) (Some x)); cbn [andb negb];
    split; intuition (try discriminate; try congruence).
Qed.
Lemma mapM_ValueError {A B} (f : A -> res B) l : (forall a, In a l -> f a = Err ValueError \/ exists b, f a = Ok b) ->
  ((exists bs, mapM f l = Ok bs) /\ (forall a, In a l -> f a <> Err ValueError)) \/
  (mapM f l = Err ValueError /\ exists a, In a l /\ f a = Err ValueError).
Proof.
  induction l as [|a l IH]; intros H.
  - left. split; [now exists []|intros a []].
  - cbn [mapM]. destruct (H a (or_introl eq_refl)) as [E|(b & E)]; rewrite E; cbn [bind].
    + right. split; [reflexivity|]. exists a. split; [now left|exact E].
    + destruct IH as [((bs & Eb) & Hn)|(Ee & a' & Ha & Ea)]; [intros a' Ha; apply H; now right| |].
      * left. rewrite Eb. cbn [bind]. split; [eauto|]. intros a' [<-|Ha']; [rewrite E; discriminate|now apply Hn].
      * right. rewrite Ee. split; [reflexivity|]. exists a'. split; [now right|exact Ea].
Qed.
Theorem C90_bounds : forall i ys xs d fy fx, axes ys xs ->
  let s := {| s_kind := Grid; s_init := i; s_points := points_of ys xs; s_values := d |} in
  let out := exists y x, In y fy /\ In x fx /\ ~ (inside ys y /\ inside xs x) in
  (bounds_error i = true -> out -> interpolate_numpy (N := RN) (@rgi _ RN) s (points_of fy fx) tt = Err ValueError) /\
  (bounds_error i = false \/ ~ out -> exists m, interpolate_numpy (N := RN) (@rgi _ RN) s (points_of fy fx) tt = Ok m /\ shaped (length fy) (length fx) m).
Proof.
  intros i ys xs d fy fx Ha. cbv zeta. unfold interpolate_numpy, points_of at 1 3. cbn [s_kind s_init s_points s_values].
  set (g := fun y x => match grid i (points_of ys xs) d tt y x with Some a => Ok a | None => Err ValueError end).
  assert (Hg : forall y, In y (map Some fy) -> forall x, In x (map Some fx) -> g y x = Err ValueError \/ exists b, g y x = Ok b).
  { intros y _ x _. unfold g. destruct (grid _ _ _ _ _ _); eauto. }
  assert (Hrow : forall y, In y (map Some fy) -> mapM (g y) (map Some fx) = Err ValueError \/ exists b, mapM (g y) (map Some fx) = Ok b).
  { intros y Hy. destruct (mapM_ValueError (g y) (map Some fx) (Hg y Hy)) as [(H & _)|(H & _)]; auto. }
  unfold eval_grid. fold g.
  change (mapM (fun y => mapM (fun x => match grid i (points_of ys xs) d tt y x with Some a => Ok a | None => Err ValueError end) (map Some fx)) (map Some fy))
    with (mapM (fun y => mapM (g y) (map Some fx)) (map Some fy)).
  destruct (mapM_ValueError (fun y => mapM (g y) (map Some fx)) (map Some fy) Hrow) as [((m & Em) & Hn)|(Ee & y & Hy & Ey)].
  - split.
    + intros Hb (y & x & Hy & Hx & Ho). exfalso. apply (in_map Some) in Hy. apply (Hn _ Hy).
      destruct (mapM_ValueError (g (Some y)) (map Some fx) (Hg _ Hy)) as [(_ & Hx')|(H & _)]; [|exact H].
      exfalso. apply (Hx' (Some x)); [now apply in_map|]. unfold g.
      assert (E : grid i (points_of ys xs) d tt (Some y) (Some x) = None) by (apply grid_outside; auto). now rewrite E.
    + intros _. exists m. split; [exact Em|]. split; [now rewrite (mapM_length _ _ _ Em), map_length|].
      clear - Em. revert m Em. induction fy as [|y fy IH]; intros m Em; cbn [map mapM] in Em.
      * injection Em as <-. constructor.
      * apply bind_Ok in Em as (row & Er & Em). apply bind_Ok in Em as (m' & Em' & E). injection E as <-.
        constructor; [now rewrite (mapM_length _ _ _ Er), map_length|now apply IH].
  - split; [auto|]. intros Hb. exfalso.
    destruct (mapM_ValueError (g y) (map Some fx) (Hg y Hy)) as [((bs & E) & _)|(_ & x & Hx & Ex)]; [congruence|].
    apply in_map_iff in Hy as (y0 & <- & Hy0). apply in_map_iff in Hx as (x0 & <- & Hx0). unfold g in Ex.
    destruct (grid i (points_of ys xs) d tt (Some y0) (Some x0)) eqn:E; [discriminate|].
    apply grid_outside in E; [|exact Ha]. destruct E as [E1 E2]. destruct Hb as [Hb|Hb]; [congruence|].
    apply Hb. exists y0, x0. auto.
Qed.
Print Assumptions C90_bounds.
Theorem C90_fill : forall f ys xs w y x, axes ys xs -> ~ (inside ys y /\ inside xs x) ->
  grid {| bounds_error := false; fill_value := Some f |} (points_of ys xs) (floats w) tt (Some y) (Some x) = Some f.
Proof.
  intros f ys xs w y x Ha Ho. rewrite grid_RN by exact Ha. cbv zeta. cbn [bounds_error andb fill_value].
  destruct (_ && _) eqn:E; [|reflexivity]. exfalso. apply andb_true_iff in E as [E1 E2]. apply within_RN in E1, E2. auto.
Qed.
Print Assumptions C90_fill.

(** the hypotheses, and a run on rational numbers: inside, on a node, beyond the axes *)
Example C90_nonvacuous : axes [0; 2; 6]%R [1; 3]%R /\ shaped 3 2 [[1; 2]; [3; 4]; [5; 9]]%R /\ in_cell [0; 2; 6]%R 1 5%R /\ inside [0; 2; 6]%R 5%R.
Proof.
  split; [split; [|split]|].
  - intros i j H. cbn in H. assert (i = 0 /\ j = 1 \/ i = 0 /\ j = 2 \/ i = 1 /\ j = 2) as [[-> ->]|[[-> ->]|[-> ->]]] by lia; cbn; lra.
  - intros i j H. cbn in H. assert (i = 0 /\ j = 1) as [-> ->] by lia. cbn. lra.
  - cbn. lia.
  - split; [split; [reflexivity|repeat constructor]|]. unfold in_cell, inside. cbn. split; [split; [lia|split; right; lra]|lra].
Qed.
Definition q (n : Z) : option Q := Some (inject_Z n).
Definition run_q (i : grid_init (option Q)) (int : bool) (p : list (option Q) * list (option Q)) (w : list (list (option Q))) (fine : list (option Q) * list (option Q)) :=
  let* s := make_single (@rgi_valid _ QN) Grid i p {| v_int := int; v_data := w |} in interpolate_numpy (N := QN) (@rgi _ QN) s fine tt.
Example C90_case : run_q {| bounds_error := false; fill_value := None |} false ([q 0; q 2; q 6], [q 1; q 3])
    [[q 1; q 2]; [q 3; q 4]; [q 5; q 9]] ([q 5; q 6; q 8], [q 1; q 2; q 4]) =
  Ok [[Some (9 # 2)%Q; Some (49 # 8)%Q; Some (75 # 8)%Q]; [q 5; q 7; q 11]; [q 6; Some (35 # 4)%Q; Some (57 # 4)%Q]].
Proof. vm_compute. reflexivity. Qed.
Example C90_case_bounds : run_q {| bounds_error := true; fill_value := None |} false ([q 0; q 2; q 6], [q 1; q 3])
    [[q 1; q 2]; [q 3; q 4]; [q 5; q 9]] ([q 5; q 6; q 8], [q 1; q 2; q 3]) = Err ValueError.
Proof. vm_compute. reflexivity. Qed.

(** ** C92: tie points may be given in descending order *)
Lemma map_rev_rev {A} (l : list (list A)) : map (@rev A) (map (@rev A) l) = l.
Proof. rewrite map_map. rewrite <- (map_id l) at 2. apply map_ext. intros r. apply rev_involutive. Qed.

Theorem C92_rows : forall i ys xs d y x, axes ys xs ->
  grid i (points_of (rev ys) xs) {| v_int := v_int d; v_data := rev (v_data d) |} tt (Some y) (Some x) = grid i (points_of ys xs) d tt (Some y) (Some x) /\
  grid_ok i (points_of (rev ys) xs) {| v_int := v_int d; v_data := rev (v_data d) |} = grid_ok i (points_of ys xs) d.
Proof.
  intros i ys xs d y x (Iy & Ix & Ly & Lx). split.
  - unfold rgi, grid_point, grid_point_with, points_of. cbn [fst snd v_data v_int].
    rewrite !map_flip_up, !flip_down, !flip_up, !map_rev, !rev_involutive by assumption. reflexivity.
  - apply eq_true_iff_eq. rewrite !C90_accepted. cbn [v_data]. unfold shaped. rewrite !rev_length, rev_involutive.
    assert (F : forall n (l : list (list (option R))), Forall (fun r => length r = n) (rev l) <-> Forall (fun r => length r = n) l).
    { intros n l. rewrite !Forall_forall. split; intros H r Hr; apply H; [now apply in_rev in Hr|now apply in_rev]. }
    rewrite F. tauto.
Qed.
Print Assumptions C92_rows.
Theorem C92_columns : forall i ys xs d y x, axes ys xs ->
  grid i (points_of ys (rev xs)) {| v_int := v_int d; v_data := map (@rev _) (v_data d) |} tt (Some y) (Some x) = grid i (points_of ys xs) d tt (Some y) (Some x) /\
  grid_ok i (points_of ys (rev xs)) {| v_int := v_int d; v_data := map (@rev _) (v_data d) |} = grid_ok i (points_of ys xs) d.
Proof.
  intros i ys xs d y x (Iy & Ix & Ly & Lx). split.
  - unfold rgi, grid_point, grid_point_with, points_of. cbn [fst snd v_data v_int].
    rewrite (map_flip_down xs), (map_flip_up xs), !(flip_down xs), !(flip_up ys), !(flip_up xs), map_rev_rev, !map_rev, !rev_involutive by assumption. reflexivity.
  - apply eq_true_iff_eq. rewrite !C90_accepted. cbn [v_data]. unfold shaped. rewrite !rev_length, rev_involutive, map_length.
    assert (F : forall n (l : list (list (option R))), Forall (fun r => length r = n) (map (@rev _) l) <-> Forall (fun r => length r = n) l).
    { intros n l. rewrite Forall_map. split; apply Forall_impl; intros r; now rewrite rev_length. }
    rewrite F. tauto.
Qed.
Print Assumptions C92_columns.
Example C92_case : run_q {| bounds_error := false; fill_value := None |} false ([q 6; q 2; q 0], [q 3; q 1])
    [[q 9; q 5]; [q 4; q 3]; [q 2; q 1]] ([q 5; q 6; q 8], [q 1; q 2; q 4]) =
  Ok [[Some (9 # 2)%Q; Some (49 # 8)%Q; Some (75 # 8)%Q]; [q 5; q 7; q 11]; [q 6; Some (35 # 4)%Q; Some (57 # 4)%Q]].
Proof. vm_compute. reflexivity. Qed.

(** ** C93: integer tie values. The full statement would be: the result is an integer nearest to the
    interpolated value. It is false: astype truncates towards zero. *)
Definition ints (w : list (list Z)) : tie_values (option R) := {| v_int := true; v_data := map (map (fun z => Some (IZR z))) w |}.
Lemma ints_finite w : ints w = {| v_int := true; v_data := map (map Some) (map (map IZR) w) |}.
Proof. unfold ints. f_equal. rewrite map_map. apply map_ext. intros r. now rewrite map_map. Qed.
Lemma Rtrunc_bound x : (Rabs (x - IZR (Rtrunc x)) < 1)%R.
Proof.
  unfold Rtrunc. destruct (Rlt_dec x 0).
  - rewrite opp_IZR. pose proof (Rfloor_spec (- x)). apply Rabs_def1; lra.
  - pose proof (Rfloor_spec x). apply Rabs_def1; lra.
Qed.
Lemma Rtrunc_IZR z : Rtrunc (IZR z) = z.
Proof.
  unfold Rtrunc. destruct (Rlt_dec (IZR z) 0); [|apply Rfloor_IZR]. rewrite <- opp_IZR, Rfloor_IZR. lia.
Qed.

Theorem C93_truncated_partial : forall i ys xs w r c y x,
  axes ys xs -> shaped (length ys) (length xs) w -> in_cell ys r y -> in_cell xs c x ->
  extrapolates i \/ (inside ys y /\ inside xs x) ->
  let v := bilinear ys xs (at2 0%R (map (map IZR) w)) r c y x in
  (Rabs v < 2147483647)%R ->
  exists z, grid i (points_of ys xs) (ints w) tt (Some y) (Some x) = Some (Some (IZR z)) /\ (Rabs (v - IZR z) < 1)%R /\ (Rabs (IZR z) <= Rabs v)%R /\
    (forall n, v = IZR n -> z = n).
Proof.
  intros i ys xs w r c y x Ha Sw Hr Hc He v Hv. exists (Rtrunc v). split; [|split; [apply Rtrunc_bound|split]].
  - rewrite grid_RN by exact Ha. cbv zeta. rewrite ints_finite.
    assert (Sw' : shaped (length ys) (length xs) (map (map IZR) w)) by now apply shaped_map.
    rewrite (cell_value true ys xs _ r c y x Ha Sw' Hr Hc). fold v.
    assert (E : @astype _ RN true (Some v) = Some (IZR (Rtrunc v))).
    { unfold astype. cbn [nz ntrunc RN]. f_equal. f_equal. unfold to_int.
      pose proof (Rtrunc_bound v) as B. apply Rabs_def2 in B, Hv.
      assert (L : (int_min <= Rtrunc v <= int_max)%Z).
      { split; apply Z.lt_succ_r, lt_IZR; unfold Z.succ, int_min, int_max; rewrite plus_IZR; lra. }
      destruct (int_min <=? Rtrunc v)%Z eqn:E1, (Rtrunc v <=? int_max)%Z eqn:E2; try reflexivity;
        rewrite ?Z.leb_gt in *; lia. }
    destruct He as [[-> ->]|[Y X]]; [cbn [andb v_int]; now rewrite E|].
    apply within_RN in Y, X. rewrite Y, X. cbn [andb negb]. rewrite andb_false_r. destruct (fill_value i); cbn [v_int]; now rewrite E.
  - unfold Rtrunc. destruct (Rlt_dec v 0) as [L|L].
    + rewrite opp_IZR, Rabs_Ropp. pose proof (Rfloor_spec (- v)) as B.
      assert (0 <= Rfloor (- v))%Z by (apply Z.lt_succ_r, lt_IZR; unfold Z.succ; rewrite plus_IZR; lra).
      rewrite (Rabs_left v), Rabs_right by (try apply Rle_ge, (IZR_le 0); lra || lia). lra.
    + pose proof (Rfloor_spec v) as B. assert (0 <= Rfloor v)%Z by (apply Z.lt_succ_r, lt_IZR; unfold Z.succ; rewrite plus_IZR; lra).
      rewrite (Rabs_right v), Rabs_right by (try apply Rle_ge, (IZR_le 0); lra || lia). lra.
  - intros n ->. apply Rtrunc_IZR.
Qed.
Print Assumptions C93_truncated_partial.
(** 3/4 of the way from 0 to 1 the result is 0, although 1 is nearer *)
Theorem C93_refuted : exists i ys xs w y x, axes ys xs /\ shaped (length ys) (length xs) w /\ in_cell ys 0 y /\ in_cell xs 0 x /\
  extrapolates i /\
  let v := bilinear ys xs (at2 0%R (map (map IZR) w)) 0 0 y x in
  exists z n, grid i (points_of ys xs) (ints w) tt (Some y) (Some x) = Some (Some (IZR z)) /\ (Rabs (v - IZR n) < Rabs (v - IZR z))%R.
Proof.
  set (i := {| bounds_error := false; fill_value := None |} : grid_init (option R)).
  assert (I2 : increasing [0; 4]%R) by (intros a b H; cbn in H; assert (a = 0 /\ b = 1) as [-> ->] by lia; cbn; lra).
  assert (Ha : axes [0; 4]%R [0; 4]%R) by (repeat split; try exact I2; cbn; lia).
  assert (Sw : shaped 2 2 [[0; 1]; [0; 1]]%Z) by (split; [reflexivity|repeat constructor]).
  assert (Hc : forall t, (0 <= t <= 4)%R -> in_cell [0; 4]%R 0 t) by (intros t H; unfold in_cell; cbn; split; [lia|auto]).
  exists i, [0; 4]%R, [0; 4]%R, [[0; 1]; [0; 1]]%Z, 0%R, 3%R.
  split; [exact Ha|]. split; [exact Sw|]. split; [apply Hc; lra|]. split; [apply Hc; lra|]. split; [split; reflexivity|]. cbv zeta.
  assert (V : bilinear [0; 4]%R [0; 4]%R (at2 0%R (map (map IZR) [[0; 1]; [0; 1]]%Z)) 0 0 0 3 = (3 / 4)%R).
  { unfold bilinear, straight_line, at2. cbn. field. }
  destruct (C93_truncated_partial i [0; 4]%R [0; 4]%R [[0; 1]; [0; 1]]%Z 0 0 0 3 Ha Sw) as (z & E & B1 & B2 & _);
    [apply Hc; lra|apply Hc; lra|left; split; reflexivity|rewrite V; apply Rabs_def1; lra|].
  exists z, 1%Z. split; [exact E|]. rewrite V in *. apply Rabs_def2 in B1.
  rewrite (Rabs_right (3 / 4)) in B2 by lra.
  assert (z = 0)%Z as ->.
  { assert (z < 1)%Z by (apply lt_IZR; pose proof (Rle_abs (IZR z)); lra).
    assert (-1 < z)%Z by (apply lt_IZR; pose proof (Rle_abs (- IZR z)); rewrite Rabs_Ropp in *; lra). lia. }
  rewrite Rabs_left, Rabs_right by lra. lra.
Qed.
Print Assumptions C93_refuted.
Example C93_case : run_q {| bounds_error := false; fill_value := None |} true ([q 0; q 4], [q 0; q 4])
    [[q 0; q 1]; [q (-10); q 1]] ([q 0; q 3], [q 0; q 3]) = Ok [[q 0; q 0]; [q (-7); q (-1)]].
Proof. vm_compute. reflexivity. Qed.

(** ** C94: missing tie values. The full statement would be: a finite tie value is returned at its tie
    point whatever the other values are. It is false; proved: a pixel is missing exactly when a
    corner of its cell (lower edges included, upper ones excluded) is. *)
Definition own_cell (ys : list R) (r : nat) (y : R) : Prop :=
  S r < length ys /\ (r = 0 \/ (nth r ys 0 <= y)%R) /\ (S (S r) = length ys \/ (y < nth (S r) ys 0)%R).
Lemma own_cell_unique ys r r' y : increasing ys -> own_cell ys r y -> own_cell ys r' y -> r = r'.
Proof.
  assert (G : forall r r', increasing ys -> own_cell ys r y -> own_cell ys r' y -> ~ r < r').
  { intros a b H (A & B & C) (A' & B' & C') L. destruct C as [C|C]; [lia|]. destruct B' as [B'|B']; [lia|].
    destruct (Nat.eq_dec b (S a)) as [->|N]; [lra|]. pose proof (H (S a) b ltac:(lia)). lra. }
  intros H H1 H2. destruct (Nat.lt_trichotomy r r') as [L|[E|L]]; [destruct (G r r' H H1 H2 L)|exact E|destruct (G r' r H H2 H1 L)].
Qed.
Theorem C94_holes_partial : forall i ys xs w r c y x,
  axes ys xs -> shaped (length ys) (length xs) w -> own_cell ys r y -> own_cell xs c x ->
  extrapolates i \/ (inside ys y /\ inside xs x) ->
  (grid i (points_of ys xs) (floats w) tt (Some y) (Some x) = Some None <->
   at2 None w r c = None \/ at2 None w r (S c) = None \/ at2 None w (S r) c = None \/ at2 None w (S r) (S c) = None) /\
  grid i (points_of ys xs) (floats w) tt (Some y) (Some x) <> None.
Proof.
  intros i ys xs w r c y x Ha Sw Hr Hc He. pose proof Ha as (Iy & Ix & Ly & Lx).
  assert (Er : @locate _ RN (map Some ys) (Some y) = r) by (eapply own_cell_unique; [exact Iy|apply locate_spec; assumption|exact Hr]).
  assert (Ec : @locate _ RN (map Some xs) (Some x) = c) by (eapply own_cell_unique; [exact Ix|apply locate_spec; assumption|exact Hc]).
  assert (D : forall a b, a <= S r -> b <= S c -> nth b (nth a w []) (Some 0%R) = at2 None w a b).
  { intros a b A B. unfold at2. apply nth_indep. destruct Sw as [L F]. rewrite Forall_forall in F.
    destruct Hr as (Hr & _), Hc as (Hc & _). rewrite F by (apply nth_In; lia). lia. }
  rewrite grid_RN by exact Ha. cbv zeta. rewrite Er, Ec. cbn [floats v_data v_int].
  match goal with |- context [@linear_2d _ _ ?v _ _ (Some ?t) (Some ?u)] => pose proof (linear_2d_hole v r c t u) as H;
    set (value := @linear_2d _ RN v r c (Some t) (Some u)) in * end.
  cbv beta in H. rewrite !D in H by lia. clearbody value. unfold astype. cbn [nst RN].
  assert (G : forall b : bool, (if b && negb (@within _ RN (map Some ys) (Some y) && @within _ RN (map Some xs) (Some x)) then None else
    Some match fill_value i with Some f => if @within _ RN (map Some ys) (Some y) && @within _ RN (map Some xs) (Some x) then value else f | None => value end) = Some value \/
    (b = true /\ ~ (inside ys y /\ inside xs x)) \/ (fill_value i <> None /\ ~ (inside ys y /\ inside xs x))).
  { intros b. destruct (@within _ RN (map Some ys) (Some y) && @within _ RN (map Some xs) (Some x)) eqn:E.
    - left. cbn [negb]. rewrite andb_false_r. destruct (fill_value i); reflexivity.
    - assert (N : ~ (inside ys y /\ inside xs x)) by (rewrite <- !within_RN; intros [E1 E2]; rewrite E1, E2 in E; discriminate).
      destruct b; [right; left; auto|]. destruct (fill_value i); [right; right; split; [discriminate|exact N]|left; reflexivity]. }
  destruct (G (bounds_error i)) as [E|[[E N]|[E N]]]; [|destruct He as [[A B]|A]; [congruence|contradiction]..].
  rewrite E. split; [|discriminate]. rewrite <- H. split; congruence.
Qed.
Print Assumptions C94_holes_partial.
(** the tie point above or left of a missing one is missing in the result *)
Theorem C94_refuted : exists i ys xs w v, axes ys xs /\ shaped (length ys) (length xs) w /\ at2 None w 0 0 = Some v /\
  grid i (points_of ys xs) (floats w) tt (Some (nth 0 ys 0%R)) (Some (nth 0 xs 0%R)) = Some None.
Proof.
  set (i := {| bounds_error := true; fill_value := None |} : grid_init (option R)).
  assert (I2 : increasing [0; 4]%R) by (intros a b H; cbn in H; assert (a = 0 /\ b = 1) as [-> ->] by lia; cbn; lra).
  assert (Ha : axes [0; 4]%R [0; 4]%R) by (repeat split; try exact I2; cbn; lia).
  exists i, [0; 4]%R, [0; 4]%R, [[Some 1%R; None]; [Some 1%R; Some 1%R]], 1%R.
  assert (Sw : shaped 2 2 [[Some 1%R; None]; [Some 1%R; Some 1%R]]) by (split; [reflexivity|repeat constructor]).
  split; [exact Ha|]. split; [exact Sw|]. split; [reflexivity|].
  apply (C94_holes_partial i _ _ _ 0 0); [exact Ha|exact Sw|split; [cbn; lia|auto]|split; [cbn; lia|auto]| |right; left; reflexivity].
  right. split; apply node_inside; try exact I2; cbn; lia.
Qed.
Print Assumptions C94_refuted.
Example C94_case : run_q {| bounds_error := true; fill_value := None |} false ([q 0; q 4; q 8], [q 0; q 4; q 8])
    [[q 1; q 2; q 3]; [q 4; None; q 6]; [q 7; q 8; q 9]] ([q 0; q 4; q 8], [q 0; q 4; q 8]) =
  Ok [[None; None; None]; [None; None; None]; [None; None; None]].
Proof. vm_compute. reflexivity. Qed.

(** ** C91: GeoGridInterpolator *)
(** geointerpolator.py:52-59 on arrays with a dtype: the coordinates are floating-point numbers *)
Definition geo_conv (lons lats : tie_values (option R)) :=
  let '(x, y, z) := lonlat2xyz_arrays (v_data lons) (v_data lats) in (floats x, floats y, floats z).
(** the interpolator made from longitudes and latitudes, applied to target points *)
Definition geo_grid (i : grid_init (option R)) (ys xs : list R) (lons lats : list (list R)) (fy fx : list R) :=
  let* ss := make_geo (@rgi_valid _ RN) geo_conv Grid i (points_of ys xs) [ArrayArg (finite lons); ArrayArg (finite lats)] in
  geo_interpolate (N := RN) (@rgi _ RN) xyz2lonlat_elem ss (points_of fy fx) tt.
(** cartesian position of a tie point *)
Definition tie_xyz (lons lats : list (list R)) (r c : nat) : R * R * R := @lonlat2xyz R RT (at2 0%R lons r c) (at2 0%R lats r c).

Lemma at2_map2d {A B C} (f : A -> B -> C) n m a b da db dc r c : shaped n m a -> shaped n m b -> r < n -> c < m ->
  at2 dc (map2d f a b) r c = f (at2 da a r c) (at2 db b r c).
Proof.
  intros [L1 F1] [L2 F2] Hr Hc. unfold at2, map2d.
  rewrite (nth_indep _ [] ((fun r0 => map (fun p => f (fst p) (snd p)) (combine (fst r0) (snd r0))) ([], [])))
    by (rewrite map_length, combine_length; lia).
  rewrite (map_nth (fun r0 : list A * list B => map (fun p => f (fst p) (snd p)) (combine (fst r0) (snd r0)))).
  rewrite combine_nth by lia. cbn [fst snd].
  rewrite Forall_forall in F1, F2. pose proof (F1 (nth r a []) ltac:(apply nth_In; lia)) as G1. pose proof (F2 (nth r b []) ltac:(apply nth_In; lia)) as G2.
  rewrite (nth_indep _ dc ((fun p => f (fst p) (snd p)) (da, db))) by (rewrite map_length, combine_length; lia).
  rewrite (map_nth (fun p : A * B => f (fst p) (snd p))). rewrite combine_nth by lia. reflexivity.
Qed.

Lemma cartesian_real (f : option R * option R * option R -> option R) (g : R * R * R -> R) lons lats :
  (forall x y z, f (Some x, Some y, Some z) = Some (g (x, y, z))) ->
  map (map f) (map2d (@lonlat2xyz (option R) RN) (map (map Some) lons) (map (map Some) lats)) =
  map (map Some) (map2d (fun a b => g (@lonlat2xyz R RT a b)) lons lats).
Proof.
  intros Hf. unfold map2d. rewrite !map_map.
  revert lats. induction lons as [|a lons IH]; intros [|b lats]; try reflexivity. cbn [map combine]. f_equal; [|apply IH].
  cbn [fst snd]. rewrite !map_map. clear IH. revert b. induction a as [|u a IH]; intros [|v b]; try reflexivity. cbn [map combine]. f_equal; [|apply IH].
  cbn [fst snd]. unfold lonlat2xyz, EARTH_RADIUS. cbn [nz RN RT]. rewrite lonlat2xyz_RN.
  destruct (@lonlat2xyz_at R RT 6370997%R u v) as [[x y] z]. apply Hf.
Qed.

Lemma eval_finite i ys xs w fy fx : axes ys xs -> shaped (length ys) (length xs) w ->
  extrapolates i \/ (Forall (inside ys) fy /\ Forall (inside xs) fx) ->
  interpolate_numpy (N := RN) (@rgi _ RN) {| s_kind := Grid; s_init := i; s_points := points_of ys xs; s_values := finite w |} (points_of fy fx) tt =
  Ok (map (map (fun p => Some (bilinear ys xs (at2 0%R w) (@locate _ RN (map Some ys) (Some (fst p))) (@locate _ RN (map Some xs) (Some (snd p))) (fst p) (snd p))))
     (map (fun y => map (fun x => (y, x)) fx) fy)).
Proof.
  intros Ha Sw He. pose proof Ha as (Iy & Ix & Ly & Lx). change (points_of fy fx) with (map Some fy, map Some fx).
  unfold interpolate_numpy. cbn [s_kind s_init s_points s_values]. unfold eval_grid.
  rewrite map_map. induction fy as [|y fy IH]; [reflexivity|]. cbn [map mapM]. rewrite map_map.
  assert (E : forall fx', (forall x, In x fx' -> In x fx) ->
    mapM (fun x => match grid i (points_of ys xs) (finite w) tt (Some y) x with Some a => Ok a | None => Err ValueError end) (map Some fx') =
    Ok (map (fun x => Some (bilinear ys xs (at2 0%R w) (@locate _ RN (map Some ys) (Some y)) (@locate _ RN (map Some xs) (Some x)) y x)) fx')).
  { induction fx' as [|x fx' IHx]; intros Hin; [reflexivity|]. cbn [map mapM].
    rewrite (C90_bilinear i ys xs w (@locate _ RN (map Some ys) (Some y)) (@locate _ RN (map Some xs) (Some x)) y x Ha Sw);
      [|now apply located_in_cell|now apply located_in_cell|].
    - cbn [bind]. rewrite IHx by (intros x' Hx'; apply Hin; now right). reflexivity.
    - destruct He as [He|[H1 H2]]; [now left|right]. rewrite Forall_forall in H1, H2. split; [apply H1; now left|apply H2, Hin; now left]. }
  rewrite (E fx) by auto. cbn [bind fst snd]. rewrite IH; [reflexivity|].
  destruct He as [He|[H1 H2]]; [now left|right]. split; [now inversion H1|exact H2].
Qed.

Lemma shaped_grid {A B C} (f : A -> B -> C) fy fx : shaped (length fy) (length fx) (map (fun y => map (fun x => f y x) fx) fy).
Proof. split; [apply map_length|]. apply Forall_map, Forall_forall. intros y _. apply map_length. Qed.
Lemma at2_grid {A B C} (f : A -> B -> C) fy fx da db d m n : m < length fy -> n < length fx ->
  at2 d (map (fun y => map (fun x => f y x) fx) fy) m n = f (nth m fy da) (nth n fx db).
Proof.
  intros Hm Hn. unfold at2. rewrite (nth_indep _ [] (map (fun x => f da x) fx)) by (rewrite map_length; lia).
  rewrite (map_nth (fun y => map (fun x => f y x) fx)). rewrite (nth_indep _ d (f (nth m fy da) db)) by (rewrite map_length; lia).
  apply map_nth.
Qed.

(** every pixel: longitude and latitude of the bilinear cartesian position *)
Theorem C91_position : forall i ys xs lons lats fy fx,
  axes ys xs -> shaped (length ys) (length xs) lons -> shaped (length ys) (length xs) lats ->
  extrapolates i \/ (Forall (inside ys) fy /\ Forall (inside xs) fx) ->
  exists olon olat, geo_grid i ys xs lons lats fy fx = Ok (olon, olat) /\
    shaped (length fy) (length fx) olon /\ shaped (length fy) (length fx) olat /\
    forall m n r c, m < length fy -> n < length fx -> in_cell ys r (nth m fy 0%R) -> in_cell xs c (nth n fx 0%R) ->
      let along f := bilinear ys xs (fun a b => f (tie_xyz lons lats a b)) r c (nth m fy 0%R) (nth n fx 0%R) in
      (at2 None olon m n, at2 None olat m n) =
      @xyz2lonlat _ RN (Some (along (fun p => fst (fst p))), Some (along (fun p => snd (fst p))), Some (along snd)).
Proof.
  intros i ys xs lons lats fy fx Ha S1 S2 He. pose proof Ha as (Iy & Ix & Ly & Lx). unfold geo_grid, make_geo, to_xyz. cbn [bind].
  unfold geo_conv, lonlat2xyz_arrays. cbn [v_data finite floats].
  rewrite (cartesian_real (fun p => fst (fst p)) (fun p => fst (fst p))), (cartesian_real (fun p => snd (fst p)) (fun p => snd (fst p))),
    (cartesian_real snd snd) by reflexivity.
  set (W := fun g : R * R * R -> R => map2d (fun a b => g (@lonlat2xyz R RT a b)) lons lats).
  fold (W (fun p => fst (fst p))). fold (W (fun p => snd (fst p))). fold (W snd).
  assert (SW : forall g, shaped (length ys) (length xs) (W g)) by (intros g; now apply shaped_map2d).
  assert (AW : forall g r c, r < length ys -> c < length xs -> at2 0%R (W g) r c = g (tie_xyz lons lats r c)).
  { intros g r c Hr Hc. unfold W, tie_xyz.
    apply (at2_map2d (fun a b => g (@lonlat2xyz R RT a b)) (length ys) (length xs)); assumption. }
  assert (V : forall g, make_single (@rgi_valid _ RN) Grid i (points_of ys xs) (floats (map (map Some) (W g))) =
    Ok {| s_kind := Grid; s_init := i; s_points := points_of ys xs; s_values := finite (W g) |}).
  { intros g. unfold make_single. change (floats (map (map Some) (W g))) with (finite (W g)).
    assert (E : grid_ok i (points_of ys xs) (finite (W g)) = true); [|now rewrite E].
    apply C90_accepted. split; [now left|]. split; [now left|]. now apply shaped_map. }
  unfold make_multiple. cbn [mapM]. rewrite !V. cbn [bind].
  unfold geo_interpolate, interpolate_multiple. cbn [mapM]. rewrite !eval_finite by auto. cbn [bind to_lonlat].
  set (b := fun g (p : R * R) => bilinear ys xs (at2 0%R (W g)) (@locate _ RN (map Some ys) (Some (fst p))) (@locate _ RN (map Some xs) (Some (snd p))) (fst p) (snd p)).
  rewrite (zip3_components (fun p => (Some (b (fun q => fst (fst q)) p), Some (b (fun q => snd (fst q)) p), Some (b snd p)))).
  cbn [fst snd]. rewrite !map_map.
  eexists. eexists. split; [reflexivity|].
  rewrite !(map_ext (fun y => map _ (map (fun x : R => (y, x)) fx)) (fun y => map (fun x => _ (y, x)) fx) (fun y => map_map _ _ fx)).
  split; [apply shaped_grid|]. split; [apply shaped_grid|]. intros m n r c Hm Hn Hr Hc. cbv zeta.
  rewrite !(at2_grid _ fy fx 0%R 0%R) by assumption. unfold xyz2lonlat_elem.
  rewrite <- surjective_pairing.
  assert (B : forall g, b g (nth m fy 0%R, nth n fx 0%R) = bilinear ys xs (fun a b => g (tie_xyz lons lats a b)) r c (nth m fy 0%R) (nth n fx 0%R)).
  { intros g. unfold b. cbn [fst snd].
    rewrite (bilinear_cells ys xs _ _ r _ c _ _ Iy Ix (located_in_cell ys _ Iy Ly) Hr (located_in_cell xs _ Ix Lx) Hc).
    destruct Hr as (Hr & _), Hc as (Hc & _). unfold bilinear. cbv zeta. rewrite !AW by lia. reflexivity. }
  rewrite !B. reflexivity.
Qed.
Print Assumptions C91_position.

Lemma at2_ext {A} (d : A) n m a b : shaped n m a -> shaped n m b -> (forall r c, r < n -> c < m -> at2 d a r c = at2 d b r c) -> a = b.
Proof.
  intros [L1 F1] [L2 F2] H. apply (nth_ext _ _ [] []); [congruence|]. intros r Hr. rewrite Forall_forall in F1, F2.
  assert (G1 := F1 (nth r a []) ltac:(apply nth_In; lia)). assert (G2 := F2 (nth r b []) ltac:(apply nth_In; lia)).
  apply (nth_ext _ _ d d); [congruence|]. intros c Hc. apply (H r c); lia.
Qed.
Lemma all2_at {A} (P : A -> Prop) d n m a r c : all2 P a -> shaped n m a -> r < n -> c < m -> P (at2 d a r c).
Proof.
  intros H [L F] Hr Hc. unfold all2 in H. rewrite Forall_forall in H, F. specialize (H (nth r a []) ltac:(apply nth_In; lia)).
  specialize (F (nth r a []) ltac:(apply nth_In; lia)). rewrite Forall_forall in H. apply H, nth_In. lia.
Qed.

(** at the tie points: the tie points, without an assumption on the interpolator (compare C62) *)
Theorem C91_tie_points : forall i ys xs lons lats,
  axes ys xs -> shaped (length ys) (length xs) lons -> shaped (length ys) (length xs) lats ->
  all2 (fun v => -180 < v < 180)%R lons -> all2 (fun v => -90 < v < 90)%R lats ->
  geo_grid i ys xs lons lats ys xs = Ok (map (map Some) lons, map (map Some) lats).
Proof.
  intros i ys xs lons lats Ha S1 S2 B1 B2. pose proof Ha as (Iy & Ix & Ly & Lx).
  destruct (C91_position i ys xs lons lats ys xs Ha S1 S2) as (olon & olat & E & T1 & T2 & H).
  { right. split; apply Forall_forall; intros v Hv; apply (In_nth _ _ 0%R) in Hv as (k & Hk & <-); now apply node_inside. }
  rewrite E. clear E.
  assert (G : forall r c, r < length ys -> c < length xs -> (at2 None olon r c, at2 None olat r c) = (Some (at2 0%R lons r c), Some (at2 0%R lats r c))).
  { intros r c Hr Hc. rewrite (H r c _ _ Hr Hc (node_in_cell ys r Iy Ly Hr) (node_in_cell xs c Ix Lx Hc)).
    rewrite !bilinear_node by assumption.
    pose proof (all2_at _ 0%R _ _ _ r c B1 S1 Hr Hc) as L1. pose proof (all2_at _ 0%R _ _ _ r c B2 S2 Hr Hc) as L2. cbv beta in L1, L2.
    unfold tie_xyz, lonlat2xyz, xyz2lonlat, EARTH_RADIUS. cbn [nz RN RT].
    assert (E8 : @ndiv (option R) RN (Some 8%R) (Some 10%R) = Some (8 / 10)%R) by (cbn [ndiv RN]; apply RNdiv_some; lra).
    rewrite E8. pose proof (round_trip 6370997 (8 / 10) true (at2 0%R lons r c) (at2 0%R lats r c) ltac:(lra) L1 L2) as RT2.
    rewrite lonlat2xyz_RN in RT2. destruct (@lonlat2xyz_at R RT 6370997%R (at2 0%R lons r c) (at2 0%R lats r c)) as [[px py] pz]. exact RT2. }
  assert (At : forall w, shaped (length ys) (length xs) w -> forall r c, r < length ys -> c < length xs -> at2 None (map (map Some) w) r c = Some (at2 0%R w r c)).
  { intros w Sw r c Hr Hc. unfold at2. rewrite (nth_indep _ [] (map Some [])) by (rewrite map_length; destruct Sw; lia). rewrite map_nth.
    rewrite (nth_indep _ None (Some 0%R)); [apply map_nth|]. rewrite map_length. destruct Sw as [L F]. rewrite Forall_forall in F. rewrite F; [exact Hc|apply nth_In; lia]. }
  f_equal. f_equal; apply (at2_ext None (length ys) (length xs)); try assumption; try (now apply shaped_map);
    intros r c Hr Hc; rewrite At by assumption; pose proof (G r c Hr Hc) as G0; congruence.
Qed.
Print Assumptions C91_tie_points.
(** 3 x 2 tie points; the interpolator may extrapolate or not *)
Example C91_case : forall i, geo_grid i [0; 10; 20]%R [0; 5]%R [[-10; 0]; [-11; -1]; [-12; -2]]%R [[50; 51]; [40; 41]; [-30; 31]]%R [0; 10; 20]%R [0; 5]%R =
  Ok (map (map Some) [[-10; 0]; [-11; -1]; [-12; -2]]%R, map (map Some) [[50; 51]; [40; 41]; [-30; 31]]%R).
Proof.
  intros i. apply C91_tie_points; try (unfold all2; repeat constructor; lra); try (split; [reflexivity|repeat constructor]).
  repeat split; try (cbn; lia); intros a b H; destruct a as [|[|[|a]]]; destruct b as [|[|[|b]]]; cbn in *; try lia; lra.
Qed.
