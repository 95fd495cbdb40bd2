(** C158: interpolating in two steps. *)
From Coq Require Import ZArith List Lia Bool Reals Lra Arith.
From Verif Require Import Spec Base Num Geo GeoProofs Interp InterpProofs LegacyTie Chunks ChunksProofs PropsChunks PropsAnyOrder GridLinear PropsGridLinear PropsBilinear Cubic CubicProofs PropsCubic SplineGrid PropsSplineGrid.
Import ListNotations.
Open Scope R_scope.

(** ** Specification *)
(** an axis with all points of another one *)
Definition refines (my ys : list R) : Prop := increasing my /\ (forall a, In a ys -> In a my).

(** ** Proof *)
(** no point of the coarse axis inside a cell of the fine one *)
Lemma coarse_node my ys r a : refines my ys -> (S r < length my)%nat -> In a ys -> a <= nth r my 0 \/ nth (S r) my 0 <= a.
Proof.
  intros [I Sub] Hr Ha. apply Sub in Ha. apply (In_nth _ _ 0) in Ha as (k & Hk & <-). destruct (le_lt_dec k r) as [L|L].
  - left. destruct (Nat.eq_dec k r) as [->|N]; [lra|]. left. apply I. lia.
  - right. destruct (Nat.eq_dec k (S r)) as [->|N]; [lra|]. left. apply I. lia.
Qed.
Lemma coarse_cell my ys r' : refines my ys -> increasing ys -> (2 <= length ys)%nat -> (S r' < length my)%nat ->
  exists r, forall y, y = nth r' my 0 \/ y = nth (S r') my 0 \/ in_cell my r' y -> in_cell ys r y.
Proof.
  intros Rf I L Hr. pose proof Rf as [Im Sub]. set (m0 := nth r' my 0) in *. set (m1 := nth (S r') my 0) in *.
  assert (M : m0 < m1) by (apply Im; lia).
  destruct (C90_cells ys ((m0 + m1) / 2) I L) as (r & C). destruct C as (Hl & Lo & Hi). exists r.
  assert (N : forall k, (k < length ys)%nat -> nth k ys 0 <= m0 \/ m1 <= nth k ys 0) by (intros k Hk; apply (coarse_node my ys r'); auto; now apply nth_In).
  assert (Lo' : r = 0%nat \/ nth r ys 0 <= m0) by (destruct Lo as [Lo|Lo]; [now left|right]; destruct (N r ltac:(lia)); lra).
  assert (Hi' : S (S r) = length ys \/ m1 <= nth (S r) ys 0) by (destruct Hi as [Hi|Hi]; [now left|right]; destruct (N (S r) ltac:(lia)); lra).
  assert (First : r' = 0%nat -> r = 0%nat).
  { intros E. destruct Lo' as [|Lo']; [assumption|]. destruct r as [|r]; [reflexivity|exfalso].
    assert (nth 0 ys 0 < nth (S r) ys 0) by (apply I; lia).
    assert (J : In (nth 0 ys 0) my) by (apply Sub, nth_In; lia). apply (In_nth _ _ 0) in J as (k & Hk & Ek).
    assert (m0 <= nth k my 0) by (unfold m0; rewrite E; destruct k; [lra|left; apply Im; lia]). lra. }
  assert (Last : S (S r') = length my -> S (S r) = length ys).
  { intros E. destruct Hi' as [|Hi']; [assumption|]. destruct (Nat.eq_dec (S (S r)) (length ys)) as [|Ne]; [assumption|exfalso].
    assert (nth (S r) ys 0 < nth (S (S r)) ys 0) by (apply I; lia).
    assert (J : In (nth (S (S r)) ys 0) my) by (apply Sub, nth_In; lia). apply (In_nth _ _ 0) in J as (k & Hk & Ek).
    assert (nth k my 0 <= m1) by (unfold m1; destruct (Nat.eq_dec k (S r')) as [->|]; [lra|left; apply Im; lia]). lra. }
  intros y [->|[->|(_ & A & B)]]; (split; [exact Hl|]).
  - split; [destruct Lo'; [now left|right; lra]|destruct Hi'; [now left|right; lra]].
  - split; [destruct Lo'; [now left|right; lra]|destruct Hi'; [now left|right; lra]].
  - fold m0 m1 in A, B. split.
    + destruct A as [A|A]; [left; auto|]. destruct Lo'; [now left|right; lra].
    + destruct B as [B|B]; [left; auto|]. destruct Hi'; [now left|right; lra].
Qed.

Lemma line_of_lines p0 p1 a b u0 u1 y : u0 <> u1 -> straight_line u0 (straight_line p0 a p1 b u0) u1 (straight_line p0 a p1 b u1) y = straight_line p0 a p1 b y.
Proof. intros H. unfold straight_line. set (k := (b - a) / (p1 - p0)). clearbody k. field. lra. Qed.
Lemma line_swap p0 p1 a b c d q0 q1 y x :
  straight_line p0 (straight_line q0 a q1 b x) p1 (straight_line q0 c q1 d x) y = straight_line q0 (straight_line p0 a p1 c y) q1 (straight_line p0 b p1 d y) x.
Proof. unfold straight_line, Rdiv. ring. Qed.
Lemma bilinear_twice ys xs my mx v w r c r' c' y x :
  nth r' my 0 <> nth (S r') my 0 -> nth c' mx 0 <> nth (S c') mx 0 ->
  (forall a b, (a = r' \/ a = S r') -> (b = c' \/ b = S c') -> v a b = bilinear ys xs w r c (nth a my 0) (nth b mx 0)) ->
  bilinear my mx v r' c' y x = bilinear ys xs w r c y x.
Proof.
  intros Hy Hx H. unfold bilinear at 1. cbv zeta. rewrite !H by auto. unfold bilinear. cbv zeta.
  rewrite !(line_swap (nth r ys 0) (nth (S r) ys 0)). rewrite !line_of_lines by assumption. rewrite <- !(line_swap (nth r ys 0) (nth (S r) ys 0)).
  now rewrite line_of_lines.
Qed.

(** what a whole run returns *)
Definition run (i : grid_init (option R)) (ys xs : list R) (w : list (list R)) (fy fx : list R) : res (list (list (option R))) :=
  let* s := make_single (@rgi_valid _ RN) Grid i (points_of ys xs) (finite w) in
  interpolate_numpy (N := RN) (@rgi _ RN) s (points_of fy fx) tt.
Lemma run_values i ys xs w fy fx (g : R -> R -> R) : axes ys xs -> shaped (length ys) (length xs) w ->
  (forall y x, In y fy -> In x fx -> grid i (points_of ys xs) (finite w) tt (Some y) (Some x) = Some (Some (g y x))) ->
  run i ys xs w fy fx = Ok (map (map Some) (map (fun y => map (g y) fx) fy)).
Proof.
  intros Ha Sw H. unfold run, make_single.
  assert (V : grid_ok i (points_of ys xs) (finite w) = true) by (destruct Ha as (Iy & Ix & _); apply C90_accepted; split; [now left|]; split; [now left|]; now apply shaped_map).
  rewrite V. cbn [bind]. unfold interpolate_numpy, points_of at 1. cbn [s_kind s_init s_points s_values]. unfold eval_grid.
  rewrite mapM_map, map_map. apply mapM_Ok_map. intros y Hy. rewrite mapM_map, map_map. apply mapM_Ok_map. intros x Hx. now rewrite H.
Qed.
Lemma at2_table (g : R -> R -> R) my mx a b : (a < length my)%nat -> (b < length mx)%nat -> at2 0 (map (fun y => map (g y) mx) my) a b = g (nth a my 0) (nth b mx 0).
Proof.
  intros Ha Hb. unfold at2. rewrite (nth_indep _ [] (map (g 0) mx)) by (now rewrite map_length). rewrite (map_nth (fun y => map (g y) mx)).
  rewrite (nth_indep _ 0 (g (nth a my 0) 0)) by (now rewrite map_length). now rewrite map_nth.
Qed.

(** C158: first to the finer axes my, mx, then from there to fy, fx *)
Theorem C158_grid : forall i i' ys xs my mx w fy fx, axes ys xs -> shaped (length ys) (length xs) w -> refines my ys -> refines mx xs ->
  (extrapolates i /\ extrapolates i') \/ (Forall (inside ys) my /\ Forall (inside xs) mx /\ Forall (inside ys) fy /\ Forall (inside xs) fx) ->
  exists m out, run i ys xs w my mx = Ok (map (map Some) m) /\ shaped (length my) (length mx) m /\
    run i ys xs w fy fx = Ok out /\ run i' my mx m fy fx = Ok out.
Proof.
  intros i i' ys xs my mx w fy fx Ha Sw Ry Rx He. pose proof Ha as (Iy & Ix & Ly & Lx).
  set (g := fun y x => match grid i (points_of ys xs) (finite w) tt (Some y) (Some x) with Some (Some v) => v | _ => 0 end).
  assert (G : forall r c y x, in_cell ys r y -> in_cell xs c x -> extrapolates i \/ (inside ys y /\ inside xs x) ->
    grid i (points_of ys xs) (finite w) tt (Some y) (Some x) = Some (Some (g y x)) /\ g y x = bilinear ys xs (at2 0 w) r c y x).
  { intros r c y x Hr Hc E. unfold g. rewrite (C90_bilinear i ys xs w r c y x Ha Sw Hr Hc E). auto. }
  assert (G' : forall y x, extrapolates i \/ (inside ys y /\ inside xs x) -> grid i (points_of ys xs) (finite w) tt (Some y) (Some x) = Some (Some (g y x))).
  { intros y x E. destruct (C90_cells ys y Iy Ly) as (r & Hr). destruct (C90_cells xs x Ix Lx) as (c & Hc). exact (proj1 (G r c y x Hr Hc E)). }
  assert (Em : forall y x, In y my -> In x mx -> extrapolates i \/ (inside ys y /\ inside xs x)).
  { intros y x Hy Hx. destruct He as [[He _]|(A & B & _)]; [now left|right]. rewrite Forall_forall in A, B. auto. }
  assert (Ef : forall y x, In y fy -> In x fx -> extrapolates i \/ (inside ys y /\ inside xs x)).
  { intros y x Hy Hx. destruct He as [[He _]|(_ & _ & A & B)]; [now left|right]. rewrite Forall_forall in A, B. auto. }
  assert (Two : forall u us, increasing us -> (2 <= length us)%nat -> refines u us -> (2 <= length u)%nat).
  { intros u us Iu Lu [Iu' Su]. pose proof (Iu 0%nat 1%nat ltac:(lia)) as D.
    assert (A : In (nth 0 us 0) u) by (apply Su, nth_In; lia). assert (B : In (nth 1 us 0) u) by (apply Su, nth_In; lia).
    destruct u as [|a [|b u]]; cbn [length In] in *; try contradiction; [|lia]. destruct A as [A|[]], B as [B|[]]. lra. }
  assert (Am : axes my mx) by (split; [apply Ry|]; split; [apply Rx|]; split; [now apply (Two my ys)|now apply (Two mx xs)]). pose proof Am as (Imy & Imx & Lmy & Lmx).
  set (m := map (fun y => map (g y) mx) my).
  assert (Sm : shaped (length my) (length mx) m).
  { unfold m. split; [now rewrite map_length|]. apply Forall_forall. intros l Hl. apply in_map_iff in Hl as (y & <- & _). now rewrite map_length. }
  exists m, (map (map Some) (map (fun y => map (g y) fx) fy)).
  split; [apply run_values; auto|]. split; [exact Sm|]. split; [apply run_values; auto|]. apply run_values; auto.
  intros y x Hy Hx. destruct (C90_cells my y Imy Lmy) as (r' & Hr'). destruct (C90_cells mx x Imx Lmx) as (c' & Hc').
  destruct (coarse_cell my ys r' Ry Iy Ly ltac:(apply Hr')) as (r & Cr). destruct (coarse_cell mx xs c' Rx Ix Lx ltac:(apply Hc')) as (c & Cc).
  assert (Out : extrapolates i' \/ (inside my y /\ inside mx x)).
  { destruct He as [[_ He]|(_ & _ & A & B)]; [now left|right]. rewrite Forall_forall in A, B.
    assert (W : forall u us z, increasing us -> (2 <= length us)%nat -> refines u us -> inside us z -> inside u z).
    { intros u us z Iu Lu [Iu' Su] [Z1 Z2].
      assert (J1 : In (nth 0 us 0) u) by (apply Su, nth_In; lia). assert (J2 : In (nth (length us - 1) us 0) u) by (apply Su, nth_In; lia).
      apply (In_nth _ _ 0) in J1 as (k1 & K1 & E1). apply (In_nth _ _ 0) in J2 as (k2 & K2 & E2).
      assert (nth 0 u 0 <= nth k1 u 0) by (destruct k1; [lra|left; apply Iu'; lia]).
      assert (nth k2 u 0 <= nth (length u - 1) u 0) by (destruct (Nat.eq_dec k2 (length u - 1)) as [->|]; [lra|left; apply Iu'; lia]). split; lra. }
    split; [apply (W my ys); auto|apply (W mx xs); auto]. }
  rewrite (C90_bilinear i' my mx m r' c' y x Am Sm Hr' Hc' Out). do 2 f_equal.
  destruct Hr' as [Hr1 Hr2] eqn:Er. destruct Hc' as [Hc1 Hc2] eqn:Ec.
  rewrite (proj2 (G r c y x (Cr y (or_intror (or_intror (conj Hr1 Hr2)))) (Cc x (or_intror (or_intror (conj Hc1 Hc2)))) (Ef y x Hy Hx))).
  apply bilinear_twice.
  - apply Rlt_not_eq, Imy. lia.
  - apply Rlt_not_eq, Imx. lia.
  - intros a b Hra Hcb. unfold m. rewrite at2_table by lia.
    apply G; [apply Cr; destruct Hra as [->| ->]; auto|apply Cc; destruct Hcb as [->| ->]; auto|apply Em; apply nth_In; lia].
Qed.
Print Assumptions C158_grid.

(** ** Spline interpolators of degrees 1 and 3: a spline on the coarse axis is one on the fine axis *)
Lemma knots_refined (ks : list R) (ts : list (R * R)) lo n : (forall t w, In (t, w) ts -> exists k, (lo <= k < lo + n)%nat /\ nth k ks 0 = t) ->
  exists w', forall x, fold_right Rplus 0 (map (fun p => snd p * cube_from (fst p) x) ts) = fold_right Rplus 0 (map (fun j => w' j * cube_from (nth j ks 0) x) (seq lo n)).
Proof.
  induction ts as [|[t w] ts IH]; intros H.
  - exists (fun _ => 0). intros x. cbn. induction (seq lo n) as [|j l IHl]; [reflexivity|]. cbn [map fold_right]. rewrite <- IHl. ring.
  - destruct IH as (w' & IH); [intros t' v' J; apply (H t' v'); now right|]. destruct (H t w) as (k & Hk & Ek); [now left|].
    exists (fun j => (if (j =? k)%nat then w else 0) + w' j). intros x. cbn [map fold_right fst snd]. rewrite IH. clear IH H.
    assert (G : forall l, NoDup l -> fold_right Rplus 0 (map (fun j => ((if (j =? k)%nat then w else 0) + w' j) * cube_from (nth j ks 0) x) l) =
      (if in_dec Nat.eq_dec k l then w * cube_from t x else 0) + fold_right Rplus 0 (map (fun j => w' j * cube_from (nth j ks 0) x) l)).
    { induction l as [|j l IHl]; intros ND; [cbn; ring|]. inversion ND as [|? ? N1 N2]; subst. cbn [map fold_right]. rewrite (IHl N2).
      destruct (in_dec Nat.eq_dec k (j :: l)) as [J|J]; destruct (in_dec Nat.eq_dec k l) as [J'|J']; destruct (Nat.eqb_spec j k) as [->|N]; try (exfalso; tauto); try ring.
      - exfalso. destruct J as [J|J]; [now apply N|contradiction].
      - exfalso. apply J. now right.
      - exfalso. apply J. now left. }
    rewrite G by apply seq_NoDup. destruct (in_dec Nat.eq_dec k (seq lo n)) as [J|J]; [reflexivity|]. exfalso. apply J, in_seq. lia.
Qed.
Lemma refined_index my ys j : refines my ys -> increasing ys -> (2 <= j < 2 + (length ys - 4))%nat -> exists k, (2 <= k < 2 + (length my - 4))%nat /\ nth k my 0 = nth j ys 0.
Proof.
  intros [Im Sub] I Hj.
  assert (P : forall q, (q < length ys)%nat -> exists k, (k < length my)%nat /\ nth k my 0 = nth q ys 0) by (intros q Hq; apply In_nth, Sub, nth_In; exact Hq).
  assert (M : forall q q' k k', (q < q' < length ys)%nat -> (k < length my)%nat -> (k' < length my)%nat -> nth k my 0 = nth q ys 0 -> nth k' my 0 = nth q' ys 0 -> (k < k')%nat).
  { intros q q' k k' Hq Hk Hk' E E'. pose proof (I q q' Hq) as L. destruct (lt_eq_lt_dec k k') as [[?| ->]|N]; [assumption|lra|]. pose proof (Im k' k ltac:(lia)). lra. }
  destruct (P (j - 2)%nat ltac:(lia)) as (a & Ha & Ea). destruct (P (j - 1)%nat ltac:(lia)) as (b & Hb & Eb). destruct (P j ltac:(lia)) as (k & Hk & Ek).
  destruct (P (j + 1)%nat ltac:(lia)) as (c & Hc & Ec). destruct (P (j + 2)%nat ltac:(lia)) as (d & Hd & Ed).
  pose proof (M (j - 2) (j - 1) a b ltac:(lia) Ha Hb Ea Eb)%nat. pose proof (M (j - 1) j b k ltac:(lia) Hb Hk Eb Ek)%nat.
  pose proof (M j (j + 1) k c ltac:(lia) Hk Hc Ek Ec)%nat. pose proof (M (j + 1) (j + 2) c d ltac:(lia) Hc Hd Ec Ed)%nat.
  exists k. split; [lia|exact Ek].
Qed.
Lemma spline3_refined my ys s : refines my ys -> increasing ys -> spline3 ys s -> spline3 my s.
Proof.
  intros Rf I (a & b & c & d & w & E).
  destruct (knots_refined my (map (fun j => (nth j ys 0, w j)) (seq 2 (length ys - 4))) 2 (length my - 4)) as (w' & W).
  { intros t v J. apply in_map_iff in J as (j & [= <- <-] & Hj). apply in_seq in Hj. now apply refined_index. }
  exists a, b, c, d, w'. intros x. rewrite E, <- W, map_map. reflexivity.
Qed.
Lemma fit_refined k ys my vs ms s : refines my ys -> increasing ys -> (2 <= length ys)%nat -> fit k ys vs s -> through my ms s -> fit k my ms s.
Proof.
  intros Rf I L [_ F] T. split; [exact T|]. destruct F as [[-> F]|[-> F]]; [left; split; [reflexivity|now apply (spline3_refined my ys)]|right].
  split; [reflexivity|]. intros r' x C. destruct (coarse_cell my ys r' Rf I L (proj1 C)) as (r & Cr).
  rewrite <- (T r') by (destruct C; lia). rewrite <- (T (S r')) by apply C.
  rewrite (F r x) by (apply Cr; auto). rewrite (F r (nth r' my 0)), (F r (nth (S r') my 0)) by (apply Cr; auto). symmetry. apply line_of_lines.
  apply Rlt_not_eq, Rf. destruct C; lia.
Qed.
Lemma refined_ends my ys : refines my ys -> increasing ys -> (2 <= length ys)%nat -> Forall (inside ys) my ->
  (length ys <= length my)%nat /\ forall x, nearest my x = nearest ys x.
Proof.
  intros [Im Sub] I L In. rewrite Forall_forall in In.
  assert (Len : (length ys <= length my)%nat).
  { apply NoDup_incl_length; [|exact Sub]. apply (NoDup_nth ys 0). intros i j Hi Hj E. destruct (lt_eq_lt_dec i j) as [[H|H]|H]; [|exact H|]; [pose proof (I i j ltac:(lia))|pose proof (I j i ltac:(lia))]; lra. }
  split; [exact Len|]. unfold nearest.
  assert (J1 : List.In (nth 0 ys 0) my) by (apply Sub, nth_In; lia). assert (J2 : List.In (nth (length ys - 1) ys 0) my) by (apply Sub, nth_In; lia).
  apply (In_nth _ _ 0) in J1 as (k1 & K1 & E1). apply (In_nth _ _ 0) in J2 as (k2 & K2 & E2).
  assert (nth 0 my 0 <= nth k1 my 0) by (destruct k1; [lra|left; apply Im; lia]).
  assert (nth k2 my 0 <= nth (length my - 1) my 0) by (destruct (Nat.eq_dec k2 (length my - 1)) as [->|]; [lra|left; apply Im; lia]).
  pose proof (In (nth 0 my 0) ltac:(apply nth_In; lia)) as A. pose proof (In (nth (length my - 1) my 0) ltac:(apply nth_In; lia)) as B. unfold inside in A, B.
  replace (nth 0 my 0) with (nth 0 ys 0) by lra. replace (nth (length my - 1) my 0) with (nth (length ys - 1) ys 0) by lra. reflexivity.
Qed.
#[local] Existing Instance RT.
(** along one axis *)
Lemma axis_twice other k ys my vs x : enough k ys -> degree k -> refines my ys -> Forall (inside ys) my -> length vs = length ys ->
  @axis_spline R RT (spl2_with other) my (map (axis_spline (spl2_with other) ys vs k) my) k x = axis_spline (spl2_with other) ys vs k x.
Proof.
  intros E D Rf In Lv. pose proof E as [I L]. assert (L2 : (2 <= length ys)%nat) by (destruct D; subst k; lia).
  destruct (refined_ends my ys Rf I L2 In) as [Len N]. destruct (fit_exists k ys vs E D Lv) as (s & F).
  rewrite (axis_fit other k ys vs s x E Lv F), <- N.
  apply axis_fit; [split; [apply Rf|lia]|now rewrite map_length|]. apply (fit_refined k ys my vs _ s Rf I L2 F).
  intros i Hi. rewrite (nth_map' _ _ _ 0) by exact Hi. rewrite (axis_fit other k ys vs s _ E Lv F). f_equal.
  symmetry. apply (proj2 (proj2 (C96_constant_outside ys (nth i my 0) I L2))). rewrite Forall_forall in In. apply In, nth_In, Hi.
Qed.

(** first to the finer axes, then from there to any point *)
Theorem C158_spline : forall other i ys xs my mx w m y x, enough (deg_y i) ys -> enough (deg_x i) xs -> degree (deg_y i) -> degree (deg_x i) ->
  shaped (length ys) (length xs) w -> shaped (length my) (length mx) m -> refines my ys -> refines mx xs -> Forall (inside ys) my -> Forall (inside xs) mx ->
  (forall a b, (a < length my)%nat -> (b < length mx)%nat -> @rbs R RT other Spline i (ys, xs) (double_data w) tt (nth a my 0) (nth b mx 0) = Some (at2 0 m a b)) ->
  @rbs R RT other Spline i (my, mx) (double_data m) tt y x = @rbs R RT other Spline i (ys, xs) (double_data w) tt y x.
Proof.
  intros other i ys xs my mx w m y x Ey Ex Dy Dx Sw Sm Ry Rx Iny Inx H.
  set (A := fun vs z => @axis_spline R RT (spl2_with other) xs vs (deg_x i) z). set (B := fun vs z => @axis_spline R RT (spl2_with other) ys vs (deg_y i) z).
  pose proof Sw as [Lw Fw]. pose proof Sm as [Lm Fm]. rewrite Forall_forall in Fw, Fm.
  assert (Lx2 : (2 <= length xs)%nat) by (destruct Ex, Dx as [E|E]; rewrite E in *; lia).
  destruct (refined_ends mx xs Rx (proj1 Ex) Lx2 Inx) as [Lenx _].
  set (w1 := map (fun r => map (A r) mx) w). set (w1' := map (fun z => map (fun r => A r z) w) mx).
  assert (Emx : enough (deg_x i) mx) by (split; [apply Rx|destruct Ex; lia]).
  assert (S1 : shaped (length ys) (length mx) w1) by (split; [unfold w1; now rewrite map_length|apply Forall_forall; intros l Hl; apply in_map_iff in Hl as (r & <- & _); now rewrite map_length]).
  assert (S1' : shaped (length mx) (length ys) w1') by (split; [unfold w1'; now rewrite map_length|apply Forall_forall; intros l Hl; apply in_map_iff in Hl as (r & <- & _); now rewrite map_length]).
  assert (T : forall r c, (r < length ys)%nat -> (c < length mx)%nat -> at2 0 w1' c r = at2 0 w1 r c).
  { intros r c Hr Hc. unfold at2, w1, w1'. rewrite (nth_map' _ _ _ 0) by exact Hc. rewrite (nth_map' _ _ _ []) by lia. rewrite (nth_map' _ _ _ []) by lia. now rewrite (nth_map' _ _ _ 0). }
  (* one row of the finer table, at x *)
  assert (Row : forall a, (a < length my)%nat -> @axis_spline R RT (spl2_with other) mx (nth a m []) (deg_x i) x = B (map (fun r => A r x) w) (nth a my 0)).
  { intros a Ha.
    assert (Ra : nth a m [] = map (fun v => B v (nth a my 0)) w1').
    { apply (nth_ext _ _ 0 0); [rewrite map_length; unfold w1'; rewrite map_length; apply Fm, nth_In; lia|]. intros b Hb. assert (La : length (nth a m []) = length mx) by (apply Fm, nth_In; lia). rewrite La in Hb.
      specialize (H a b Ha Hb). unfold rbs, spline_point, double_data, astype in H. cbn [fst snd v_int v_data] in H. injection H as H.
      unfold at2 in H. rewrite <- H. rewrite (nth_map' _ _ _ []) by (unfold w1'; now rewrite map_length). unfold w1'. now rewrite (nth_map' _ _ _ 0). }
    pose proof (C103_transposed other i ys mx w1 w1' (nth a my 0) x Ey Emx Dy Dx S1 S1' T) as Q.
    unfold rbs, spline_point, double_data, astype in Q. cbn [fst snd v_int v_data deg_y deg_x] in Q. injection Q as Q.
    rewrite Ra. unfold B at 1. rewrite Q. unfold B. f_equal. unfold w1. rewrite map_map. apply map_ext_in. intros r Hr. unfold A at 1. apply axis_twice; auto. }
  unfold rbs, spline_point, double_data, astype. cbn [fst snd v_int v_data]. f_equal.
  assert (V : map (fun r => @axis_spline R RT (spl2_with other) mx r (deg_x i) x) m = map (B (map (fun r => A r x) w)) my).
  { apply (nth_ext _ _ 0 0); [rewrite !map_length; exact Lm|]. intros a Ha. rewrite map_length in Ha. rewrite (nth_map' _ _ _ []) by exact Ha. rewrite (nth_map' _ _ _ 0) by lia. apply Row. lia. }
  rewrite V. unfold B. rewrite axis_twice; auto. now rewrite map_length.
Qed.
Print Assumptions C158_spline.

Example C158_case : axes [0; 4] [0; 2] /\ shaped 2 2 [[1; 5]; [2; 7]] /\ refines [0; 1; 4] [0; 4] /\ refines [0; 1; 2] [0; 2] /\ Forall (inside [0; 4]) [0; 1; 4] /\ Forall (inside [0; 4]) [1 / 2; 3].
Proof.
  assert (I : forall a b, a < b -> increasing [a; b]) by (intros a b H i j L; cbn in L; assert (i = 0%nat /\ j = 1%nat) as [-> ->] by lia; exact H).
  assert (I3 : forall a b c, a < b -> b < c -> increasing [a; b; c]).
  { intros a b c H1 H2 i j L. cbn in L. destruct i as [|[|[|i]]]; destruct j as [|[|[|j]]]; cbn; try lia; lra. }
  split; [repeat split; try (apply I; lra); cbn; lia|]. split; [split; [reflexivity|repeat constructor]|].
  split; [split; [apply I3; lra|cbn; tauto]|]. split; [split; [apply I3; lra|cbn; tauto]|]. split; repeat constructor; cbn; lra.
Qed.
Lemma increasing_cons a b l : a < b -> increasing (b :: l) -> increasing (a :: b :: l).
Proof.
  intros H I i j L. destruct j as [|j]; [lia|]. assert (B : b <= nth j (b :: l) 0) by (destruct j; [cbn; lra|left; apply (I 0%nat (S j)); cbn [length] in *; lia]).
  destruct i as [|i]; [cbn [nth] in *; lra|]. apply (I i j). cbn [length] in *. lia.
Qed.
Example C158_spline_case : enough 3 [0; 1; 2; 4; 6] /\ refines [0; 1; 3 / 2; 2; 4; 5; 6] [0; 1; 2; 4; 6] /\ Forall (inside [0; 1; 2; 4; 6]) [0; 1; 3 / 2; 2; 4; 5; 6].
Proof.
  assert (One : increasing [6]) by (intros i j H; cbn in H; lia).
  split; [split; [repeat (apply increasing_cons; [lra|]); exact One|reflexivity]|]. split; [split; [repeat (apply increasing_cons; [lra|]); exact One|]|].
  - intros a [<-|[<-|[<-|[<-|[<-|[]]]]]]; [left|right; left|do 3 right; left|do 4 right; left|do 6 right; left]; reflexivity.
  - assert (N : forall z, 0 <= z <= 6 -> inside [0; 1; 2; 4; 6] z) by (intros z Hz; exact Hz). repeat (apply Forall_cons; [apply N; lra|]). apply Forall_nil.
Qed.
