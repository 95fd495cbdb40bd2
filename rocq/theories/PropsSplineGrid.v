(** C103 - C106: SingleSplineInterpolator, MultipleSplineInterpolator and GeoSplineInterpolator with splines of degrees 1 and 3. *)
From Coq Require Import ZArith QArith List Lia Bool Reals Lra Arith.
From Verif Require Import Spec Base Num Geo GeoProofs Interp PlProofs BorderProofs InterpProofs LegacyTie Chunks ChunksProofs PropsChunks PropsAnyOrder GridLinear PropsGridLinear PropsBilinear Cubic CubicProofs PropsCubic LegacyCubic SplineGrid.
Import ListNotations.
#[local] Existing Instance RT.
Open Scope R_scope.

(** ** Specification *)
(** the spline of degree k along one axis *)
Definition fit (k : Z) (ks vs : list R) (s : R -> R) : Prop :=
  through ks vs s /\
  ((k = 3%Z /\ spline3 ks s) \/
   (k = 1%Z /\ forall r x, in_cell ks r x -> s x = straight_line (nth r ks 0) (nth r vs 0) (nth (S r) ks 0) (nth (S r) vs 0) x)).
Definition degree (k : Z) : Prop := k = 1%Z \/ k = 3%Z.
Definition enough (k : Z) (ks : list R) : Prop := increasing ks /\ (k < Z.of_nat (length ks))%Z.

Definition double_data (w : list (list R)) : tie_values R := {| v_int := false; v_data := w |}.
Definition spline_object (i : spline_init) (ys xs : list R) (w : list (list R)) : single (list R * list R) (tie_values R) spline_init :=
  {| s_kind := Spline; s_init := i; s_points := (ys, xs); s_values := double_data w |}.

(** ** C103: the value of every pixel *)
Lemma fit_unique k ks vs s s' : enough k ks -> fit k ks vs s -> fit k ks vs s' -> forall x, s (nearest ks x) = s' (nearest ks x).
Proof.
  intros [I L] [T F] [T' F'] x. destruct F as [[-> F]|[-> F]]; destruct F' as [[E F']|[E F']]; try discriminate.
  - destruct (C99_spline ks vs I ltac:(lia)) as (_ & _ & U). now rewrite (U s F T), (U s' F' T').
  - pose proof (located_in_cell ks (nearest ks x) I ltac:(lia)) as C. now rewrite (F _ _ C), (F' _ _ C).
Qed.

Lemma axis_fit other k ks vs s x : enough k ks -> length vs = length ks -> fit k ks vs s ->
  axis_spline (spl2_with other) ks vs k x = s (nearest ks x).
Proof.
  intros [I L] Lv [Th [[-> F]|[-> F]]]; unfold axis_spline, spl2_with; cbn [Z.eqb Pos.eqb].
  - rewrite bispev_nearest by (auto; lia). symmetry. now apply (C99_spline ks vs I ltac:(lia)).
  - pose proof (located_in_cell ks (nearest ks x) I ltac:(lia)) as C. rewrite (F _ _ C). apply pl_line; auto. lia.
Qed.

Lemma fit_exists k ks vs : enough k ks -> degree k -> length vs = length ks -> exists s, fit k ks vs s.
Proof.
  intros [I L] [->| ->] Lv.
  - set (line := fun q x => straight_line (nth q ks 0) (nth q vs 0) (nth (S q) ks 0) (nth (S q) vs 0) x).
    exists (fun x => line (@GridLinear.locate _ RN (map Some ks) (Some x)) x).
    assert (G : forall r x, in_cell ks r x -> line (@GridLinear.locate _ RN (map Some ks) (Some x)) x = line r x).
    { intros r x Hr. pose proof (located_in_cell ks x I ltac:(lia)) as C. unfold line.
      apply (line_cells ks x _ _ (fun i => nth i vs 0) I C Hr). }
    split; [|right; split; [reflexivity|exact G]]. intros i Hi. rewrite (G _ _ (node_in_cell ks i I ltac:(lia) Hi)). unfold line.
    destruct (S i =? length ks)%nat eqn:E.
    + apply Nat.eqb_eq in E. replace (S (i - 1)) with i by lia. apply straight_line_right. apply I. lia.
    + apply straight_line_left.
  - exists (cubic_splev ks vs). destruct (C99_spline ks vs I ltac:(lia)) as (A & B & _). split; [exact B|left; auto].
Qed.

(** what the constructor accepts *)
Theorem C103_accepted : forall i ys xs w, @spline_valid R RT i (ys, xs) (double_data w) = true <->
  enough (deg_y i) ys /\ enough (deg_x i) xs /\ shaped (length ys) (length xs) w /\ (1 <= deg_y i <= 5)%Z /\ (1 <= deg_x i <= 5)%Z.
Proof.
  intros i ys xs w. unfold spline_valid, double_data, enough. cbn [fst snd v_data]. rewrite !andb_true_iff, !Z.leb_le, !Z.ltb_lt, Nat.eqb_eq, forallb_forall. split.
  - intros (((((A & B) & C) & D) & (((E1 & E2) & E3) & E4)) & (F & G)). apply strict_inc_increasing in A, B. repeat split; auto; try lia.
    apply Forall_forall. intros r Hr. symmetry. apply Nat.eqb_eq, D, Hr.
  - intros ((A & F) & (B & G) & (C & D) & E1 & E2). rewrite Forall_forall in D.
    repeat split; try lia; try (apply strict_inc_of; assumption). intros r Hr. apply Nat.eqb_eq. symmetry. now apply D.
Qed.
Print Assumptions C103_accepted.
(** the constructor: the object, or a ValueError, and nothing else *)
Theorem C103_constructor : forall i ys xs w, let accepted := enough (deg_y i) ys /\ enough (deg_x i) xs /\ shaped (length ys) (length xs) w /\ (1 <= deg_y i <= 5)%Z /\ (1 <= deg_x i <= 5)%Z in
  (accepted /\ make_single (@rbs_valid R RT) Spline i (ys, xs) (double_data w) = Ok (spline_object i ys xs w)) \/
  (~ accepted /\ make_single (@rbs_valid R RT) Spline i (ys, xs) (double_data w) = Err ValueError).
Proof.
  intros i ys xs w. cbv zeta. rewrite <- C103_accepted. unfold make_single, rbs_valid.
  destruct (spline_valid i (ys, xs) (double_data w)) eqn:E; [left|right]; split; auto; congruence.
Qed.
Print Assumptions C103_constructor.

(** every pixel: splines along the tie rows, then a spline across them, at the nearest point of the area of the tie points *)
Theorem C103_spline : forall other i ys xs w (s : nat -> R -> R) (S : R -> R -> R) y x,
  enough (deg_y i) ys -> enough (deg_x i) xs -> shaped (length ys) (length xs) w ->
  (forall r, (r < length ys)%nat -> fit (deg_x i) xs (nth r w []) (s r)) ->
  fit (deg_y i) ys (map (fun r => s r (nearest xs x)) (seq 0 (length ys))) (S (nearest xs x)) ->
  rbs other Spline i (ys, xs) (double_data w) tt y x = Some (S (nearest xs x) (nearest ys y)).
Proof.
  intros other i ys xs w s S y x Ey Ex [Lw Fw] Hs HS. rewrite Forall_forall in Fw. unfold rbs, spline_point, double_data, astype. cbn [fst snd v_int v_data nst RT]. f_equal.
  apply axis_fit; auto; [now rewrite map_length|].
  replace (map (fun r => axis_spline (spl2_with other) xs r (deg_x i) x) w) with (map (fun r => s r (nearest xs x)) (seq 0 (length ys))); [exact HS|].
  apply (nth_ext _ _ 0 0); [rewrite !map_length, seq_length; auto|]. intros r Hr. rewrite map_length, seq_length in Hr.
  rewrite (nth_map' _ _ _ 0%nat) by now rewrite seq_length. rewrite seq_nth by exact Hr. rewrite (nth_map' _ _ _ []) by lia. cbn [Nat.add].
  symmetry. apply axis_fit; auto. apply Fw, nth_In. lia.
Qed.
Print Assumptions C103_spline.

(** such splines exist *)
Theorem C103_exists : forall i ys xs w, enough (deg_y i) ys -> enough (deg_x i) xs -> degree (deg_y i) -> degree (deg_x i) ->
  shaped (length ys) (length xs) w ->
  exists (s : nat -> R -> R), (forall r, (r < length ys)%nat -> fit (deg_x i) xs (nth r w []) (s r)) /\
  forall x, exists S, fit (deg_y i) ys (map (fun r => s r x) (seq 0 (length ys))) S.
Proof.
  intros i ys xs w Ey Ex Dy Dx [Lw Fw]. rewrite Forall_forall in Fw.
  assert (E : forall r, exists s, (r < length ys)%nat -> fit (deg_x i) xs (nth r w []) s).
  { intros r. destruct (Nat.lt_ge_cases r (length ys)) as [H|H]; [|exists (fun x => x); lia].
    destruct (fit_exists (deg_x i) xs (nth r w []) Ex Dx) as (s & Hs); [apply Fw, nth_In; lia|]. exists s. auto. }
  assert (C : forall n, exists s : nat -> R -> R, forall r, (r < n)%nat -> (r < length ys)%nat -> fit (deg_x i) xs (nth r w []) (s r)).
  { induction n as [|n (s & IH)]; [exists (fun _ x => x); lia|]. destruct (E n) as (f & Hf).
    exists (fun r => if (r =? n)%nat then f else s r). intros r Hr H. destruct (Nat.eqb_spec r n) as [->|]; [auto|]. apply IH; lia. }
  destruct (C (length ys)) as (s & Hs). exists s. split; [auto|]. intros x. apply fit_exists; auto. now rewrite map_length, seq_length.
Qed.
Print Assumptions C103_exists.

(** ** Linearity *)
Lemma fit_lin k ks u v w a b s t : enough k ks -> length u = length ks -> length v = length ks -> length w = length ks ->
  (forall i, (i < length ks)%nat -> nth i w 0 = a * nth i u 0 + b * nth i v 0) ->
  fit k ks u s -> fit k ks v t -> fit k ks w (fun x => a * s x + b * t x).
Proof.
  intros [I L] Lu Lv Lw H [Ts Fs] [Tt Ft]. split.
  - intros i Hi. rewrite H, <- (Ts i Hi), <- (Tt i Hi) by exact Hi. reflexivity.
  - destruct Fs as [[-> Fs]|[-> Fs]]; destruct Ft as [[E Ft]|[E Ft]]; try discriminate.
    + left. split; [reflexivity|]. now apply spline3_lin.
    + right. split; [reflexivity|]. intros r x Hr. rewrite (Fs r x Hr), (Ft r x Hr). pose proof (proj1 Hr). pose proof (step_pos ks r I (proj1 Hr)).
      unfold straight_line. rewrite !H by lia. field. lra.
Qed.
Lemma axis_lin other k ks u v w a b x : enough k ks -> degree k -> length u = length ks -> length v = length ks -> length w = length ks ->
  (forall i, (i < length ks)%nat -> nth i w 0 = a * nth i u 0 + b * nth i v 0) ->
  axis_spline (spl2_with other) ks w k x = a * axis_spline (spl2_with other) ks u k x + b * axis_spline (spl2_with other) ks v k x.
Proof.
  intros E D Lu Lv Lw H. destruct (fit_exists k ks u E D Lu) as (s & Fs). destruct (fit_exists k ks v E D Lv) as (t & Ft).
  rewrite (axis_fit other k ks u s x E Lu Fs), (axis_fit other k ks v t x E Lv Ft).
  now rewrite (axis_fit other k ks w _ x E Lw (fit_lin k ks u v w a b s t E Lu Lv Lw H Fs Ft)).
Qed.

(** a linear functional of n numbers *)
Definition unit_list (n i : nat) : list R := map (fun j => if (j =? i)%nat then 1 else 0) (seq 0 n).
Lemma nth_seq_map (f : nat -> R) n i : (i < n)%nat -> nth i (map f (seq 0 n)) 0 = f i.
Proof. intros H. rewrite (nth_map' _ _ _ 0%nat) by now rewrite seq_length. now rewrite seq_nth. Qed.
Definition total (f : nat -> R) (n : nat) : R := fold_right Rplus 0 (map f (seq 0 n)).
Lemma total_S f n : total f (S n) = total f n + f n.
Proof.
  unfold total. rewrite seq_S, map_app, fold_right_app. cbn [map fold_right Nat.add]. rewrite Rplus_0_r.
  assert (G : forall l c, fold_right Rplus c l = fold_right Rplus 0 l + c) by (induction l as [|z l IH]; intros c; cbn [fold_right]; [ring|rewrite IH; ring]).
  apply G.
Qed.
Lemma linear_functional n (F : list R -> R) :
  (forall u v w a b, length u = n -> length v = n -> length w = n -> (forall i, (i < n)%nat -> nth i w 0 = a * nth i u 0 + b * nth i v 0) -> F w = a * F u + b * F v) ->
  forall vs, length vs = n -> F vs = total (fun i => nth i vs 0 * F (unit_list n i)) n.
Proof.
  intros H vs L. set (trunc := fun m => map (fun i => if (i <? m)%nat then nth i vs 0 else 0) (seq 0 n)).
  assert (LT : forall m, length (trunc m) = n) by (intros; unfold trunc; now rewrite map_length, seq_length).
  assert (LU : forall i, length (unit_list n i) = n) by (intros; unfold unit_list; now rewrite map_length, seq_length).
  assert (E : forall m, (m <= n)%nat -> F (trunc m) = total (fun i => nth i vs 0 * F (unit_list n i)) m).
  { induction m as [|m IH]; intros Hm.
    - rewrite (H (trunc 0%nat) (trunc 0%nat) (trunc 0%nat) 0 0) by (auto; intros i Hi; unfold trunc; rewrite nth_seq_map by exact Hi; cbn [Nat.ltb Nat.leb]; ring).
      cbn. ring.
    - rewrite total_S, <- IH by lia. rewrite (H (trunc m) (unit_list n m) (trunc (S m)) 1 (nth m vs 0)); auto; [ring|].
      intros i Hi. unfold trunc, unit_list. rewrite !nth_seq_map by exact Hi.
      destruct (Nat.ltb_spec i (S m)), (Nat.ltb_spec i m), (Nat.eqb_spec i m); try lia; subst; ring. }
  rewrite <- E by lia. f_equal. apply (nth_ext _ _ 0 0); [now rewrite LT|]. intros i Hi. unfold trunc. rewrite nth_seq_map by lia. destruct (Nat.ltb_spec i n); [reflexivity|lia].
Qed.
Lemma total_ext f g n : (forall i, (i < n)%nat -> f i = g i) -> total f n = total g n.
Proof. intros H. unfold total. f_equal. apply map_ext_in. intros i Hi. apply in_seq in Hi. apply H. lia. Qed.
Lemma total_scal f n c : total f n * c = total (fun i => f i * c) n.
Proof. induction n as [|n IH]; [cbn; ring|]. rewrite !total_S, <- IH. ring. Qed.
Lemma total_add f g n : total f n + total g n = total (fun i => f i + g i) n.
Proof. induction n as [|n IH]; [cbn; ring|]. rewrite !total_S, <- IH. ring. Qed.
Lemma total_swap (f : nat -> nat -> R) n m : total (fun i => total (f i) m) n = total (fun j => total (fun i => f i j) n) m.
Proof.
  induction n as [|n IH].
  - induction m as [|m IHm]; [reflexivity|]. rewrite total_S, <- IHm. cbn. ring.
  - rewrite total_S, IH, total_add. apply total_ext. intros j Hj. now rewrite total_S.
Qed.

(** rows and columns can be exchanged: the transposed tie values on exchanged axes give the same value at the exchanged point *)
Theorem C103_transposed : forall other i ys xs w w' y x,
  enough (deg_y i) ys -> enough (deg_x i) xs -> degree (deg_y i) -> degree (deg_x i) ->
  shaped (length ys) (length xs) w -> shaped (length xs) (length ys) w' ->
  (forall r c, (r < length ys)%nat -> (c < length xs)%nat -> at2 0 w' c r = at2 0 w r c) ->
  rbs other Spline {| deg_y := deg_x i; deg_x := deg_y i |} (xs, ys) (double_data w') tt x y = rbs other Spline i (ys, xs) (double_data w) tt y x.
Proof.
  intros other i ys xs w w' y x Ey Ex Dy Dx [Lw Fw] [Lw' Fw'] T. rewrite Forall_forall in Fw, Fw'.
  unfold rbs, spline_point, double_data, astype. cbn [fst snd v_int v_data nst RT deg_x deg_y]. f_equal.
  set (A := fun vs => axis_spline (spl2_with other) xs vs (deg_x i) x). set (B := fun vs => axis_spline (spl2_with other) ys vs (deg_y i) y).
  change (A (map B w') = B (map A w)).
  assert (EA : forall vs, length vs = length xs -> A vs = total (fun c => nth c vs 0 * A (unit_list (length xs) c)) (length xs)).
  { apply linear_functional. intros u v z a b L1 L2 L3 H. now apply axis_lin. }
  assert (EB : forall vs, length vs = length ys -> B vs = total (fun c => nth c vs 0 * B (unit_list (length ys) c)) (length ys)).
  { apply linear_functional. intros u v z a b L1 L2 L3 H. now apply axis_lin. }
  rewrite (EA (map B w')), (EB (map A w)) by now rewrite map_length.
  transitivity (total (fun c => total (fun r => at2 0 w r c * B (unit_list (length ys) r) * A (unit_list (length xs) c)) (length ys)) (length xs)).
  - apply total_ext. intros c Hc. rewrite (nth_map' _ _ _ []) by lia. rewrite EB by (apply Fw', nth_In; lia). rewrite total_scal. apply total_ext. intros r Hr.
    rewrite <- T by assumption. reflexivity.
  - rewrite total_swap. apply total_ext. intros r Hr. rewrite (nth_map' _ _ _ []) by lia. rewrite EA by (apply Fw, nth_In; lia). rewrite total_scal. apply total_ext. intros c Hc.
    unfold at2. ring.
Qed.
Print Assumptions C103_transposed.

(** tie points, for every degree and every evaluator of the other degrees that interpolates *)
Theorem C103_tie_points : forall other i ys xs w r c, interpolates other ->
  @spline_valid R RT i (ys, xs) (double_data w) = true -> (r < length ys)%nat -> (c < length xs)%nat ->
  rbs other Spline i (ys, xs) (double_data w) tt (nth r ys 0) (nth c xs 0) = Some (at2 0 w r c).
Proof.
  intros other i ys xs w r c Ho V Hr Hc. apply C103_accepted in V. destruct V as ((Iy & Ly) & (Ix & Lx) & (Lw & Fw) & Ky & Kx). rewrite Forall_forall in Fw.
  assert (A : forall ks vs k j, increasing ks -> (k < Z.of_nat (length ks))%Z -> (1 <= k <= 5)%Z -> length vs = length ks -> (j < length ks)%nat ->
     axis_spline (spl2_with other) ks vs k (nth j ks 0) = nth j vs 0).
  { intros ks vs k j I L K Lv Hj. destruct (Z.eq_dec k 1) as [->|N].
    - destruct (fit_exists 1 ks vs (conj I L) (or_introl eq_refl) Lv) as (s & Fs). rewrite (axis_fit other 1 ks vs s _ (conj I L) Lv Fs).
      rewrite (proj2 (proj2 (C96_constant_outside ks (nth j ks 0) I ltac:(lia)))) by (apply node_inside; assumption). now apply (proj1 Fs).
    - unfold axis_spline. destruct (Z.eqb_spec k 1); [lia|]. apply (proj2 (C99_interpolates other Ho)); auto; lia. }
  unfold rbs, spline_point, double_data, astype. cbn [fst snd v_int v_data nst RT]. f_equal.
  rewrite A by (auto; now rewrite map_length). rewrite (nth_map' _ _ _ []) by lia. apply A; auto. apply Fw, nth_In. lia.
Qed.
Print Assumptions C103_tie_points.

(** fields that are polynomials along both axes are reproduced *)
Theorem C103_polynomials : forall other i ys xs w F y x,
  enough (deg_y i) ys -> enough (deg_x i) xs -> shaped (length ys) (length xs) w ->
  sampled_field ys xs w F -> separately_polynomial (deg_y i) (deg_x i) F ->
  rbs other Spline i (ys, xs) (double_data w) tt y x = Some (F (nearest ys y) (nearest xs x)).
Proof.
  intros other i ys xs w F y x [Iy Ly] [Ix Lx] [Lw Fw] Sa [Py Px]. rewrite Forall_forall in Fw.
  unfold rbs, spline_point, double_data, astype. cbn [fst snd v_int v_data nst RT]. f_equal.
  apply (axis_polynomial other _ _ _ (fun y => F y (nearest xs x))); auto; [now rewrite map_length|].
  intros r Hr. rewrite (nth_map' _ _ _ []) by lia. apply (axis_polynomial other _ _ _ (F (nth r ys 0))); auto; [apply Fw, nth_In; lia|].
  intros c Hc. now apply Sa.
Qed.
Print Assumptions C103_polynomials.

(** integer tie values: the value is cut off towards zero *)
Lemma Rtrunc_abs v : Rabs (IZR (Rtrunc v)) <= Rabs v.
Proof.
  unfold Rtrunc. destruct (Rlt_dec v 0) as [L|L].
  - rewrite opp_IZR, Rabs_Ropp. pose proof (Rfloor_spec (- v)) as B.
    assert (0 <= Rfloor (- v))%Z by (apply Z.lt_succ_r, lt_IZR; unfold Z.succ; rewrite plus_IZR; lra).
    rewrite (Rabs_left v), Rabs_right by (try apply Rle_ge, (IZR_le 0); lra || lia). lra.
  - pose proof (Rfloor_spec v) as B. assert (0 <= Rfloor v)%Z by (apply Z.lt_succ_r, lt_IZR; unfold Z.succ; rewrite plus_IZR; lra).
    rewrite (Rabs_right v), Rabs_right by (try apply Rle_ge, (IZR_le 0); lra || lia). lra.
Qed.
Theorem C103_integers : forall other i ys xs (w : list (list Z)) y x v,
  rbs other Spline i (ys, xs) (double_data (map (map IZR) w)) tt y x = Some v -> Rabs v < 2147483647 ->
  exists z, rbs other Spline i (ys, xs) {| v_int := true; v_data := map (map IZR) w |} tt y x = Some (IZR z) /\
    Rabs (v - IZR z) < 1 /\ Rabs (IZR z) <= Rabs v /\ forall n, v = IZR n -> z = n.
Proof.
  intros other i ys xs w y x v E Hv. injection E as E. unfold spline_point, double_data, astype in E. cbn [fst snd v_int v_data nst RT] in E.
  exists (Rtrunc v). split; [|split; [apply Rtrunc_bound|split; [apply Rtrunc_abs|intros n ->; apply Rtrunc_IZR]]].
  unfold rbs, spline_point, astype. cbn [fst snd v_int v_data nz ntrunc RT]. rewrite E. f_equal. f_equal. unfold to_int.
  pose proof (Rtrunc_bound v) as B. apply Rabs_def2 in B, Hv.
  assert (L : (int_min <= Rtrunc v <= int_max)%Z).
  { split; apply Z.lt_succ_r, lt_IZR; unfold Z.succ, int_min, int_max; rewrite plus_IZR; lra. }
  destruct (int_min <=? Rtrunc v)%Z eqn:E1, (Rtrunc v <=? int_max)%Z eqn:E2; try reflexivity; rewrite ?Z.leb_gt in *; lia.
Qed.
Print Assumptions C103_integers.

(** a run of the whole class: y x^3 - y^2 + x at rows 0, 2, 3, 5 and columns 0, 1, 2, 4; four rows are needed; targets in descending order are refused *)
Example C103_case : let F := fun y x : Q => Qred (y * x * x * x - y * y + x)%Q in
  let grid (ys xs : list Q) := map (fun y => map (F y) xs) ys in
  let data ys xs := {| v_int := false; v_data := grid ys xs |} in
  let run ys xs hy hx := let* s := make_single (@rbs_valid Q QT) Spline default_degrees (ys, xs) (data ys xs) in
    interpolate_numpy (N := QT) (@rbs Q QT (fun _ _ _ _ => 0%Q)) s (hy, hx) tt in
  match run [0; 2; 3; 5]%Q [0; 1; 2; 4]%Q [0; 1; 4; 9]%Q [-1; 1 # 2; 3]%Q with
  | Ok o => map (map Qred) o = grid [0; 1; 4; 5]%Q [0; 1 # 2; 3]%Q
  | _ => False end /\
  run [0; 2; 3]%Q [0; 1; 2; 4]%Q [0]%Q [0]%Q = Err ValueError /\
  run [0; 2; 3; 5]%Q [0; 1; 2; 4]%Q [1; 0]%Q [0]%Q = Err ValueError.
Proof. vm_compute. auto. Qed.

(** ** C104: distance from the bilinear value *)
Definition evenly (h : R) (ks : list R) : Prop := 0 < h /\ forall i, (S i < length ks)%nat -> nth (S i) ks 0 - nth i ks 0 = h.
(** second differences of at most D *)
Definition second_differences (n : nat) (v : nat -> R) (D : R) : Prop := forall i, (S (S i) < n)%nat -> Rabs (v (S (S i)) - 2 * v (S i) + v i) <= D.
(** cells at an end of the axis and the others *)
Definition edge (n c : nat) : R := if ((c =? 0) || (S (S c) =? n))%nat then 9 / 8 else 3 / 8.

Lemma edge_pos n c : 0 < edge n c.
Proof. unfold edge. destruct (_ || _)%bool; lra. Qed.
Lemma evenly_increasing h ks : evenly h ks -> increasing ks.
Proof.
  intros [H E] i j Hij. destruct Hij as [Hij Hj]. induction Hij as [|j Hij IH].
  - specialize (E i Hj). lra.
  - specialize (IH ltac:(lia)). specialize (E j Hj). lra.
Qed.
Lemma spline_distance h ks vs D c x : evenly h ks -> (4 <= length ks)%nat -> 0 <= D -> second_differences (length ks) (fun i => nth i vs 0) D ->
  (S c < length ks)%nat -> nth c ks 0 <= x <= nth (S c) ks 0 ->
  Rabs (cubic_splev ks vs x - straight_line (nth c ks 0) (nth c vs 0) (nth (S c) ks 0) (nth (S c) vs 0) x) <= edge (length ks) c * D.
Proof.
  intros He L HD H Hc Hx. pose proof (evenly_increasing h ks He) as I. destruct He as [Hh E].
  assert (G : forall i, (S i < length ks)%nat -> gap ks i = h) by (intros; now apply E).
  assert (K : 0 <= D / h ^ 2) by (apply Rmult_le_pos; [exact HD|]; left; apply Rinv_0_lt_compat; now apply pow_lt).
  assert (Hb : bend ks vs (D / h ^ 2)).
  { intros i Hi. unfold steepness. rewrite !G by lia.
    replace ((nth (S (S i)) vs 0 - nth (S i) vs 0) / h - (nth (S i) vs 0 - nth i vs 0) / h) with ((nth (S (S i)) vs 0 - 2 * nth (S i) vs 0 + nth i vs 0) * / h) by (field; lra).
    replace (D / h ^ 2 * ((h + h) / 2)) with (D * / h) by (field; lra).
    rewrite Rabs_mult, (Rabs_right (/ h)) by (left; now apply Rinv_0_lt_compat). apply Rmult_le_compat_r; [left; now apply Rinv_0_lt_compat|]. now apply H. }
  eapply Rle_trans; [now apply (C101_lines ks vs (D / h ^ 2) c x)|]. rewrite G by exact Hc. unfold end_factor, edge.
  replace (3 / 8 * (D / h ^ 2) * h ^ 2) with (3 / 8 * D) by (field; lra).
  destruct (Nat.eqb_spec c 0) as [->|N0]; [cbn [orb]; rewrite !G by lia; right; field; lra|]. cbn [orb].
  destruct (Nat.eqb_spec c (length ks - 2)) as [E1|N1], (Nat.eqb_spec (S (S c)) (length ks)) as [E2|N2]; try lia.
  - rewrite !G by lia. right. field. lra.
  - lra.
Qed.

Lemma line_weights p0 p1 x : p0 < p1 -> p0 <= x <= p1 -> exists t, 0 <= t <= 1 /\ forall a b, straight_line p0 a p1 b x = (1 - t) * a + t * b.
Proof.
  intros H Hx. exists ((x - p0) / (p1 - p0)). split.
  - split; [apply Rmult_le_pos; [lra|left; apply Rinv_0_lt_compat; lra]|]. apply (Rmult_le_reg_r (p1 - p0)); [lra|]. replace ((x - p0) / (p1 - p0) * (p1 - p0)) with (x - p0) by (field; lra). lra.
  - intros a b. unfold straight_line. field. lra.
Qed.
Lemma Rabs_weights t a b E : 0 <= t <= 1 -> Rabs a <= E -> Rabs b <= E -> Rabs ((1 - t) * a + t * b) <= E.
Proof.
  intros Ht Ha Hb. eapply Rle_trans; [apply Rabs_triang|]. rewrite !Rabs_mult, (Rabs_right (1 - t)), (Rabs_right t) by lra.
  assert ((1 - t) * Rabs a <= (1 - t) * E) by (apply Rmult_le_compat_l; lra). assert (t * Rabs b <= t * E) by (apply Rmult_le_compat_l; lra). lra.
Qed.

Theorem C104_near : forall other hy hx ys xs w Dy Dx r c y x,
  evenly hy ys -> evenly hx xs -> (4 <= length ys)%nat -> (4 <= length xs)%nat -> shaped (length ys) (length xs) w ->
  (forall r, (r < length ys)%nat -> second_differences (length xs) (fun c => at2 0 w r c) Dx) ->
  (forall c, (c < length xs)%nat -> second_differences (length ys) (fun r => at2 0 w r c) Dy) ->
  (S r < length ys)%nat -> nth r ys 0 <= y <= nth (S r) ys 0 -> (S c < length xs)%nat -> nth c xs 0 <= x <= nth (S c) xs 0 ->
  exists v, rbs other Spline default_degrees (ys, xs) (double_data w) tt y x = Some v /\
    Rabs (v - bilinear ys xs (at2 0 w) r c y x)
      <= edge (length ys) r * Dy + edge (length xs) c * Dx + 4 * edge (length ys) r * edge (length xs) c * Dx.
Proof.
  intros other hy hx ys xs w Dy Dx r c y x Ey Ex Ly Lx [Lw Fw] HDx HDy Hr Hy Hc Hx. rewrite Forall_forall in Fw.
  pose proof (evenly_increasing _ _ Ey) as Iy. pose proof (evenly_increasing _ _ Ex) as Ix.
  assert (PDx : 0 <= Dx) by (eapply Rle_trans; [apply Rabs_pos|apply (HDx 0%nat ltac:(lia) 0%nat ltac:(lia))]).
  assert (PDy : 0 <= Dy) by (eapply Rle_trans; [apply Rabs_pos|apply (HDy 0%nat ltac:(lia) 0%nat ltac:(lia))]).
  assert (NI : forall ks z k, increasing ks -> (4 <= length ks)%nat -> (S k < length ks)%nat -> nth k ks 0 <= z <= nth (S k) ks 0 -> nearest ks z = z).
  { intros ks z k I L Hk Hz. apply (proj2 (proj2 (C96_constant_outside ks z I ltac:(lia)))). split.
    - destruct k; [lra|]. pose proof (I 0%nat (S k) ltac:(lia)). lra.
    - destruct (Nat.eq_dec (S k) (length ks - 1)) as [e|]; [rewrite <- e; lra|]. pose proof (I (S k) (length ks - 1)%nat ltac:(lia)). lra. }
  set (s := fun r => cubic_splev xs (nth r w [])). set (P := map (fun r => s r x) (seq 0 (length ys))).
  exists (cubic_splev ys P y). split.
  { pose proof (C103_spline other default_degrees ys xs w s (fun x => cubic_splev ys (map (fun r => s r x) (seq 0 (length ys)))) y x) as E. cbv beta in E.
    rewrite (NI xs x c), (NI ys y r) in E by auto. apply E; [split; [auto|cbn [deg_y default_degrees]; lia]|split; [auto|cbn [deg_x default_degrees]; lia]|split; [auto|now apply Forall_forall]| |].
    - intros q Hq. destruct (C99_spline xs (nth q w []) Ix ltac:(lia)) as (A & B & _). split; [exact B|left; auto].
    - destruct (C99_spline ys (map (fun r => s r x) (seq 0 (length ys))) Iy ltac:(lia)) as (A & B & _). split; [exact B|left; auto]. }
  set (a := edge (length ys) r). set (b := edge (length xs) c). set (e := b * Dx).
  pose proof (edge_pos (length ys) r) as Pa. fold a in Pa. pose proof (edge_pos (length xs) c) as Pb. fold b in Pb.
  assert (Pe : 0 <= e) by (apply Rmult_le_pos; lra).
  destruct (line_weights (nth c xs 0) (nth (S c) xs 0) x) as (t & Ht & Et); [apply Ix; lia|exact Hx|].
  destruct (line_weights (nth r ys 0) (nth (S r) ys 0) y) as (u & Hu & Eu); [apply Iy; lia|exact Hy|].
  set (l := fun q => (1 - t) * at2 0 w q c + t * at2 0 w q (S c)).
  assert (NP : forall q, (q < length ys)%nat -> nth q P 0 = s q x) by (intros q Hq; unfold P; now rewrite nth_seq_map).
  assert (Ne : forall q, (q < length ys)%nat -> Rabs (nth q P 0 - l q) <= e).
  { intros q Hq. rewrite NP by exact Hq. unfold l, at2. rewrite <- Et. apply (spline_distance hx); auto. intros i Hi. now apply (HDx q Hq i). }
  assert (Sl : second_differences (length ys) l Dy).
  { intros i Hi. unfold l.
    replace ((1 - t) * at2 0 w (S (S i)) c + t * at2 0 w (S (S i)) (S c) - 2 * ((1 - t) * at2 0 w (S i) c + t * at2 0 w (S i) (S c)) + ((1 - t) * at2 0 w i c + t * at2 0 w i (S c)))
      with ((1 - t) * (at2 0 w (S (S i)) c - 2 * at2 0 w (S i) c + at2 0 w i c) + t * (at2 0 w (S (S i)) (S c) - 2 * at2 0 w (S i) (S c) + at2 0 w i (S c))) by ring.
    apply Rabs_weights; [exact Ht|apply (HDy c ltac:(lia)); exact Hi|apply (HDy (S c) ltac:(lia)); exact Hi]. }
  assert (SP : second_differences (length ys) (fun i => nth i P 0) (Dy + 4 * e)).
  { intros i Hi. pose proof (Sl i Hi) as A. pose proof (Ne i ltac:(lia)) as A0. pose proof (Ne (S i) ltac:(lia)) as A1. pose proof (Ne (S (S i)) ltac:(lia)) as A2.
    apply Rabs_le_inv in A, A0, A1, A2. apply Rabs_le. lra. }
  pose proof (spline_distance hy ys P (Dy + 4 * e) r y Ey Ly ltac:(lra) SP Hr Hy) as M. fold a in M. rewrite Eu in M.
  assert (B : bilinear ys xs (at2 0 w) r c y x = (1 - u) * l r + u * l (S r)) by (unfold bilinear; rewrite Eu, !Et; reflexivity).
  rewrite B.
  pose proof (Rabs_weights u (nth r P 0 - l r) (nth (S r) P 0 - l (S r)) e Hu (Ne r ltac:(lia)) (Ne (S r) Hr)) as M2.
  replace (cubic_splev ys P y - ((1 - u) * l r + u * l (S r))) with ((cubic_splev ys P y - ((1 - u) * nth r P 0 + u * nth (S r) P 0)) + ((1 - u) * (nth r P 0 - l r) + u * (nth (S r) P 0 - l (S r)))) by ring.
  eapply Rle_trans; [apply Rabs_triang|]. apply (Rle_trans _ (a * (Dy + 4 * e) + e)); [apply Rplus_le_compat; [exact M|exact M2]|]. right. unfold e. ring.
Qed.
Print Assumptions C104_near.

(** inside the outermost cells: 3/8 Dy + 15/16 Dx *)
Corollary C104_inner : forall other hy hx ys xs w Dy Dx r c y x,
  evenly hy ys -> evenly hx xs -> shaped (length ys) (length xs) w ->
  (forall r, (r < length ys)%nat -> second_differences (length xs) (fun c => at2 0 w r c) Dx) ->
  (forall c, (c < length xs)%nat -> second_differences (length ys) (fun r => at2 0 w r c) Dy) ->
  (0 < r)%nat -> (S (S r) < length ys)%nat -> nth r ys 0 <= y <= nth (S r) ys 0 ->
  (0 < c)%nat -> (S (S c) < length xs)%nat -> nth c xs 0 <= x <= nth (S c) xs 0 ->
  exists v, rbs other Spline default_degrees (ys, xs) (double_data w) tt y x = Some v /\
    Rabs (v - bilinear ys xs (at2 0 w) r c y x) <= 3 / 8 * Dy + 15 / 16 * Dx.
Proof.
  intros other hy hx ys xs w Dy Dx r c y x Ey Ex Sw HDx HDy R0 Hr Hy C0 Hc Hx.
  destruct (C104_near other hy hx ys xs w Dy Dx r c y x Ey Ex ltac:(lia) ltac:(lia) Sw HDx HDy ltac:(lia) Hy ltac:(lia) Hx) as (v & E & B).
  exists v. split; [exact E|]. eapply Rle_trans; [exact B|]. unfold edge.
  destruct (Nat.eqb_spec r 0), (Nat.eqb_spec (S (S r)) (length ys)), (Nat.eqb_spec c 0), (Nat.eqb_spec (S (S c)) (length xs)); try lia. cbn [orb]. lra.
Qed.
Print Assumptions C104_inner.

(** not vacuous: a paraboloid, whose second differences are 2, and its spline between the bilinear value and the bound *)
Example C104_case : let w := map (fun y => map (fun x => y * y + x * x) [0; 1; 2; 3]) [0; 1; 2; 3] in
  evenly 1 [0; 1; 2; 3] /\ shaped 4 4 w /\
  (forall r, (r < 4)%nat -> second_differences 4 (fun c => at2 0 w r c) 2) /\ (forall c, (c < 4)%nat -> second_differences 4 (fun r => at2 0 w r c) 2) /\
  bilinear [0; 1; 2; 3] [0; 1; 2; 3] (at2 0 w) 1 1 (3 / 2) (3 / 2) = 5 /\
  forall other, rbs other Spline default_degrees ([0; 1; 2; 3], [0; 1; 2; 3]) (double_data w) tt (3 / 2) (3 / 2) = Some (9 / 2).
Proof.
  cbv zeta. set (w := map _ _). assert (Sw : shaped 4 4 w) by (split; [reflexivity|repeat constructor]).
  assert (Ev : evenly 1 [0; 1; 2; 3]). { split; [lra|]. cbn [length]. intros i Hi. destruct i as [|[|[|i]]]; cbn [nth]; [lra..|lia]. }
  split; [exact Ev|]. split; [exact Sw|].
  assert (Z : forall r c, (r < 4)%nat -> (c < 4)%nat -> at2 0 w r c = INR r * INR r + INR c * INR c).
  { intros r c Hr Hc. destruct r as [|[|[|[|r]]]]; try lia; destruct c as [|[|[|[|c]]]]; try lia; cbn; ring. }
  split; [|split].
  - intros r Hr i Hi. rewrite !Z, !S_INR by lia. apply Rabs_le. lra.
  - intros r Hr i Hi. rewrite !Z, !S_INR by lia. apply Rabs_le. lra.
  - split; [unfold bilinear, straight_line; cbn; field|]. intros other.
    assert (N : nearest [0; 1; 2; 3] (3 / 2) = 3 / 2). { apply (proj2 (proj2 (C96_constant_outside _ _ (evenly_increasing _ _ Ev) ltac:(cbn; lia)))). unfold inside. cbn. lra. }
    rewrite (C103_polynomials other default_degrees [0; 1; 2; 3] [0; 1; 2; 3] w (fun y x => y * y + x * x)).
    + rewrite N. f_equal. field.
    + split; [exact (evenly_increasing _ _ Ev)|cbn; lia].
    + split; [exact (evenly_increasing _ _ Ev)|cbn; lia].
    + exact Sw.
    + intros i j Hi Hj. cbn [length] in Hi, Hj. rewrite Z by assumption.
      destruct i as [|[|[|[|i]]]]; try lia; destruct j as [|[|[|[|j]]]]; try lia; cbn; ring.
    + split; [intros y|intros x]; right; (split; [reflexivity|]).
      * exists (y * y), 0, 1, 0. intros x. unfold cubic_of. ring.
      * exists (x * x), 0, 1, 0. intros y. unfold cubic_of. ring.
Qed.

(** ** C105: do the values stay between the smallest and the largest tie value? *)
Definition between (lo hi : R) (w : list (list R)) : Prop := all2 (fun v => lo <= v <= hi) w.
Definition stays_in_range (i : spline_init) : Prop := forall other ys xs w lo hi y x v,
  @spline_valid R RT i (ys, xs) (double_data w) = true -> between lo hi w ->
  rbs other Spline i (ys, xs) (double_data w) tt y x = Some v -> lo <= v <= hi.

(** not with the default degrees: tie values 0, 0, 1, 1 along every row are interpolated to -1/4 *)
Theorem C105_range_refuted : ~ stays_in_range default_degrees.
Proof.
  intros H. set (w := [[0; 0; 1; 1]; [0; 0; 1; 1]; [0; 0; 1; 1]; [0; 0; 1; 1]]).
  assert (Ev : evenly 1 [0; 1; 2; 3]). { split; [lra|]. cbn [length]. intros i Hi. destruct i as [|[|[|i]]]; cbn [nth]; [lra..|lia]. }
  assert (I := evenly_increasing _ _ Ev).
  assert (N : nearest [0; 1; 2; 3] (1 / 2) = 1 / 2). { apply (proj2 (proj2 (C96_constant_outside _ _ I ltac:(cbn; lia)))). unfold inside. cbn. lra. }
  assert (Sw : shaped 4 4 w) by (split; [reflexivity|repeat constructor]).
  assert (E : rbs (fun _ _ _ _ => 0) Spline default_degrees ([0; 1; 2; 3], [0; 1; 2; 3]) (double_data w) tt (1 / 2) (1 / 2) = Some (- (1 / 4))).
  { rewrite (C103_polynomials _ default_degrees [0; 1; 2; 3] [0; 1; 2; 3] w (fun y x => cubic_of 0 (-7 / 6) (3 / 2) (-1 / 3) x)).
    - rewrite N. f_equal. unfold cubic_of. field.
    - split; [exact I|cbn; lia].
    - split; [exact I|cbn; lia].
    - exact Sw.
    - intros i j Hi Hj. cbn [length] in Hi, Hj. unfold cubic_of.
      destruct i as [|[|[|[|i]]]]; try lia; destruct j as [|[|[|[|j]]]]; try lia; unfold w, at2; cbn [nth]; field.
    - split; [intros y|intros x]; right; (split; [reflexivity|]).
      + eexists _, _, _, _. intros x. reflexivity.
      + exists (cubic_of 0 (-7 / 6) (3 / 2) (-1 / 3) x), 0, 0, 0. intros y. unfold cubic_of. ring. }
  pose proof (H (fun _ _ _ _ => 0) [0; 1; 2; 3] [0; 1; 2; 3] w 0 1 (1 / 2) (1 / 2) (- (1 / 4))) as Q. clear H.
  assert (V : @spline_valid R RT default_degrees ([0; 1; 2; 3], [0; 1; 2; 3]) (double_data w) = true).
  { apply C103_accepted. unfold enough. cbn [deg_y deg_x default_degrees]. split; [split; [exact I|cbn [length]; lia]|]. split; [split; [exact I|cbn [length]; lia]|].
    split; [exact Sw|lia]. }
  assert (B : between 0 1 w) by (unfold between, all2, w; repeat (apply Forall_cons || apply Forall_nil); lra).
  specialize (Q V B E). lra.
Qed.
Print Assumptions C105_range_refuted.

(** with straight lines along both axes they do *)
Theorem C105_linear_partial : stays_in_range {| deg_y := 1; deg_x := 1 |}.
Proof.
  intros other ys xs w lo hi y x v V B E. apply C103_accepted in V. cbn [deg_y deg_x] in V. destruct V as (Ey & Ex & Sw & _ & _).
  assert (L : forall ks vs z, enough 1 ks -> length vs = length ks -> (forall i, (i < length ks)%nat -> lo <= nth i vs 0 <= hi) ->
    lo <= axis_spline (spl2_with other) ks vs 1 z <= hi).
  { intros ks vs z Ek Lv Hv. destruct (fit_exists 1 ks vs Ek (or_introl eq_refl) Lv) as (s & Fs). rewrite (axis_fit other 1 ks vs s z Ek Lv Fs).
    destruct Fs as [_ [[? _]|[_ Fs]]]; [discriminate|]. destruct Ek as [I Lk]. pose proof (located_in_cell ks (nearest ks z) I ltac:(lia)) as C. rewrite (Fs _ _ C).
    destruct C as (C0 & C1 & C2). set (q := GridLinear.locate _ _) in *. pose proof (nearest_inside ks z I ltac:(lia)) as [N1 N2].
    destruct (line_weights (nth q ks 0) (nth (S q) ks 0) (nearest ks z)) as (t & Ht & Et); [apply I; lia| |].
    - split; [destruct C1 as [C1|C1]; [rewrite C1; exact N1|exact C1]|]. destruct C2 as [C2|C2]; [|exact C2]. replace (S q) with (length ks - 1)%nat by lia. exact N2.
    - rewrite Et. pose proof (Hv q ltac:(lia)) as [V1 V2]. pose proof (Hv (S q) C0) as [V3 V4].
      assert (T1 := Rmult_le_compat_l t _ _ (proj1 Ht) V3). assert (T2 := Rmult_le_compat_l t _ _ (proj1 Ht) V4).
      assert (T3 := Rmult_le_compat_l (1 - t) _ _ ltac:(lra) V1). assert (T4 := Rmult_le_compat_l (1 - t) _ _ ltac:(lra) V2). lra. }
  injection E as <-. unfold spline_point, double_data, astype. cbn [fst snd v_int v_data nst RT deg_x deg_y].
  pose proof Sw as [Lw Fw]. apply L; [exact Ey|now rewrite map_length|]. intros i Hi. rewrite (nth_map' _ _ _ []) by lia. rewrite Forall_forall in Fw.
  apply L; [exact Ex|apply Fw, nth_In; lia|]. intros j Hj. apply (all2_at _ 0 _ _ w i j B Sw); assumption.
Qed.
Print Assumptions C105_linear_partial.

(** with the default degrees on evenly spaced tie points, the excess is at most 15 times the range of the values *)
Theorem C105_excess_partial : forall other hy hx ys xs w lo hi r c y x,
  evenly hy ys -> evenly hx xs -> (4 <= length ys)%nat -> (4 <= length xs)%nat -> shaped (length ys) (length xs) w -> between lo hi w ->
  (S r < length ys)%nat -> nth r ys 0 <= y <= nth (S r) ys 0 -> (S c < length xs)%nat -> nth c xs 0 <= x <= nth (S c) xs 0 ->
  exists v, rbs other Spline default_degrees (ys, xs) (double_data w) tt y x = Some v /\
    let e := 2 * (edge (length ys) r + edge (length xs) c + 4 * edge (length ys) r * edge (length xs) c) in
    lo - e * (hi - lo) <= v <= hi + e * (hi - lo) /\ e < 15.
Proof.
  intros other hy hx ys xs w lo hi r c y x Ey Ex Ly Lx Sw B Hr Hy Hc Hx.
  assert (V : forall r c, (r < length ys)%nat -> (c < length xs)%nat -> lo <= at2 0 w r c <= hi) by (intros r' c' H1 H2; apply (all2_at _ 0 _ _ w r' c' B Sw H1 H2)).
  destruct (C104_near other hy hx ys xs w (2 * (hi - lo)) (2 * (hi - lo)) r c y x Ey Ex Ly Lx Sw) as (v & E & D); auto.
  { intros r' H' i Hi. pose proof (V r' i H' ltac:(lia)). pose proof (V r' (S i) H' ltac:(lia)). pose proof (V r' (S (S i)) H' ltac:(lia)). apply Rabs_le. lra. }
  { intros r' H' i Hi. pose proof (V i r' ltac:(lia) H'). pose proof (V (S i) r' ltac:(lia) H'). pose proof (V (S (S i)) r' ltac:(lia) H'). apply Rabs_le. lra. }
  exists v. split; [exact E|]. cbv zeta. split.
  - assert (Bb : lo <= bilinear ys xs (at2 0 w) r c y x <= hi).
    { destruct (line_weights (nth c xs 0) (nth (S c) xs 0) x) as (t & Ht & Et); [apply (evenly_increasing _ _ Ex); lia|exact Hx|].
      destruct (line_weights (nth r ys 0) (nth (S r) ys 0) y) as (u & Hu & Eu); [apply (evenly_increasing _ _ Ey); lia|exact Hy|].
      assert (W : forall t a b, 0 <= t <= 1 -> lo <= a <= hi -> lo <= b <= hi -> lo <= (1 - t) * a + t * b <= hi).
      { intros t' a b T [A1 A2] [B1 B2]. assert (T1 := Rmult_le_compat_l t' _ _ (proj1 T) B1). assert (T2 := Rmult_le_compat_l t' _ _ (proj1 T) B2).
        assert (T3 := Rmult_le_compat_l (1 - t') _ _ ltac:(lra) A1). assert (T4 := Rmult_le_compat_l (1 - t') _ _ ltac:(lra) A2). lra. }
      unfold bilinear. rewrite Eu, !Et. apply W; [exact Hu| |]; (apply W; [exact Ht| |]); apply V; lia. }
    apply Rabs_le_inv in D.
    replace (2 * (edge (length ys) r + edge (length xs) c + 4 * edge (length ys) r * edge (length xs) c) * (hi - lo))
      with (edge (length ys) r * (2 * (hi - lo)) + edge (length xs) c * (2 * (hi - lo)) + 4 * edge (length ys) r * edge (length xs) c * (2 * (hi - lo))) by ring. lra.
  - unfold edge. destruct (_ || _)%bool, (_ || _)%bool; lra.
Qed.
Print Assumptions C105_excess_partial.

(** ** C106: GeoSplineInterpolator *)
(** [V] is the tensor product of splines through the numbers [f] at [y, x] *)
Definition tensor_value (i : spline_init) (ys xs : list R) (f : nat -> nat -> R) (y x V : R) : Prop :=
  exists (s : nat -> R -> R) (S : R -> R),
    (forall r, (r < length ys)%nat -> fit (deg_x i) xs (map (f r) (seq 0 (length xs))) (s r)) /\
    fit (deg_y i) ys (map (fun r => s r x) (seq 0 (length ys))) S /\ V = S y.

Definition conv_arrays (lons lats : tie_values R) : tie_values R * tie_values R * tie_values R :=
  let part g := double_data (map2d (fun a b => g (@lonlat2xyz R RT a b)) (v_data lons) (v_data lats)) in
  (part (fun p => fst (fst p)), part (fun p => snd (fst p)), part snd).
(** real positions; xyz2lonlat gives NaN where it divides by zero or leaves the domain of arccos and arcsin *)
Definition rbs_nan other k i p d kw y x : option (option R) := option_map Some (@rbs R RT other k i p d kw y x).
Definition geo_spline other (i : spline_init) (ys xs : list R) (lons lats : list (list R)) (fy fx : list R) :=
  let* ss := make_geo (@rbs_valid R RT) conv_arrays Spline i (ys, xs) [ArrayArg (double_data lons); ArrayArg (double_data lats)] in
  geo_interpolate (N := RT) (rbs_nan other) xyz2lonlat_elem ss (fy, fx) tt.

Lemma tensor_exists i ys xs f y x : enough (deg_y i) ys -> enough (deg_x i) xs -> degree (deg_y i) -> degree (deg_x i) ->
  exists V, tensor_value i ys xs f y x V.
Proof.
  intros Ey Ex Dy Dx. set (w := map (fun r => map (f r) (seq 0 (length xs))) (seq 0 (length ys))).
  assert (Sw : shaped (length ys) (length xs) w).
  { split; [unfold w; now rewrite map_length, seq_length|]. apply Forall_map, Forall_forall. intros r _. now rewrite map_length, seq_length. }
  destruct (C103_exists i ys xs w Ey Ex Dy Dx Sw) as (s & Hs & HS). destruct (HS x) as (S & FS). exists (S y), s, S. split; [|auto].
  intros r Hr. specialize (Hs r Hr). unfold w in Hs. rewrite (nth_map' _ _ _ 0%nat) in Hs by now rewrite seq_length. now rewrite seq_nth in Hs.
Qed.
Lemma tensor_unique other i ys xs w f y x V : enough (deg_y i) ys -> enough (deg_x i) xs -> shaped (length ys) (length xs) w ->
  (forall r c, (r < length ys)%nat -> (c < length xs)%nat -> at2 0 w r c = f r c) ->
  tensor_value i ys xs f (nearest ys y) (nearest xs x) V -> rbs other Spline i (ys, xs) (double_data w) tt y x = Some V.
Proof.
  intros Ey Ex Sw H (s & S & Hs & HS & ->). pose proof Sw as [Lw Fw]. rewrite Forall_forall in Fw.
  apply (C103_spline other i ys xs w s (fun _ => S) y x Ey Ex Sw); [|exact HS]. intros r Hr.
  replace (nth r w []) with (map (f r) (seq 0 (length xs))); [now apply Hs|].
  assert (Lr : length (nth r w []) = length xs) by (apply Fw, nth_In; lia).
  apply (nth_ext _ _ 0 0); rewrite map_length, seq_length; [auto|]. intros c Hc. rewrite nth_seq_map by exact Hc. symmetry. now apply H.
Qed.

Definition tie_position (lons lats : list (list R)) (r c : nat) : R * R * R := lonlat2xyz (at2 0 lons r c) (at2 0 lats r c).
Definition not_descending (l : list R) : Prop := forall i, (S i < length l)%nat -> nth i l 0 <= nth (S i) l 0.
Lemma sorted_le_iff l : @sorted_le R RT l = true <-> not_descending l.
Proof.
  unfold not_descending. induction l as [|a l IH]; [split; [cbn; lia|reflexivity]|]. destruct l as [|b l]; [split; [cbn; lia|reflexivity]|].
  change (sorted_le (a :: b :: l)) with (nleb a b && sorted_le (b :: l))%bool. rewrite andb_true_iff, IH. cbn [nleb RT]. unfold Rleb. split.
  - intros [H1 H2] i Hi. destruct i; [cbn [nth]; destruct (Rle_dec a b); [assumption|discriminate]|]. apply (H2 i). cbn [length] in *. lia.
  - intros H. split; [|intros i Hi; apply (H (S i)); cbn [length] in *; lia]. specialize (H 0%nat ltac:(cbn; lia)). cbn [nth] in H. destruct (Rle_dec a b); [reflexivity|contradiction].
Qed.

Lemma spline_eval_grid other i ys xs w fy fx (val : R -> R -> R) :
  (forall y x, rbs other Spline i (ys, xs) (double_data w) tt y x = Some (val y x)) -> not_descending fy -> not_descending fx ->
  interpolate_numpy (N := RT) (rbs_nan other) (spline_object i ys xs w) (fy, fx) tt = Ok (map (fun y => map (fun x => Some (val y x)) fx) fy).
Proof.
  intros H Sy Sx. unfold interpolate_numpy, spline_object. cbn [s_kind s_init s_points s_values]. apply sorted_le_iff in Sy, Sx. rewrite Sy, Sx. cbn [andb negb].
  rewrite andb_false_r. unfold eval_grid. clear Sy Sx. induction fy as [|y fy IH]; [reflexivity|]. cbn [mapM map].
  assert (E : mapM (fun x => match rbs_nan other Spline i (ys, xs) (double_data w) tt y x with Some a => Ok a | None => Err ValueError end) fx = Ok (map (fun x => Some (val y x)) fx)).
  { clear IH. induction fx as [|x fx IHx]; [reflexivity|]. cbn [mapM map]. unfold rbs_nan at 1. rewrite H. cbn [option_map bind]. now rewrite IHx. }
  rewrite E. cbn [bind]. now rewrite IH.
Qed.

Lemma geo_values other i ys xs lons lats fy fx :
  enough (deg_y i) ys -> enough (deg_x i) xs -> (1 <= deg_y i <= 5)%Z -> (1 <= deg_x i <= 5)%Z ->
  shaped (length ys) (length xs) lons -> shaped (length ys) (length xs) lats -> not_descending fy -> not_descending fx ->
  exists olon olat, geo_spline other i ys xs lons lats fy fx = Ok (olon, olat) /\
    shaped (length fy) (length fx) olon /\ shaped (length fy) (length fx) olat /\
    exists W : (R * R * R -> R) -> list (list R),
      (forall g, shaped (length ys) (length xs) (W g)) /\
      (forall g r c, (r < length ys)%nat -> (c < length xs)%nat -> at2 0 (W g) r c = g (tie_position lons lats r c)) /\
      forall m n px py pz, (m < length fy)%nat -> (n < length fx)%nat ->
        let here g v := rbs other Spline i (ys, xs) (double_data (W g)) tt (nth m fy 0) (nth n fx 0) = Some v in
        here (fun p => fst (fst p)) px -> here (fun p => snd (fst p)) py -> here snd pz ->
        (at2 None olon m n, at2 None olat m n) = @xyz2lonlat _ RN (Some px, Some py, Some pz).
Proof.
  intros Ey Ex Dy Dx S1 S2 Sy Sx.
  set (W := fun g : R * R * R -> R => map2d (fun a b => g (@lonlat2xyz R RT a b)) lons lats).
  assert (SW : forall g, shaped (length ys) (length xs) (W g)) by (intros g; now apply shaped_map2d).
  assert (AW : forall g r c, (r < length ys)%nat -> (c < length xs)%nat -> at2 0 (W g) r c = g (tie_position lons lats r c)).
  { intros g r c Hr Hc. unfold W, tie_position. apply (at2_map2d (fun a b => g (@lonlat2xyz R RT a b)) (length ys) (length xs)); assumption. }
  assert (V : forall g, make_single (@rbs_valid R RT) Spline i (ys, xs) (double_data (W g)) = Ok (spline_object i ys xs (W g))).
  { intros g. unfold make_single, rbs_valid. assert (E : spline_valid i (ys, xs) (double_data (W g)) = true); [|now rewrite E].
    apply C103_accepted. auto. }
  set (val := fun g y x => match rbs other Spline i (ys, xs) (double_data (W g)) tt y x with Some v => v | None => 0 end).
  assert (EV : forall g y x, rbs other Spline i (ys, xs) (double_data (W g)) tt y x = Some (val g y x)) by reflexivity.
  unfold geo_spline, make_geo, to_xyz. cbn [bind]. unfold conv_arrays. cbn [v_data double_data].
  fold (W (fun p => fst (fst p))). fold (W (fun p => snd (fst p))). fold (W snd).
  unfold make_multiple. cbn [mapM]. rewrite !V. cbn [bind]. unfold geo_interpolate, interpolate_multiple. cbn [mapM].
  rewrite (spline_eval_grid other i ys xs _ fy fx (val (fun p => fst (fst p)))) by auto.
  rewrite (spline_eval_grid other i ys xs _ fy fx (val (fun p => snd (fst p)))) by auto.
  rewrite (spline_eval_grid other i ys xs _ fy fx (val snd)) by auto. cbn [bind to_lonlat].
  set (b := fun g (p : R * R) => val g (fst p) (snd p)).
  pose proof (zip3_components (fun p => (Some (b (fun q => fst (fst q)) p), Some (b (fun q => snd (fst q)) p), Some (b snd p))) xyz2lonlat_elem (map (fun y => map (fun x => (y, x)) fx) fy)) as Z.
  cbn [fst snd] in Z. rewrite !map_map in Z.
  assert (MM : forall (B : Type) (f : R * R -> B), map (fun y => map f (map (fun x : R => (y, x)) fx)) fy = map (fun y => map (fun x => f (y, x)) fx) fy).
  { intros B f. apply map_ext. intros y. apply map_map. }
  rewrite !MM in Z. unfold b in Z. cbn [fst snd] in Z. rewrite Z. eexists. eexists. split; [reflexivity|].
  split; [apply shaped_grid|]. split; [apply shaped_grid|]. exists W. split; [exact SW|]. split; [exact AW|].
  intros m n px py pz Hm Hn. cbv zeta. intros Tx Ty Tz.
  rewrite !(at2_grid _ fy fx 0 0) by assumption. unfold xyz2lonlat_elem. rewrite <- surjective_pairing.
  rewrite EV in Tx, Ty, Tz. injection Tx as ->. injection Ty as ->. injection Tz as ->. reflexivity.
Qed.
Lemma degree_range k : degree k -> (1 <= k <= 5)%Z.
Proof. intros [->| ->]; lia. Qed.

Theorem C106_position : forall other i ys xs lons lats fy fx,
  enough (deg_y i) ys -> enough (deg_x i) xs -> degree (deg_y i) -> degree (deg_x i) ->
  shaped (length ys) (length xs) lons -> shaped (length ys) (length xs) lats -> not_descending fy -> not_descending fx ->
  exists olon olat, geo_spline other i ys xs lons lats fy fx = Ok (olon, olat) /\
    shaped (length fy) (length fx) olon /\ shaped (length fy) (length fx) olat /\
    forall m n px py pz, (m < length fy)%nat -> (n < length fx)%nat ->
      let here := tensor_value i ys xs in let y := nearest ys (nth m fy 0) in let x := nearest xs (nth n fx 0) in
      here (fun r c => fst (fst (tie_position lons lats r c))) y x px ->
      here (fun r c => snd (fst (tie_position lons lats r c))) y x py ->
      here (fun r c => snd (tie_position lons lats r c)) y x pz ->
      (at2 None olon m n, at2 None olat m n) = @xyz2lonlat _ RN (Some px, Some py, Some pz).
Proof.
  intros other i ys xs lons lats fy fx Ey Ex Dy Dx S1 S2 Sy Sx.
  destruct (geo_values other i ys xs lons lats fy fx Ey Ex (degree_range _ Dy) (degree_range _ Dx) S1 S2 Sy Sx) as (olon & olat & E & T1 & T2 & W & SW & AW & H).
  exists olon, olat. split; [exact E|]. split; [exact T1|]. split; [exact T2|]. intros m n px py pz Hm Hn. cbv zeta. intros Tx Ty Tz.
  apply H; [exact Hm|exact Hn|..].
  - exact (tensor_unique other i ys xs _ _ _ _ _ Ey Ex (SW _) (AW (fun p => fst (fst p))) Tx).
  - exact (tensor_unique other i ys xs _ _ _ _ _ Ey Ex (SW _) (AW (fun p => snd (fst p))) Ty).
  - exact (tensor_unique other i ys xs _ _ _ _ _ Ey Ex (SW _) (AW snd) Tz).
Qed.
Print Assumptions C106_position.
(** the splines exist, and their value is unique *)
Theorem C106_exists : forall i ys xs f y x, enough (deg_y i) ys -> enough (deg_x i) xs -> degree (deg_y i) -> degree (deg_x i) ->
  exists! V, tensor_value i ys xs f (nearest ys y) (nearest xs x) V.
Proof.
  intros i ys xs f y x Ey Ex Dy Dx. destruct (tensor_exists i ys xs f (nearest ys y) (nearest xs x) Ey Ex Dy Dx) as (V & HV). exists V. split; [exact HV|].
  intros V' HV'. set (w := map (fun r => map (f r) (seq 0 (length xs))) (seq 0 (length ys))).
  assert (Sw : shaped (length ys) (length xs) w).
  { split; [unfold w; now rewrite map_length, seq_length|]. apply Forall_map, Forall_forall. intros r _. now rewrite map_length, seq_length. }
  assert (Aw : forall r c, (r < length ys)%nat -> (c < length xs)%nat -> at2 0 w r c = f r c).
  { intros r c Hr Hc. unfold at2, w. rewrite (nth_map' _ _ _ 0%nat) by now rewrite seq_length. rewrite seq_nth by exact Hr. now rewrite nth_seq_map. }
  pose proof (tensor_unique (fun _ _ _ _ => 0) i ys xs w f y x V Ey Ex Sw Aw HV) as E. pose proof (tensor_unique (fun _ _ _ _ => 0) i ys xs w f y x V' Ey Ex Sw Aw HV') as E'.
  congruence.
Qed.
Print Assumptions C106_exists.

(** evenly spaced tie points, default degrees: the position is near that of GeoGridInterpolator (C91) in every coordinate *)
Theorem C106_near : forall hy hx ys xs f Dy Dx r c y x V,
  evenly hy ys -> evenly hx xs -> (4 <= length ys)%nat -> (4 <= length xs)%nat ->
  (forall r, (r < length ys)%nat -> second_differences (length xs) (f r) Dx) ->
  (forall c, (c < length xs)%nat -> second_differences (length ys) (fun r => f r c) Dy) ->
  (S r < length ys)%nat -> nth r ys 0 <= y <= nth (S r) ys 0 -> (S c < length xs)%nat -> nth c xs 0 <= x <= nth (S c) xs 0 ->
  tensor_value default_degrees ys xs f (nearest ys y) (nearest xs x) V ->
  Rabs (V - bilinear ys xs f r c y x) <= edge (length ys) r * Dy + edge (length xs) c * Dx + 4 * edge (length ys) r * edge (length xs) c * Dx.
Proof.
  intros hy hx ys xs f Dy Dx r c y x V Ey Ex Ly Lx HDx HDy Hr Hy Hc Hx HV.
  set (w := map (fun r => map (f r) (seq 0 (length xs))) (seq 0 (length ys))).
  assert (Sw : shaped (length ys) (length xs) w).
  { split; [unfold w; now rewrite map_length, seq_length|]. apply Forall_map, Forall_forall. intros q _. now rewrite map_length, seq_length. }
  assert (Aw : forall r c, (r < length ys)%nat -> (c < length xs)%nat -> at2 0 w r c = f r c).
  { intros r' c' H1 H2. unfold at2, w. rewrite (nth_map' _ _ _ 0%nat) by now rewrite seq_length. rewrite seq_nth by exact H1. now rewrite nth_seq_map. }
  assert (Ny : enough (deg_y default_degrees) ys) by (split; [exact (evenly_increasing _ _ Ey)|cbn [deg_y default_degrees]; lia]).
  assert (Nx : enough (deg_x default_degrees) xs) by (split; [exact (evenly_increasing _ _ Ex)|cbn [deg_x default_degrees]; lia]).
  pose proof (tensor_unique (fun _ _ _ _ => 0) default_degrees ys xs w f y x V Ny Nx Sw Aw HV) as E.
  destruct (C104_near (fun _ _ _ _ => 0) hy hx ys xs w Dy Dx r c y x Ey Ex Ly Lx Sw) as (v & E' & B); auto.
  - intros q Hq i Hi. rewrite !Aw by lia. now apply HDx.
  - intros q Hq i Hi. rewrite !Aw by lia. now apply HDy.
  - rewrite E in E'. injection E' as <-. replace (bilinear ys xs f r c y x) with (bilinear ys xs (at2 0 w) r c y x); [exact B|].
    unfold bilinear. now rewrite !Aw by lia.
Qed.
Print Assumptions C106_near.


(** at the tie points, with any degrees for which FITPACK interpolates: the tie points *)
Theorem C106_tie_points : forall other i ys xs lons lats, interpolates other ->
  enough (deg_y i) ys -> enough (deg_x i) xs -> (1 <= deg_y i <= 5)%Z -> (1 <= deg_x i <= 5)%Z ->
  shaped (length ys) (length xs) lons -> shaped (length ys) (length xs) lats ->
  all2 (fun v => -180 < v < 180) lons -> all2 (fun v => -90 < v < 90) lats ->
  geo_spline other i ys xs lons lats ys xs = Ok (map (map Some) lons, map (map Some) lats).
Proof.
  intros other i ys xs lons lats Ho Ey Ex Dy Dx S1 S2 B1 B2.
  assert (ND : forall l, increasing l -> not_descending l) by (intros l I j Hj; left; apply I; lia).
  destruct (geo_values other i ys xs lons lats ys xs Ey Ex Dy Dx S1 S2 (ND _ (proj1 Ey)) (ND _ (proj1 Ex))) as (olon & olat & E & T1 & T2 & W & SW & AW & H).
  rewrite E. clear E.
  assert (G : forall r c, (r < length ys)%nat -> (c < length xs)%nat -> (at2 None olon r c, at2 None olat r c) = (Some (at2 0 lons r c), Some (at2 0 lats r c))).
  { intros r c Hr Hc.
    assert (N : forall g, rbs other Spline i (ys, xs) (double_data (W g)) tt (nth r ys 0) (nth c xs 0) = Some (g (tie_position lons lats r c))).
    { intros g. rewrite <- AW by assumption. apply C103_tie_points; auto. apply C103_accepted. auto. }
    rewrite (H r c _ _ _ Hr Hc (N _) (N _) (N _)).
    pose proof (all2_at _ 0 _ _ _ r c B1 S1 Hr Hc) as L1. pose proof (all2_at _ 0 _ _ _ r c B2 S2 Hr Hc) as L2. cbv beta in L1, L2.
    unfold tie_position, lonlat2xyz, xyz2lonlat, EARTH_RADIUS. cbn [nz RN RT].
    assert (E8 : @ndiv (option R) RN (Some 8) (Some 10) = Some (8 / 10)) by (cbn [ndiv RN]; apply RNdiv_some; lra).
    rewrite E8. pose proof (round_trip 6370997 (8 / 10) true (at2 0 lons r c) (at2 0 lats r c) ltac:(lra) L1 L2) as RT2.
    rewrite lonlat2xyz_RN in RT2. destruct (@lonlat2xyz_at R RT 6370997 (at2 0 lons r c) (at2 0 lats r c)) as [[px py] pz]. exact RT2. }
  assert (At : forall w, shaped (length ys) (length xs) w -> forall r c, (r < length ys)%nat -> (c < length xs)%nat -> at2 None (map (map Some) w) r c = Some (at2 0 w r c)).
  { intros w Sw r c Hr Hc. unfold at2. rewrite (nth_indep _ [] (map Some [])) by (rewrite map_length; destruct Sw; lia). rewrite map_nth.
    rewrite (nth_indep _ None (Some 0)); [apply map_nth|]. rewrite map_length. destruct Sw as [L F]. rewrite Forall_forall in F. rewrite F; [exact Hc|apply nth_In; lia]. }
  f_equal. f_equal; apply (at2_ext None (length ys) (length xs)); try assumption; try (now apply shaped_map);
    intros r c Hr Hc; rewrite At by assumption; pose proof (G r c Hr Hc) as G0; congruence.
Qed.
Print Assumptions C106_tie_points.

(** not vacuous: 4 x 5 tie points *)
Example C106_case : forall other, interpolates other ->
  let lons := [[-10; -5; 0; 5; 10]; [-11; -6; -1; 4; 9]; [-12; -7; -2; 3; 8]; [-13; -8; -3; 2; 7]] in
  let lats := [[50; 51; 52; 52; 51]; [40; 41; 42; 42; 41]; [30; 31; 32; 32; 31]; [20; 21; 22; 22; 21]] in
  geo_spline other default_degrees [0; 10; 20; 30] [0; 5; 10; 15; 20] lons lats [0; 10; 20; 30] [0; 5; 10; 15; 20] = Ok (map (map Some) lons, map (map Some) lats).
Proof.
  intros other Ho lons lats. apply C106_tie_points; auto.
  - split; [|cbn; lia]. apply (evenly_increasing 10). split; [lra|]. cbn [length]. intros i Hi. destruct i as [|[|[|i]]]; cbn [nth]; [lra..|lia].
  - split; [|cbn; lia]. apply (evenly_increasing 5). split; [lra|]. cbn [length]. intros i Hi. destruct i as [|[|[|[|i]]]]; cbn [nth]; [lra..|lia].
  - cbn; lia.
  - cbn; lia.
  - split; [reflexivity|repeat constructor].
  - split; [reflexivity|repeat constructor].
  - unfold all2, lons. repeat (apply Forall_cons || apply Forall_nil); lra.
  - unfold all2, lats. repeat (apply Forall_cons || apply Forall_nil); lra.
Qed.

(** ** C107: may the target points be given in any order? *)
(** an interpolator object evaluates its target points one by one *)
Definition pointwise {P D I} (ev : kind -> I -> P -> D -> unit -> R -> R -> option (option R)) (s : single P D I) : Prop :=
  forall v h, (forall y x, In y v -> In x h -> ev (s_kind s) (s_init s) (s_points s) (s_values s) tt y x <> None) ->
  exists out, interpolate_numpy (N := RT) ev s (v, h) tt = Ok out /\ shaped (length v) (length h) out /\
    forall m n, (m < length v)%nat -> (n < length h)%nat ->
      ev (s_kind s) (s_init s) (s_points s) (s_values s) tt (nth m v 0) (nth n h 0) = Some (at2 None out m n).

Lemma eval_grid_pointwise (f : R -> R -> option (option R)) v h : (forall y x, In y v -> In x h -> f y x <> None) ->
  exists out, eval_grid f v h = Ok out /\ shaped (length v) (length h) out /\
    forall m n, (m < length v)%nat -> (n < length h)%nat -> f (nth m v 0) (nth n h 0) = Some (at2 None out m n).
Proof.
  intros H. set (g := fun y x => match f y x with Some a => a | None => None end).
  assert (E : forall y x, In y v -> In x h -> f y x = Some (g y x)). { intros y x Hy Hx. unfold g. specialize (H y x Hy Hx). destruct (f y x); [reflexivity|congruence]. }
  exists (map (fun y => map (fun x => g y x) h) v). split; [|split].
  - unfold eval_grid. clear H. induction v as [|y v IH]; [reflexivity|]. cbn [mapM map].
    assert (Er : forall h', (forall x, In x h' -> In x h) -> mapM (fun x => match f y x with Some a => Ok a | None => Err ValueError end) h' = Ok (map (fun x => g y x) h')).
    { induction h' as [|x h' IHh]; intros Hin; [reflexivity|]. cbn [mapM map]. rewrite E by (auto using in_eq). cbn [bind]. rewrite IHh by (intros; apply Hin; now right). reflexivity. }
    rewrite (Er h) by auto. cbn [bind]. rewrite IH; [reflexivity|]. intros y' x Hy Hx. apply E; [now right|exact Hx].
  - apply shaped_grid.
  - intros m n Hm Hn. rewrite (at2_grid _ v h 0 0) by assumption. apply E; now apply nth_In.
Qed.

(** the grid interpolators take target points in any order *)
Theorem C107_grid : forall P D I ev (s : single P D I), s_kind s = Grid -> pointwise ev s.
Proof.
  intros P D I ev s K v h H. unfold interpolate_numpy. rewrite K in H |- *. now apply eval_grid_pointwise.
Qed.
Print Assumptions C107_grid.
(** the spline interpolators only points that never decrease *)
Theorem C107_spline : forall P D I V (ev : kind -> I -> P -> D -> unit -> R -> R -> option V) (s : single P D I) v h, s_kind s = Spline ->
  (v <> [] -> h <> [] -> ~ (not_descending v /\ not_descending h) -> interpolate_numpy (N := RT) ev s (v, h) tt = Err ValueError) /\
  (not_descending v -> not_descending h -> interpolate_numpy (N := RT) ev s (v, h) tt = eval_grid (ev Spline (s_init s) (s_points s) (s_values s) tt) v h).
Proof.
  intros P D I V ev s v h K. unfold interpolate_numpy. rewrite K. split.
  - intros Hv Hh Hs. destruct v as [|a v]; [congruence|]. destruct h as [|b h]; [congruence|].
    destruct (sorted_le (a :: v) && sorted_le (b :: h))%bool eqn:E; [|reflexivity]. apply andb_true_iff in E. rewrite !sorted_le_iff in E. tauto.
  - intros Hv Hh. apply sorted_le_iff in Hv, Hh. rewrite Hv, Hh. cbn [andb negb]. now rewrite andb_false_r.
Qed.
Print Assumptions C107_spline.
Theorem C107_any_order_refuted : exists w, @spline_valid R RT default_degrees ([0; 1; 2; 3], [0; 1; 2; 3]) (double_data w) = true /\
  forall other, ~ pointwise (rbs_nan other) (spline_object default_degrees [0; 1; 2; 3] [0; 1; 2; 3] w).
Proof.
  assert (Ev : evenly 1 [0; 1; 2; 3]). { split; [lra|]. cbn [length]. intros i Hi. destruct i as [|[|[|i]]]; cbn [nth]; [lra..|lia]. }
  exists (repeat (repeat 1 4) 4). split.
  - apply C103_accepted. unfold enough. cbn [deg_y deg_x default_degrees]. split; [split; [exact (evenly_increasing _ _ Ev)|cbn [length]; lia]|].
    split; [split; [exact (evenly_increasing _ _ Ev)|cbn [length]; lia]|]. split; [split; [reflexivity|repeat constructor]|lia].
  - intros other H. destruct (H [1; 0] [0]) as (out & E & _); [intros; discriminate|].
    rewrite (proj1 (C107_spline _ _ _ _ (rbs_nan other) (spline_object default_degrees [0; 1; 2; 3] [0; 1; 2; 3] (repeat (repeat 1 4) 4)) [1; 0] [0] eq_refl)) in E; [discriminate|congruence|congruence|].
    intros [D _]. specialize (D 0%nat ltac:(cbn; lia)). cbn [nth] in D. lra.
Qed.
Print Assumptions C107_any_order_refuted.
(** without target rows or columns there is nothing to sort *)
Theorem C107_empty : forall P D I V (ev : kind -> I -> P -> D -> unit -> R -> R -> option V) (s : single P D I) v h, v = [] \/ h = [] ->
  interpolate_numpy (N := RT) ev s (v, h) tt = Ok (map (fun _ => []) v).
Proof.
  intros P D I V ev s v h H.
  assert (E : forall f : R -> R -> option V, eval_grid f v h = Ok (map (fun _ => []) v)).
  { intros f. destruct H as [->| ->]; [reflexivity|]. unfold eval_grid. cbn [mapM]. induction v as [|y v IH]; [reflexivity|]. cbn [mapM map bind]. now rewrite IH. }
  unfold interpolate_numpy. destruct (s_kind s); [apply E|]. destruct H as [H|H]; subst; cbn [length Nat.ltb Nat.leb andb]; [apply E|]. rewrite andb_false_r. apply E.
Qed.
Print Assumptions C107_empty.
