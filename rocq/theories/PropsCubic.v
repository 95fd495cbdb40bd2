(** C99 - C101: interpolating splines of degree 3 and class Interpolator with kx_ or ky_ = 3. *)
From Coq Require Import ZArith QArith List Lia Bool Reals Lra Arith.
From Verif Require Import Spec Base Num Interp PlProofs BorderProofs InterpProofs LegacyTie PropsAnyOrder PropsGridLinear PropsBilinear Cubic CubicProofs.
Import ListNotations.
#[local] Existing Instance RT.
Open Scope R_scope.

(** the space of FITPACK's cubic splines with interior knots at all positions except the first two and the last two:
    one polynomial, and a multiple of (x - t)^3 added from every knot t on *)
Definition cube_from (t x : R) : R := Rmax 0 (x - t) ^ 3.
Definition cubic_of (a b c d x : R) : R := a + b * x + c * x ^ 2 + d * x ^ 3.
Definition spline3 (ks : list R) (s : R -> R) : Prop :=
  exists a b c d w, forall x,
    s x = cubic_of a b c d x + fold_right Rplus 0 (map (fun j => w j * cube_from (nth j ks 0) x) (seq 2 (length ks - 4))).
Definition through (ks vs : list R) (s : R -> R) : Prop := forall i, (i < length ks)%nat -> s (nth i ks 0) = nth i vs 0.

(** ** C99: there is exactly one such spline through the data, and the model computes it *)
Lemma spline3_fits ks s : increasing ks -> (4 <= length ks)%nat -> spline3 ks s ->
  exists g, fits (fun i => nth i ks 0) (length ks - 1) s g.
Proof.
  intros I L (a & b & c & d & w & E).
  exists (fun i => 2 * c + 6 * d * nth i ks 0 + sumf (fun j => w j * (6 * plus1 (nth i ks 0 - nth j ks 0))) (seq 2 (length ks - 4))).
  eapply fits_ext; [apply (fits_sum (fun i => nth i ks 0) (length ks - 1) ltac:(lia) (list_inc ks I L) a b c d w (seq 2 (length ks - 4)))| |reflexivity].
  - intros j Hj. apply in_seq in Hj. lia.
  - intros x. rewrite E. reflexivity.
Qed.

Lemma splev_through ks vs : increasing ks -> (4 <= length ks)%nat -> through ks vs (cubic_splev ks vs).
Proof.
  intros I L i Hi. destruct (Nat.eq_dec i (length ks - 1)) as [->|].
  - rewrite (splev_pc ks vs I L _ (length ks - 2)%nat).
    + replace (nth (length ks - 1) ks 0) with (nth (S (length ks - 2)) ks 0) by (f_equal; lia).
      rewrite (pc_right (fun i => nth i ks 0) (length ks - 1)); [f_equal; lia|apply (list_inc ks I L)|lia].
    + split; [lia|]. split; [right|left; lia]. left. apply I. lia.
  - rewrite (splev_pc ks vs I L _ i).
    + apply (pc_left (fun i => nth i ks 0)).
    + split; [lia|]. split; [right; lra|right]. left. apply I. lia.
Qed.

Theorem C99_spline : forall ks vs, increasing ks -> (4 <= length ks)%nat ->
  spline3 ks (cubic_splev ks vs) /\ through ks vs (cubic_splev ks vs) /\
  forall s, spline3 ks s -> through ks vs s -> forall x, s x = cubic_splev ks vs x.
Proof.
  intros ks vs I L. set (k := fun i => nth i ks 0). set (n := (length ks - 1)%nat). set (v := fun i => nth i vs 0).
  pose proof (curvature_system ks vs I L) as Sy. pose proof (list_inc ks I L) as Inc. fold k n in Inc. fold k n v in Sy.
  assert (Ln : (3 <= n)%nat) by (unfold n; lia). split; [|split; [now apply splev_through|]].
  - set (M := curvature ks vs) in *. set (p := k 0%nat). set (s1 := ss k v 0 - hh k 0 * (2 * M 0%nat + M 1%nat) / 6). set (s2 := M 0%nat / 2). set (s3 := (M 1%nat - M 0%nat) / (6 * hh k 0)).
    exists (v 0%nat - s1 * p + s2 * p ^ 2 - s3 * p ^ 3), (s1 - 2 * s2 * p + 3 * s3 * p ^ 2), (s2 - 3 * s3 * p), s3, (jump k M).
    intros x. destruct (which_piece k n Ln x) as (i & Hi). rewrite (splev_pc ks vs I L x i Hi).
    change (pc (fun e => nth e ks 0) (fun e' => nth e' vs 0) (curvature ks vs) i x) with (pc k v M i x).
    rewrite (pc_spline k n Ln Inc v M i x Sy Hi). f_equal.
    + unfold pc, cubic_of. fold s1 s2 s3 p. ring.
    + replace (n - 3)%nat with (length ks - 4)%nat by (unfold n; lia). reflexivity.
  - intros s Hs Th x. destruct (spline3_fits ks s I L Hs) as (g & Sg & Pg). change (system k n (fun i => s (k i)) g) in Sg. change (forall i x, in_piece k n i x -> s x = pc k (fun i => s (k i)) g i x) in Pg.
    destruct (which_piece k n Ln x) as (i & Hi). rewrite (Pg i x Hi), (splev_pc ks vs I L x i Hi).
    change (pc (fun e => nth e ks 0) (fun e' => nth e' vs 0) (curvature ks vs) i x) with (pc k v (curvature ks vs) i x).
    assert (Ev : forall j, (j <= n)%nat -> s (k j) = v j) by (intros j Hj; apply Th; unfold n in Hj; lia).
    assert (Es : forall j, (j < n)%nat -> ss k (fun i => s (k i)) j = ss k v j) by (intros j Hj; unfold ss; now rewrite !Ev by lia).
    assert (Eg : forall j, (j <= n)%nat -> g j = curvature ks vs j).
    { apply (system_unique k n Ln Inc v); [|exact Sy]. destruct Sg as (J & S0 & S1). split; [|split; assumption].
      intros j Hj. specialize (J j Hj). unfold joint in *. rewrite !Es in J by lia. exact J. }
    destruct Hi as (Hi & _). unfold pc. cbv beta. rewrite Es, Ev, !Eg by lia. reflexivity.
Qed.
Print Assumptions C99_spline.

(** such splines have continuous second derivatives *)
Lemma deriv_plus n t x : derivable_pt_lim (fun x => Rmax 0 (x - t) ^ S (S n)) x (INR (S (S n)) * Rmax 0 (x - t) ^ S n).
Proof.
  destruct (Rtotal_order (x - t) 0) as [H|[H|H]].
  - rewrite Rmax_left by lra. rewrite pow_i by lia. rewrite Rmult_0_r.
    intros eps He. exists (mkposreal (t - x) ltac:(lra)). intros h H0 Hh. cbn in Hh. apply Rabs_def2 in Hh.
    rewrite !Rmax_left by lra. rewrite !pow_i by lia. unfold Rdiv. rewrite !Rminus_0_r, Rmult_0_l, Rabs_R0. exact He.
  - assert (x = t) by lra. subst x. rewrite (Rmax_left 0 (t - t)) by lra. rewrite pow_i by lia. rewrite Rmult_0_r.
    intros eps He. assert (Hd : 0 < Rmin 1 eps) by (apply Rmin_glb_lt; lra). exists (mkposreal _ Hd). intros h H0 Hh. cbn in Hh.
    rewrite (Rmax_left 0 (t - t)) by lra. rewrite (pow_i (S (S n))) by lia. rewrite !Rminus_0_r.
    replace (t + h - t) with h by ring. unfold Rdiv. rewrite Rabs_mult, Rabs_inv.
    assert (B : Rabs (Rmax 0 h ^ S (S n)) <= Rabs h * Rabs h).
    { assert (A : 0 <= Rmax 0 h <= Rabs h).
      { split; [apply Rmax_l|]. apply Rmax_lub; [apply Rabs_pos|apply Rle_abs]. }
      assert (A1 : Rabs h < 1) by (eapply Rlt_le_trans; [exact Hh|apply Rmin_l]).
      rewrite Rabs_pos_eq by (apply pow_le; lra). cbn [pow]. rewrite <- Rmult_assoc.
      assert (B : 0 <= Rmax 0 h ^ n <= 1).
      { split; [apply pow_le; lra|]. rewrite <- (pow1 n). apply pow_incr. lra. }
      assert (0 <= Rmax 0 h * Rmax 0 h <= Rabs h * Rabs h) by nra. nra. }
    assert (Ph : 0 < Rabs h) by now apply Rabs_pos_lt.
    apply Rle_lt_trans with (Rabs h).
    + apply Rmult_le_reg_r with (Rabs h); [exact Ph|]. rewrite Rmult_assoc, Rinv_l by lra. lra.
    + eapply Rlt_le_trans; [exact Hh|apply Rmin_r].
  - rewrite Rmax_right by lra.
    assert (D : derivable_pt_lim (fun x => (x - t) ^ S (S n)) x (INR (S (S n)) * (x - t) ^ S n)).
    { pose proof (derivable_pt_lim_comp (fun x => x - t) (fun y => y ^ S (S n)) x 1 (INR (S (S n)) * (x - t) ^ S n)) as C.
      rewrite Rmult_1_r in C. apply C.
      - pose proof (derivable_pt_lim_minus id (fct_cte t) x 1 0 (derivable_pt_lim_id x) (derivable_pt_lim_const t x)) as D. now rewrite Rminus_0_r in D.
      - apply (derivable_pt_lim_pow (x - t) (S (S n))). }
    intros eps He. destruct (D eps He) as (dl & Hd). assert (Hm : 0 < Rmin dl (x - t)) by (apply Rmin_glb_lt; [apply cond_pos|lra]).
    exists (mkposreal _ Hm). intros h H0 Hh. cbn in Hh. specialize (Hd h H0 ltac:(eapply Rlt_le_trans; [exact Hh|apply Rmin_l])).
    assert (Hh' : Rabs h < x - t) by (eapply Rlt_le_trans; [exact Hh|apply Rmin_r]). apply Rabs_def2 in Hh'.
    rewrite !Rmax_right by lra. exact Hd.
Qed.

Definition twice_differentiable (s : R -> R) : Prop :=
  exists s1 s2, forall x, derivable_pt_lim s x (s1 x) /\ derivable_pt_lim s1 x (s2 x) /\ continuity_pt s2 x.

Lemma smooth_add f g w : twice_differentiable f -> twice_differentiable g -> twice_differentiable (fun x => w * f x + g x).
Proof.
  intros (f1 & f2 & F) (g1 & g2 & G). exists (fun x => w * f1 x + g1 x), (fun x => w * f2 x + g2 x). intros x.
  destruct (F x) as (F1 & F2 & F3). destruct (G x) as (G1 & G2 & G3). split; [|split].
  - apply (derivable_pt_lim_plus (mult_real_fct w f) g); [now apply derivable_pt_lim_scal|assumption].
  - apply (derivable_pt_lim_plus (mult_real_fct w f1) g1); [now apply derivable_pt_lim_scal|assumption].
  - apply (continuity_pt_plus (mult_real_fct w f2) g2); [now apply continuity_pt_scal|assumption].
Qed.
Lemma smooth_ext f g : twice_differentiable f -> (forall x, g x = f x) -> twice_differentiable g.
Proof.
  intros (f1 & f2 & F) E. exists f1, f2. intros x. destruct (F x) as (F1 & F2 & F3). split; [|split; assumption].
  intros eps He. destruct (F1 eps He) as (dl & H). exists dl. intros h H0 Hh. rewrite !E. auto.
Qed.
Lemma smooth_pow n : twice_differentiable (fun x => x ^ n).
Proof.
  exists (fun x => INR n * x ^ pred n), (fun x => INR n * (INR (pred n) * x ^ pred (pred n))). intros x. split; [|split].
  - apply derivable_pt_lim_pow.
  - apply (derivable_pt_lim_scal (fun x => x ^ pred n)). apply derivable_pt_lim_pow.
  - apply (continuity_pt_scal (fun x => INR (pred n) * x ^ pred (pred n))). apply (continuity_pt_scal (fun x => x ^ pred (pred n))).
    apply derivable_continuous_pt. eexists. apply derivable_pt_lim_pow.
Qed.
Lemma smooth_cube t : twice_differentiable (cube_from t).
Proof.
  exists (fun x => INR 3 * Rmax 0 (x - t) ^ 2), (fun x => INR 3 * (INR 2 * Rmax 0 (x - t) ^ 1)). intros x. split; [|split].
  - apply (deriv_plus 1).
  - apply (derivable_pt_lim_scal (fun x => Rmax 0 (x - t) ^ 2)). apply (deriv_plus 0).
  - apply (continuity_pt_scal (fun x => INR 2 * Rmax 0 (x - t) ^ 1)). apply (continuity_pt_scal (fun x => Rmax 0 (x - t) ^ 1)).
    intros eps He. exists eps. split; [exact He|]. intros y (_ & Hy). cbn [dist R_met] in *. unfold R_dist in *. rewrite !pow_1.
    eapply Rle_lt_trans; [|exact Hy]. unfold Rmax. destruct (Rle_dec 0 (y - t)), (Rle_dec 0 (x - t)); unfold Rabs; repeat destruct (Rcase_abs _); lra.
Qed.

Theorem C99_smooth : forall ks s, spline3 ks s -> twice_differentiable s.
Proof.
  intros ks s (a & b & c & d & w & E). eapply smooth_ext; [|exact E]. clear E.
  induction (seq 2 (length ks - 4)) as [|j l IH].
  - assert (Z : twice_differentiable (fun _ => 0)).
    { eapply smooth_ext; [apply (smooth_add _ _ (-1) (smooth_pow 0) (smooth_pow 0))|]. intros x. cbn. ring. }
    eapply smooth_ext; [apply (smooth_add _ _ d (smooth_pow 3) (smooth_add _ _ c (smooth_pow 2) (smooth_add _ _ b (smooth_pow 1) (smooth_add _ _ a (smooth_pow 0) Z))))|].
    intros x. unfold cubic_of. cbn. ring.
  - eapply smooth_ext; [apply (smooth_add _ _ (w j) (smooth_cube (nth j ks 0)) IH)|]. intros x. cbn [map fold_right]. ring.
Qed.
Print Assumptions C99_smooth.

(** data of a cubic polynomial give the polynomial back *)
Theorem C99_cubic : forall ks a b c d x, increasing ks -> (4 <= length ks)%nat ->
  cubic_splev ks (map (cubic_of a b c d) ks) x = cubic_of a b c d x.
Proof.
  intros ks a b c d x I L. symmetry. apply (C99_spline ks (map (cubic_of a b c d) ks) I L).
  - exists a, b, c, d, (fun _ => 0). intros y.
    change (fold_right Rplus 0 (map _ _)) with (sumf (fun j => 0 * cube_from (nth j ks 0) y) (seq 2 (length ks - 4))).
    rewrite sumf_zero; [ring|]. intros; ring.
  - intros i Hi. now rewrite (nth_map' _ _ _ 0).
Qed.
Print Assumptions C99_cubic.

(** bispev: the spline at the nearest position between the first and the last *)
Lemma bispev_nearest ks vs x : increasing ks -> (2 <= length ks)%nat -> cubic_bispev ks vs x = cubic_splev ks vs (nearest ks x).
Proof. intros I L. unfold cubic_bispev. now rewrite clamp_nearest. Qed.

(** the premise on splines of the theorems about Interpolator and the functions of __init__.py *)
Theorem C99_interpolates : forall other, interpolates other -> interpolates (spl1_with other) /\ interpolates (spl2_with other).
Proof.
  intros other H. split; intros ks vs k i I Lv K1 K2 Hi; unfold spl1_with, spl2_with; destruct (Z.eqb_spec k 3) as [->|].
  - apply splev_through; auto. lia.
  - now apply H.
  - rewrite bispev_nearest by (auto; lia). rewrite (proj2 (proj2 (C96_constant_outside ks (nth i ks 0) I ltac:(lia)))).
    + apply splev_through; auto. lia.
    + split; (destruct (Nat.eq_dec i 0) as [->|]; [|destruct (Nat.eq_dec i (length ks - 1)) as [->|]]); try lra; left; apply I; lia.
  - now apply H.
Qed.
Print Assumptions C99_interpolates.

(** runs: a cubic polynomial at uneven positions, also extrapolated; a single peak; four positions *)
Example C99_case : let f := fun x : Q => (x * x * x - 2 * x)%Q in
  map (fun x => Qred (@cubic_splev Q QT [0; 1; 3; 4; 7]%Q (map f [0; 1; 3; 4; 7]%Q) x)) [-1; 0; 1 # 2; 2; 3; 5; 7; 8]%Q
  = map (fun x => Qred (f x)) [-1; 0; 1 # 2; 2; 3; 5; 7; 8]%Q /\
  map (fun x => Qred (@cubic_splev Q QT [0; 1; 2; 3; 4; 5; 6]%Q [0; 0; 0; 1; 0; 0; 0]%Q x)) [1 # 2; 3 # 2; 5 # 2; 3; 5; 13 # 2]%Q
  = [9 # 56; -9 # 56; 17 # 28; 1; 0; -45 # 56]%Q /\
  map (fun x => Qred (@cubic_bispev Q QT [0; 1; 2; 4]%Q [0; 0; 1; 0]%Q x)) [-5; 1 # 2; 3; 4; 9]%Q = [0; -7 # 32; 3 # 2; 0; 0]%Q.
Proof. vm_compute. auto. Qed.

(** ** C100: Interpolator of orders 1 and 3 reproduces polynomials *)
Definition polynomial (k : Z) (f : R -> R) : Prop :=
  (k = 1%Z /\ exists a b, forall x, f x = a + b * x) \/ (k = 3%Z /\ exists a b c d, forall x, f x = cubic_of a b c d x).

Lemma sampled ks vs (f : R -> R) : length vs = length ks -> (forall i, (i < length ks)%nat -> nth i vs 0 = f (nth i ks 0)) -> vs = map f ks.
Proof.
  intros L H. apply (nth_ext _ _ 0 0); [now rewrite map_length|]. intros i Hi. rewrite L in Hi. rewrite (nth_map' _ _ _ 0) by exact Hi. auto.
Qed.

Lemma axis_polynomial other ks vs k f x : increasing ks -> (k < Z.of_nat (length ks))%Z -> length vs = length ks ->
  (forall i, (i < length ks)%nat -> nth i vs 0 = f (nth i ks 0)) -> polynomial k f ->
  axis_spline (spl2_with other) ks vs k x = f (nearest ks x).
Proof.
  intros I K L H [[-> (a & b & E)]|[-> (a & b & c & d & E)]].
  - unfold axis_spline. cbn [Z.eqb Pos.eqb]. pose proof (located_in_cell ks (nearest ks x) I ltac:(lia)) as Hc.
    set (r := GridLinear.locate (map Some ks) (Some (nearest ks x))) in Hc. clearbody r. rewrite (pl_line ks vs x r) by (auto; lia). pose proof (step_pos ks r I (proj1 Hc)).
    destruct Hc as (Hc & _). unfold straight_line. rewrite !H by lia. rewrite !E. field. lra.
  - unfold axis_spline, spl2_with. cbn [Z.eqb Pos.eqb]. rewrite bispev_nearest by (auto; lia).
    rewrite (sampled ks vs (cubic_of a b c d)) by (auto; intros i Hi; rewrite H by exact Hi; apply E).
    rewrite C99_cubic by (auto; lia). symmetry. apply E.
Qed.

(** tie data sampled from a field that is a polynomial of degree ky along the columns and kx along the rows *)
Definition sampled_field (rows cols : list R) (d : list (list R)) (F : R -> R -> R) : Prop :=
  forall i j, (i < length rows)%nat -> (j < length cols)%nat -> at2 0 d i j = F (nth i rows 0) (nth j cols 0).
Definition separately_polynomial (kx ky : Z) (F : R -> R -> R) : Prop :=
  (forall y, polynomial ky (F y)) /\ (forall x, polynomial kx (fun y => F y x)).

Theorem C100_exact : forall other (st : istate R) out F, well_formed st -> hrow_indices st <> row_indices st ->
  (forall num, (num < length (tie_data st))%nat -> sampled_field (row_indices st) (col_indices st) (nth num (tie_data st) []) (F num)) ->
  (forall num, separately_polynomial (kx_ st) (ky_ st) (F num)) ->
  fst (interpolate (spl1_with other) (spl2_with other) st) = Ok out ->
  length out = length (tie_data st) /\
  forall num, (num < length (tie_data st))%nat ->
    shaped (length (hrow_indices st)) (length (hcol_indices st)) (nth num out []) /\
    forall a b, (a < length (hrow_indices st))%nat -> (b < length (hcol_indices st))%nat ->
      at2 0 (nth num out []) a b = F num (nearest (row_indices st) (nth a (hrow_indices st) 0)) (nearest (col_indices st) (nth b (hcol_indices st) 0)).
Proof.
  intros other st out F W Hne Sa Po E. rewrite (proj1 (interpolate_spec _ _ st W)) in E. pose proof (mapM_F2 _ _ _ E) as Fo.
  pose proof (F2_length _ _ _ Fo) as L. split; [lia|]. intros num Hnum.
  pose proof (F2_nth _ _ _ num [] [] Fo Hnum) as En. cbv beta in En. specialize (Sa num Hnum). destruct (Po num) as [Py Px].
  set (d := nth num (tie_data st) []) in *. set (o := nth num out []) in *.
  unfold interp_one in En. destruct (array_equal (hrow_indices st) (row_indices st)) eqn:AE; [apply array_equal_eq in AE; contradiction|].
  unfold interp2d_one, rect_bivariate in En.
  destruct (strict_inc (row_indices st)) eqn:S1; [|discriminate]. cbn [negb] in En.
  destruct (strict_inc (col_indices st)) eqn:S2; [|discriminate]. cbn [negb] in En.
  destruct (Nat.eqb_spec (length (row_indices st)) (length d)) as [L1|]; [|discriminate]. cbn [negb] in En.
  destruct (forallb (fun r => Nat.eqb (length (col_indices st)) (length r)) d) eqn:L2; [|discriminate]. cbn [negb] in En.
  destruct ((1 <=? kx_ st) && (kx_ st <=? 5) && (1 <=? ky_ st) && (ky_ st <=? 5))%Z; [|discriminate]. cbn [negb] in En.
  destruct ((kx_ st <? Z.of_nat (length (row_indices st))) && (ky_ st <? Z.of_nat (length (col_indices st))))%Z eqn:K; [|discriminate]. cbn [negb] in En.
  destruct (weak_inc (hrow_indices st) && weak_inc (hcol_indices st)); [|discriminate]. cbn [negb] in En. injection En as En.
  apply andb_true_iff in K. destruct K as [K1 K2]. apply Z.ltb_lt in K1, K2.
  apply strict_inc_increasing in S1, S2. rewrite forallb_forall in L2. rewrite <- En.
  split; [apply shaped_grid|]. intros a b Ha Hb.
  rewrite (at2_grid _ (hrow_indices st) (hcol_indices st) 0 0) by assumption.
  apply (axis_polynomial other _ _ _ (fun y => F num y (nearest (col_indices st) (nth b (hcol_indices st) 0)))); [exact S1|exact K1|rewrite map_length; lia| |apply Px].
  intros i Hi. rewrite (nth_map' _ _ _ []) by lia.
  apply (axis_polynomial other _ _ _ (F num (nth i (row_indices st) 0))); [exact S2|exact K2| | |apply Py].
  - symmetry. apply Nat.eqb_eq, L2, nth_In. lia.
  - intros j Hj. apply Sa; assumption.
Qed.
Print Assumptions C100_exact.

(** the one-dimensional branch, of order 3: no clamping *)
Theorem C100_one_dimension : forall other (st : istate R) out F, well_formed st -> hrow_indices st = row_indices st -> ky_ st = 3%Z ->
  increasing (col_indices st) ->
  (forall num, (num < length (tie_data st))%nat -> sampled_field (row_indices st) (col_indices st) (nth num (tie_data st) []) (F num)) ->
  (forall num y, polynomial 3 (F num y)) ->
  fst (interpolate (spl1_with other) (spl2_with other) st) = Ok out ->
  length out = length (tie_data st) /\
  forall num a b, (num < length (tie_data st))%nat -> (a < length (row_indices st))%nat -> (b < length (hcol_indices st))%nat ->
    at2 0 (nth num out []) a b = F num (nth a (row_indices st) 0) (nth b (hcol_indices st) 0).
Proof.
  intros other st out F W Heq Ky I Sa Po E. rewrite (proj1 (interpolate_spec _ _ st W)) in E. pose proof (mapM_F2 _ _ _ E) as Fo.
  pose proof (F2_length _ _ _ Fo) as L. split; [lia|]. intros num a b Hnum Ha Hb.
  pose proof (F2_nth _ _ _ num [] [] Fo Hnum) as En. cbv beta in En. specialize (Sa num Hnum).
  set (d := nth num (tie_data st) []) in *. set (o := nth num out []) in *.
  unfold interp_one in En. rewrite Heq in En.
  assert (AE : forall l : list R, array_equal l l = true).
  { induction l as [|z l IH]; [reflexivity|]. cbn [array_equal]. rewrite IH, andb_true_r. cbn [neqb RT]. unfold Reqb. destruct (Req_EM_T z z); congruence. }
  rewrite AE in En. unfold interp1d_one in En. rewrite range0_map_of_nat, mapM_map in En. apply mapM_F2 in En.
  pose proof (F2_nth _ _ _ a 0%nat [] En) as Er. rewrite seq_length, Heq in Er. specialize (Er Ha). cbv beta in Er. rewrite seq_nth in Er by exact Ha. cbn [Nat.add] in Er.
  apply bind_Ok in Er. destruct Er as (dr & Ed & Er). apply (nth_res_inv _ _ _ []) in Ed. destruct Ed as [_ ->]. rewrite Nat2Z.id in Er.
  destruct (Nat.eqb_spec (length (col_indices st)) (length (nth a d []))) as [Ld|]; [|discriminate]. cbn [negb] in Er.
  rewrite Ky in Er. cbn [Z.leb Z.compare Pos.compare Pos.compare_cont andb] in Er.
  destruct (3 <? Z.of_nat (length (col_indices st)))%Z eqn:K; [|discriminate]. cbn [negb] in Er. apply Z.ltb_lt in K.
  destruct (weak_inc (col_indices st)) eqn:Wi; [|discriminate]. cbn [negb] in Er. injection Er as Er.
  unfold at2. rewrite <- Er. rewrite (nth_map' _ _ _ 0) by exact Hb. unfold spl1_with. cbn [Z.eqb Pos.eqb].
  destruct (Po num (nth a (row_indices st) 0)) as [[K3 _]|[_ (p & q & r & s & Ep)]]; [discriminate|].
  rewrite (sampled (col_indices st) (nth a d []) (cubic_of p q r s)).
  - rewrite C99_cubic by (auto; lia). symmetry. apply Ep.
  - lia.
  - intros j Hj. pose proof (Sa a j Ha Hj) as Sj. unfold at2 in Sj. rewrite Sj. apply Ep.
Qed.
Print Assumptions C100_one_dimension.

(** a run: y x^3 - y^2 + x at rows 0, 2, 3, 5 and columns 0, 1, 2, 4 *)
Example C100_case : let F := fun y x : Q => Qred (y * x * x * x - y * y + x)%Q in
  let grid (ys xs : list Q) := map (fun y => map (F y) xs) ys in
  match fst (@interpolate Q QT (@spl1_with Q QT (fun _ _ _ _ => 0%Q)) (@spl2_with Q QT (fun _ _ _ _ => 0%Q))
    (@make Q [grid [0; 2; 3; 5] [0; 1; 2; 4]]%Q ([0; 2; 3; 5]%Q, [0; 1; 2; 4]%Q) ([0; 1; 4; 9]%Q, [-1; 1 # 2; 3]%Q) 3 3 0)) with
  | Ok [o] => map (map Qred) o = grid [0; 1; 4; 5]%Q [0; 1 # 2; 3]%Q
  | _ => False end.
Proof. vm_compute. reflexivity. Qed.

(** ** C101: how far the spline is from the straight lines, and from the function that was sampled *)
Definition gap (ks : list R) (i : nat) : R := nth (S i) ks 0 - nth i ks 0.
Definition steepness (ks vs : list R) (i : nat) : R := (nth (S i) vs 0 - nth i vs 0) / gap ks i.
(** the data bend by at most [K]: changes of slope, relative to the mean width of the cells *)
Definition bend (ks vs : list R) (K : R) : Prop :=
  forall i, (S (S i) < length ks)%nat -> Rabs (steepness ks vs (S i) - steepness ks vs i) <= K * ((gap ks i + gap ks (S i)) / 2).
(** the outermost cells are next to a cell of another width *)
Definition end_factor (ks : list R) (i : nat) : R :=
  if Nat.eqb i 0 then 1 + 2 * (gap ks 0 / gap ks 1)
  else if Nat.eqb i (length ks - 2) then 1 + 2 * (gap ks (length ks - 2) / gap ks (length ks - 3))
  else 1.

Lemma Rabs_le_inv a b : Rabs a <= b -> - b <= a <= b.
Proof. intros H. pose proof (Rle_abs a). pose proof (Rle_abs (- a)). rewrite Rabs_Ropp in *. lra. Qed.
Lemma outer_bound m1 m2 r K : 0 <= r -> 0 <= K -> Rabs m1 <= 3 * K -> Rabs m2 <= 3 * K -> Rabs (m1 - r * (m2 - m1)) <= 3 * K * (1 + 2 * r).
Proof.
  intros Hr HK H1 H2. apply Rabs_le_inv in H1, H2. apply Rabs_le. assert (- (6 * K) <= m2 - m1 <= 6 * K) by lra.
  assert (r * - (6 * K) <= r * (m2 - m1) <= r * (6 * K)) by (split; apply Rmult_le_compat_l; lra). lra.
Qed.

Lemma curvature_bound ks vs K i : increasing ks -> (4 <= length ks)%nat -> 0 <= K -> bend ks vs K -> (S i < length ks)%nat ->
  Rabs (curvature ks vs i) <= 3 * K * end_factor ks i /\ Rabs (curvature ks vs (S i)) <= 3 * K * end_factor ks i.
Proof.
  intros I L HK Hb Hi. set (k := fun i => nth i ks 0). set (n := (length ks - 1)%nat). set (v := fun i => nth i vs 0).
  pose proof (curvature_system ks vs I L) as Sy. pose proof (list_inc ks I L) as Inc. fold k n in Inc. fold k n v in Sy.
  assert (Ln : (3 <= n)%nat) by (unfold n; lia).
  assert (B : forall j, (1 <= j < n)%nat -> Rabs (curvature ks vs j) <= 3 * K).
  { apply (system_bound k n Ln Inc v _ K Sy). intros j Hj. apply Hb. unfold n in Hj. lia. }
  assert (P : forall j, (j < n)%nat -> 0 < gap ks j) by (intros j Hj; pose proof (Inc j Hj) as Q; unfold k in Q; unfold gap; lra).
  assert (Rp : forall a b, (a < n)%nat -> (b < n)%nat -> 0 <= gap ks a / gap ks b).
  { intros a b Ha Hb'. left. apply Rdiv_lt_0_compat; auto. }
  assert (F : 1 <= end_factor ks i).
  { unfold end_factor. destruct (Nat.eqb_spec i 0); [|destruct (Nat.eqb_spec i (length ks - 2))].
    - pose proof (Rp 0%nat 1%nat ltac:(lia) ltac:(lia)). lra.
    - pose proof (Rp (length ks - 2)%nat (length ks - 3)%nat ltac:(unfold n; lia) ltac:(unfold n; lia)). lra.
    - lra. }
  assert (B' : forall j, (1 <= j < n)%nat -> Rabs (curvature ks vs j) <= 3 * K * end_factor ks i).
  { intros j Hj. eapply Rle_trans; [now apply B|]. rewrite <- (Rmult_1_r (3 * K)) at 1. apply Rmult_le_compat_l; lra. }
  split.
  - destruct (Nat.eq_dec i 0) as [->|]; [|apply B'; unfold n; lia]. rewrite (curvature_0 ks vs L).
    apply (outer_bound _ _ (gap ks 0 / gap ks 1)); [apply Rp; lia|exact HK|apply B; lia|apply B; lia].
  - destruct (Nat.eq_dec i (length ks - 2)) as [->|]; [|apply B'; unfold n; lia]. replace (S (length ks - 2)) with n by (unfold n; lia).
    pose proof (curvature_n ks vs L) as En. fold n in En. rewrite En. unfold end_factor. destruct (Nat.eqb_spec (length ks - 2) 0); [lia|]. rewrite Nat.eqb_refl.
    replace (n - 1)%nat with (length ks - 2)%nat by (unfold n; lia). replace (n - 2)%nat with (length ks - 3)%nat by (unfold n; lia).
    change (hh (fun i => nth i ks 0)) with (gap ks). set (r := gap ks (length ks - 2) / gap ks (length ks - 3)).
    match goal with |- Rabs (?a + r * (?a - ?b)) <= _ => replace (a + r * (a - b)) with (a - r * (b - a)) by ring end.
    apply outer_bound; [apply Rp; unfold n; lia|exact HK|apply B; unfold n; lia|apply B; unfold n; lia].
Qed.

Lemma piece_line h t m0 m1 A : 0 < h -> 0 <= t <= h -> Rabs m0 <= A -> Rabs m1 <= A ->
  Rabs (- (h * (2 * m0 + m1) / 6) * t + m0 / 2 * t ^ 2 + (m1 - m0) / (6 * h) * t ^ 3) <= t * (h - t) / 2 * A.
Proof.
  intros H Ht H0 H1.
  replace (- (h * (2 * m0 + m1) / 6) * t + m0 / 2 * t ^ 2 + (m1 - m0) / (6 * h) * t ^ 3)
    with (t * (h - t) / (6 * h) * - ((2 * h - t) * m0 + (h + t) * m1)) by (field; lra).
  assert (P : 0 <= t * (h - t)) by (apply Rmult_le_pos; lra).
  assert (Q : 0 <= t * (h - t) / (6 * h)) by (apply Rmult_le_pos; [exact P|left; apply Rinv_0_lt_compat; lra]).
  rewrite Rabs_mult, Rabs_Ropp, (Rabs_pos_eq _ Q).
  replace (t * (h - t) / 2 * A) with (t * (h - t) / (6 * h) * (3 * h * A)) by (field; lra).
  apply Rmult_le_compat_l; [exact Q|]. eapply Rle_trans; [apply Rabs_triang|]. rewrite !Rabs_mult, (Rabs_pos_eq (2 * h - t)), (Rabs_pos_eq (h + t)) by lra.
  apply Rle_trans with ((2 * h - t) * A + (h + t) * A); [apply Rplus_le_compat; apply Rmult_le_compat_l; lra|right; ring].
Qed.

Lemma spline_line ks vs K i x : increasing ks -> (4 <= length ks)%nat -> 0 <= K -> bend ks vs K ->
  (S i < length ks)%nat -> nth i ks 0 <= x <= nth (S i) ks 0 ->
  Rabs (cubic_splev ks vs x - straight_line (nth i ks 0) (nth i vs 0) (nth (S i) ks 0) (nth (S i) vs 0) x)
    <= (x - nth i ks 0) * (nth (S i) ks 0 - x) / 2 * (3 * K * end_factor ks i).
Proof.
  intros I L HK Hb Hi Hx. destruct (curvature_bound ks vs K i I L HK Hb Hi) as [B0 B1].
  rewrite (splev_pc ks vs I L x i) by (split; [lia|split; right; lra]).
  pose proof (step_pos ks i I Hi) as P. unfold pc, straight_line. change (ss (fun e => nth e ks 0) (fun e' => nth e' vs 0) i) with (steepness ks vs i).
  change (hh (fun e => nth e ks 0) i) with (gap ks i).
  replace (nth (S i) ks 0 - x) with (gap ks i - (x - nth i ks 0)) by (unfold gap; ring).
  match goal with |- Rabs ?e <= _ => replace e with (- (gap ks i * (2 * curvature ks vs i + curvature ks vs (S i)) / 6) * (x - nth i ks 0) + curvature ks vs i / 2 * (x - nth i ks 0) ^ 2
     + (curvature ks vs (S i) - curvature ks vs i) / (6 * gap ks i) * (x - nth i ks 0) ^ 3) by (unfold steepness, gap; field; lra) end.
  apply piece_line; [unfold gap; lra|unfold gap; lra|exact B0|exact B1].
Qed.

Lemma product_quarter a b x : a <= x <= b -> 0 <= (x - a) * (b - x) <= (b - a) ^ 2 / 4.
Proof. intros H. split; [apply Rmult_le_pos; lra|]. pose proof (pow2_ge_0 ((x - a) - (b - x))). nra. Qed.

Theorem C101_lines : forall ks vs K i x, increasing ks -> (4 <= length ks)%nat -> 0 <= K -> bend ks vs K ->
  (S i < length ks)%nat -> nth i ks 0 <= x <= nth (S i) ks 0 ->
  Rabs (cubic_splev ks vs x - straight_line (nth i ks 0) (nth i vs 0) (nth (S i) ks 0) (nth (S i) vs 0) x)
    <= 3 / 8 * K * gap ks i ^ 2 * end_factor ks i.
Proof.
  intros ks vs K i x I L HK Hb Hi Hx. eapply Rle_trans; [now apply (spline_line ks vs K i x)|].
  pose proof (product_quarter _ _ x Hx) as Q. fold (gap ks i) in Q.
  destruct (curvature_bound ks vs K i I L HK Hb Hi) as [B0 _]. pose proof (Rle_trans _ _ _ (Rabs_pos _) B0) as F.
  replace (3 / 8 * K * gap ks i ^ 2 * end_factor ks i) with (gap ks i ^ 2 / 4 / 2 * (3 * K * end_factor ks i)) by field.
  apply Rmult_le_compat_r; [exact F|]. lra.
Qed.
Print Assumptions C101_lines.

(** functions with a bounded second derivative *)
Definition bounded_curvature (f : R -> R) (lo hi K : R) : Prop :=
  exists f1 f2, forall x, lo <= x <= hi -> derivable_pt_lim f x (f1 x) /\ derivable_pt_lim f1 x (f2 x) /\ Rabs (f2 x) <= K.

Lemma convex_slopes g g1 g2 lo hi a b c : (forall x, lo <= x <= hi -> derivable_pt_lim g x (g1 x) /\ derivable_pt_lim g1 x (g2 x) /\ 0 <= g2 x) ->
  lo <= a -> a < b -> b < c -> c <= hi -> (g b - g a) / (b - a) <= (g c - g b) / (c - b).
Proof.
  intros H Hlo Hab Hbc Hhi.
  destruct (MVT_cor2 g g1 a b Hab) as (p & Ep & Hp); [intros x Hx; apply H; lra|].
  destruct (MVT_cor2 g g1 b c Hbc) as (q & Eq & Hq); [intros x Hx; apply H; lra|].
  destruct (MVT_cor2 g1 g2 p q ltac:(lra)) as (r & Er & Hr); [intros x Hx; apply H; lra|].
  assert (0 <= g2 r * (q - p)) by (apply Rmult_le_pos; [apply (H r); lra|lra]).
  rewrite Ep, Eq. unfold Rdiv. rewrite !Rmult_assoc, !Rinv_r by lra. lra.
Qed.

Lemma curved_slopes f lo hi K a b c : bounded_curvature f lo hi K -> lo <= a -> a < b -> b < c -> c <= hi ->
  Rabs ((f c - f b) / (c - b) - (f b - f a) / (b - a)) <= K * ((c - a) / 2).
Proof.
  intros (f1 & f2 & H) Hlo Hab Hbc Hhi.
  assert (G : forall w, w = 1 \/ w = -1 -> (f b * w - f a * w) / (b - a) + K * (a + b) / 2 <= (f c * w - f b * w) / (c - b) + K * (b + c) / 2).
  { intros w Hw.
    pose proof (convex_slopes (fun x => K / 2 * x ^ 2 + w * f x) (fun x => K / 2 * (INR 2 * x ^ 1) + w * f1 x) (fun x => K / 2 * (INR 2 * (INR 1 * x ^ 0)) + w * f2 x) lo hi a b c) as C.
    assert (E : forall u v, u <> v -> (K / 2 * u ^ 2 + w * f u - (K / 2 * v ^ 2 + w * f v)) / (u - v) = (f u * w - f v * w) / (u - v) + K * (v + u) / 2).
    { intros u v Huv. field. lra. }
    cbv beta in C. rewrite !E in C by lra. apply C; try lra. intros x Hx. destruct (H x Hx) as (D1 & D2 & B). split; [|split].
    - apply (derivable_pt_lim_plus (mult_real_fct (K / 2) (fun x => x ^ 2)) (mult_real_fct w f)); apply derivable_pt_lim_scal; [apply derivable_pt_lim_pow|exact D1].
    - apply (derivable_pt_lim_plus (mult_real_fct (K / 2) (mult_real_fct (INR 2) (fun x => x ^ 1))) (mult_real_fct w f1)).
      + apply derivable_pt_lim_scal, derivable_pt_lim_scal. apply (derivable_pt_lim_pow x 1).
      + now apply derivable_pt_lim_scal.
    - cbn [pow INR]. apply Rabs_le_inv in B. destruct Hw as [-> | ->]; lra. }
  pose proof (G 1 (or_introl eq_refl)) as G1. pose proof (G (-1) (or_intror eq_refl)) as G2.
  replace ((f b * 1 - f a * 1) / (b - a)) with ((f b - f a) / (b - a)) in G1 by (field; lra).
  replace ((f c * 1 - f b * 1) / (c - b)) with ((f c - f b) / (c - b)) in G1 by (field; lra).
  replace ((f b * -1 - f a * -1) / (b - a)) with (- ((f b - f a) / (b - a))) in G2 by (field; lra).
  replace ((f c * -1 - f b * -1) / (c - b)) with (- ((f c - f b) / (c - b))) in G2 by (field; lra).
  apply Rabs_le. lra.
Qed.

Lemma curved_line f lo hi K a b x : bounded_curvature f lo hi K -> lo <= a -> a < b -> b <= hi -> a <= x <= b ->
  Rabs (f x - straight_line a (f a) b (f b) x) <= (x - a) * (b - x) / 2 * K.
Proof.
  intros H Hlo Hab Hhi Hx. destruct (Req_dec x a) as [->|Na].
  { unfold straight_line. replace (f a - (f a + (f b - f a) / (b - a) * (a - a))) with 0 by ring. rewrite Rabs_R0. right. field. }
  destruct (Req_dec x b) as [->|Nb].
  { unfold straight_line. replace (f b - (f a + (f b - f a) / (b - a) * (b - a))) with 0 by (field; lra). rewrite Rabs_R0. right. field. }
  pose proof (curved_slopes f lo hi K a x b H Hlo ltac:(lra) ltac:(lra) Hhi) as B.
  assert (P : 0 < (x - a) * (b - x) / (b - a)) by (apply Rdiv_lt_0_compat; [apply Rmult_lt_0_compat; lra|lra]).
  apply Rmult_le_compat_l with (r := (x - a) * (b - x) / (b - a)) in B; [|lra].
  rewrite <- (Rabs_pos_eq ((x - a) * (b - x) / (b - a))) in B at 1 by lra. rewrite <- Rabs_mult in B.
  replace ((x - a) * (b - x) / (b - a) * ((f b - f x) / (b - x) - (f x - f a) / (x - a))) with (- (f x - straight_line a (f a) b (f b) x)) in B by (unfold straight_line; field; lra).
  rewrite Rabs_Ropp in B. eapply Rle_trans; [exact B|]. right. field. lra.
Qed.

Lemma bend_of ks f K : increasing ks -> bounded_curvature f (nth 0 ks 0) (nth (length ks - 1) ks 0) K -> bend ks (map f ks) K.
Proof.
  intros I H i Hi. unfold steepness. rewrite !(nth_map' f ks _ 0) by lia.
  assert (Le : forall j m, (j <= m < length ks)%nat -> nth j ks 0 <= nth m ks 0).
  { intros j m Hjm. destruct (Nat.eq_dec j m) as [->|]; [lra|]. left. apply I. lia. }
  replace ((gap ks i + gap ks (S i)) / 2) with ((nth (S (S i)) ks 0 - nth i ks 0) / 2) by (unfold gap; field).
  apply (curved_slopes f _ _ K _ _ _ H); [apply Le; lia|apply I; lia|apply I; lia|apply Le; lia].
Qed.

Theorem C101_function : forall ks f K i x, increasing ks -> (4 <= length ks)%nat ->
  bounded_curvature f (nth 0 ks 0) (nth (length ks - 1) ks 0) K ->
  (S i < length ks)%nat -> nth i ks 0 <= x <= nth (S i) ks 0 ->
  Rabs (cubic_splev ks (map f ks) x - f x) <= K * gap ks i ^ 2 * ((1 + 3 * end_factor ks i) / 8).
Proof.
  intros ks f K i x I L H Hi Hx.
  assert (Le : forall j m, (j <= m < length ks)%nat -> nth j ks 0 <= nth m ks 0).
  { intros j m Hjm. destruct (Nat.eq_dec j m) as [->|]; [lra|]. left. apply I. lia. }
  assert (HK : 0 <= K).
  { destruct H as (f1 & f2 & H). destruct (H (nth 0 ks 0)) as (_ & _ & B); [split; [lra|apply Le; lia]|]. pose proof (Rabs_pos (f2 (nth 0 ks 0))). lra. }
  pose proof (spline_line ks (map f ks) K i x I L HK (bend_of ks f K I H) Hi Hx) as B1.
  pose proof (curved_line f _ _ K (nth i ks 0) (nth (S i) ks 0) x H ltac:(apply Le; lia) ltac:(apply I; lia) ltac:(apply Le; lia) Hx) as B2.
  rewrite !(nth_map' f ks _ 0) in B1 by lia. set (l := straight_line _ _ _ _ _) in *.
  replace (cubic_splev ks (map f ks) x - f x) with (cubic_splev ks (map f ks) x - l + - (f x - l)) by ring.
  eapply Rle_trans; [apply Rabs_triang|]. rewrite Rabs_Ropp. eapply Rle_trans; [apply Rplus_le_compat; [exact B1|exact B2]|].
  pose proof (product_quarter _ _ x Hx) as Q. fold (gap ks i) in Q. set (t := (x - nth i ks 0) * (nth (S i) ks 0 - x)) in *.
  destruct (curvature_bound ks (map f ks) K i I L HK (bend_of ks f K I H) Hi) as [B0 _]. pose proof (Rle_trans _ _ _ (Rabs_pos _) B0) as F.
  replace (t / 2 * (3 * K * end_factor ks i) + t / 2 * K) with (t * ((3 * K * end_factor ks i + K) / 2)) by field.
  replace (K * gap ks i ^ 2 * ((1 + 3 * end_factor ks i) / 8)) with (gap ks i ^ 2 / 4 * ((3 * K * end_factor ks i + K) / 2)) by field.
  apply Rmult_le_compat_r; lra.
Qed.
Print Assumptions C101_function.

(** a sine sampled at every half radian: inside, the spline is within 1/8 of it; a single peak bends by 2 *)
Example C101_case : forall x, 1 <= x <= 3 / 2 -> let ks := [0; 1 / 2; 1; 3 / 2; 2; 5 / 2] in Rabs (cubic_splev ks (map sin ks) x - sin x) <= / 8.
Proof.
  intros x Hx ks.
  assert (I : increasing ks).
  { intros a b H. unfold ks in *. cbn [length] in H. destruct a as [|[|[|[|[|[|a]]]]]]; destruct b as [|[|[|[|[|[|b]]]]]]; cbn; try lia; lra. }
  eapply Rle_trans; [apply (C101_function ks sin 1 2 x I)|].
  - unfold ks; cbn; lia.
  - exists cos, (fun x => - sin x). intros y _. split; [apply derivable_pt_lim_sin|]. split; [apply derivable_pt_lim_cos|].
    rewrite Rabs_Ropp. apply Rabs_le. pose proof (SIN_bound y). lra.
  - unfold ks; cbn; lia.
  - exact Hx.
  - unfold end_factor, gap, ks. cbn. lra.
Qed.
Example C101_peak : bend [0; 1; 2; 3; 4] [0; 0; 1; 0; 0] 2 /\
  Qred (@cubic_splev Q QT [0; 1; 2; 3; 4]%Q [0; 0; 1; 0; 0]%Q (3 # 2)%Q - (1 # 2)%Q) = (5 # 32)%Q.
Proof.
  split; [|vm_compute; reflexivity]. intros i Hi. unfold steepness, gap. destruct i as [|[|[|i]]]; cbn in *; try lia; apply Rabs_le; lra.
Qed.
