(** C96: class Interpolator with spline orders 1, borders not filled (interpolator.py:196-209). *)
From Coq Require Import ZArith QArith List Lia Bool Reals Lra.
From Verif Require Import Spec Base Num Interp PlProofs BorderProofs LegacyTie PropsAnyOrder PropsGridLinear.
Import ListNotations.
#[local] Existing Instance RT.
Open Scope R_scope.

(** the position itself between the first and the last tie point, else the nearer of the two *)
Definition nearest (ks : list R) (x : R) : R := Rmax (nth 0 ks 0) (Rmin x (nth (length ks - 1) ks 0)).

Lemma strict_inc_of l : increasing l -> strict_inc l = true.
Proof.
  induction l as [|a [|b l] IH]; intros H; [reflexivity|reflexivity|]. cbn [strict_inc]. apply andb_true_iff. split.
  - apply Rltb_true. apply (H 0%nat 1%nat). cbn. lia.
  - apply IH. eapply increasing_tail, H.
Qed.

Lemma clamp_nearest ks x : increasing ks -> (2 <= length ks)%nat -> clamp (hd (nz 0) ks) (last ks (nz 0)) x = nearest ks x.
Proof.
  intros I L. unfold nearest. rewrite hd_nth, last_nth. cbn [nz RT]. unfold clamp. cbn [nltb RT].
  pose proof (I 0%nat (length ks - 1)%nat ltac:(lia)) as H. set (lo := nth 0 ks 0) in *. set (hi := nth (length ks - 1) ks 0) in *. clearbody lo hi.
  destruct (Rltb x lo) eqn:E1; [apply Rltb_true in E1|apply Rltb_false in E1].
  - rewrite Rmax_left; [reflexivity|]. apply Rle_trans with x; [apply Rmin_l|lra].
  - destruct (Rltb hi x) eqn:E2; [apply Rltb_true in E2|apply Rltb_false in E2].
    + rewrite Rmin_right, Rmax_right by lra. reflexivity.
    + rewrite Rmin_left, Rmax_right by lra. reflexivity.
Qed.
Lemma nearest_inside ks x : increasing ks -> (2 <= length ks)%nat -> inside ks (nearest ks x).
Proof.
  intros I L. pose proof (I 0%nat (length ks - 1)%nat ltac:(lia)) as H. unfold inside, nearest. split; [apply Rmax_l|].
  apply Rmax_lub; [lra|apply Rmin_r].
Qed.

Lemma pl_line ks vs x r : increasing ks -> (2 <= length ks)%nat -> length vs = length ks -> in_cell ks r (nearest ks x) ->
  pl_eval ks vs x = straight_line (nth r ks 0) (nth r vs 0) (nth (S r) ks 0) (nth (S r) vs 0) (nearest ks x).
Proof.
  intros I L Lv (Hr & H1 & H2). pose proof (nearest_inside ks x I L) as [N1 N2].
  assert (B : nth r ks 0 <= nearest ks x <= nth (S r) ks 0).
  { split.
    - destruct H1 as [->|H1]; [exact N1|exact H1].
    - destruct H2 as [H2|H2]; [|exact H2]. replace (S r) with (length ks - 1)%nat by lia. exact N2. }
  assert (E : pl_eval ks vs x = pl_eval ks vs (nearest ks x)).
  { unfold pl_eval. rewrite clamp_nearest by assumption. rewrite hd_nth, last_nth. cbn [nz RT]. now rewrite clamp_id. }
  rewrite E, (pl_eval_seg r ks vs) by (auto; now apply strict_inc_of).
  pose proof (step_pos ks r I Hr). unfold seg, straight_line. cbn [nadd nsub nmul ndiv RT]. field. lra.
Qed.

(** every pixel, inside and outside the tie points *)
Theorem C96_bilinear : forall spl1 spl2 (st : istate R) out, well_formed st -> kx_ st = 1%Z -> ky_ st = 1%Z ->
  hrow_indices st <> row_indices st ->
  fst (interpolate spl1 spl2 st) = Ok out ->
  length out = length (tie_data st) /\
  forall num, (num < length (tie_data st))%nat ->
    shaped (length (hrow_indices st)) (length (hcol_indices st)) (nth num out []) /\
    forall a b r c, (a < length (hrow_indices st))%nat -> (b < length (hcol_indices st))%nat ->
      let y := nearest (row_indices st) (nth a (hrow_indices st) 0) in
      let x := nearest (col_indices st) (nth b (hcol_indices st) 0) in
      in_cell (row_indices st) r y -> in_cell (col_indices st) c x ->
      at2 0 (nth num out []) a b = bilinear (row_indices st) (col_indices st) (at2 0 (nth num (tie_data st) [])) r c y x.
Proof.
  intros spl1 spl2 st out W Kx Ky Hne E. rewrite (proj1 (interpolate_spec spl1 spl2 st W)) in E. pose proof (mapM_F2 _ _ _ E) as F.
  pose proof (F2_length _ _ _ F) as L. split; [lia|]. intros num Hnum.
  pose proof (F2_nth _ _ _ num [] [] F Hnum) as En. cbv beta in En. set (d := nth num (tie_data st) []) in *. set (o := nth num out []) in *.
  unfold interp_one in En. destruct (array_equal (hrow_indices st) (row_indices st)) eqn:AE; [apply array_equal_eq in AE; contradiction|].
  unfold interp2d_one, rect_bivariate in En.
  destruct (strict_inc (row_indices st)) eqn:S1; [|discriminate]. cbn [negb] in En.
  destruct (strict_inc (col_indices st)) eqn:S2; [|discriminate]. cbn [negb] in En.
  destruct (Nat.eqb_spec (length (row_indices st)) (length d)) as [L1|]; [|discriminate]. cbn [negb] in En.
  destruct (forallb (fun r => Nat.eqb (length (col_indices st)) (length r)) d) eqn:L2; [|discriminate]. cbn [negb] in En.
  rewrite Kx, Ky in En. cbn [Z.leb Z.compare Pos.compare Pos.compare_cont andb negb] in En.
  destruct ((1 <? Z.of_nat (length (row_indices st))) && (1 <? Z.of_nat (length (col_indices st))))%Z eqn:K; [|discriminate]. cbn [negb] in En.
  destruct (weak_inc (hrow_indices st) && weak_inc (hcol_indices st)); [|discriminate]. cbn [negb] in En. injection En as En.
  apply andb_true_iff in K. destruct K as [K1 K2]. apply Z.ltb_lt in K1, K2.
  apply strict_inc_increasing in S1, S2. rewrite forallb_forall in L2. rewrite <- En.
  split; [apply shaped_grid|]. intros a b r c Ha Hb y x Hr Hc.
  rewrite (at2_grid _ (hrow_indices st) (hcol_indices st) 0 0) by assumption.
  unfold axis_spline. cbn [Z.eqb Pos.eqb].
  rewrite (pl_line (row_indices st) _ _ r) by (auto; try lia; rewrite map_length; lia). fold y.
  destruct Hr as (Hr & _).
  rewrite !(nth_map' _ _ _ []) by lia.
  assert (Lr : forall k, (k < length d)%nat -> length (nth k d []) = length (col_indices st)).
  { intros k Hk. symmetry. apply Nat.eqb_eq, L2, nth_In, Hk. }
  rewrite !(pl_line (col_indices st) _ _ c) by (auto; try lia; rewrite Lr; lia). fold x. reflexivity.
Qed.
Print Assumptions C96_bilinear.

(** outside the tie points the border values are repeated: no extrapolation *)
Theorem C96_constant_outside : forall ks x, increasing ks -> (2 <= length ks)%nat ->
  (x <= nth 0 ks 0 -> nearest ks x = nth 0 ks 0) /\ (nth (length ks - 1) ks 0 <= x -> nearest ks x = nth (length ks - 1) ks 0) /\
  (inside ks x -> nearest ks x = x).
Proof.
  intros ks x I L. pose proof (I 0%nat (length ks - 1)%nat ltac:(lia)) as H. unfold nearest, inside. split; [|split].
  - intros Hx. rewrite Rmin_left, Rmax_left by lra. reflexivity.
  - intros Hx. rewrite Rmin_right, Rmax_right by lra. reflexivity.
  - intros Hx. rewrite Rmin_left, Rmax_right by lra. reflexivity.
Qed.
Print Assumptions C96_constant_outside.

(** it succeeds on well-shaped data *)
Lemma weak_inc_of l : increasing l -> weak_inc l = true.
Proof.
  induction l as [|a [|b l] IH]; intros H; [reflexivity|reflexivity|]. cbn [weak_inc]. apply andb_true_iff. split.
  - apply Rleb_true. left. apply (H 0%nat 1%nat). cbn. lia.
  - apply IH. eapply increasing_tail, H.
Qed.
Theorem C96_succeeds : forall spl1 spl2 (st : istate R), well_formed st -> kx_ st = 1%Z -> ky_ st = 1%Z ->
  axes (row_indices st) (col_indices st) -> increasing (hrow_indices st) -> increasing (hcol_indices st) ->
  hrow_indices st <> row_indices st ->
  Forall (shaped (length (row_indices st)) (length (col_indices st))) (tie_data st) ->
  exists out, fst (interpolate spl1 spl2 st) = Ok out.
Proof.
  intros spl1 spl2 st W Kx Ky (I1 & I2 & L1 & L2) J1 J2 Hne F. rewrite (proj1 (interpolate_spec spl1 spl2 st W)).
  eexists. apply mapM_Ok_map with (g := fun d => map (fun x => map (fun y => axis_spline spl2 (row_indices st) (map (fun r => axis_spline spl2 (col_indices st) r (ky_ st) y) d) (kx_ st) x) (hcol_indices st)) (hrow_indices st)).
  intros d Hd. rewrite Forall_forall in F. destruct (F d Hd) as [Ld Fd].
  unfold interp_one. destruct (array_equal (hrow_indices st) (row_indices st)) eqn:AE; [apply array_equal_eq in AE; contradiction|].
  unfold interp2d_one, rect_bivariate. rewrite !strict_inc_of, !weak_inc_of by assumption. cbn [negb andb].
  rewrite Ld, Nat.eqb_refl. cbn [negb].
  assert (E : forallb (fun r => Nat.eqb (length (col_indices st)) (length r)) d = true).
  { apply forallb_forall. intros r Hr. rewrite Forall_forall in Fd. rewrite (Fd r Hr). apply Nat.eqb_refl. }
  rewrite E, Kx, Ky. cbn [negb Z.leb Z.compare Pos.compare Pos.compare_cont andb].
  assert (E2 : ((1 <? Z.of_nat (length (row_indices st))) && (1 <? Z.of_nat (length (col_indices st))))%Z = true).
  { apply andb_true_iff. split; apply Z.ltb_lt; lia. }
  rewrite E2. reflexivity.
Qed.
Print Assumptions C96_succeeds.

(** a run: 2 x 2 tie points at 1 and 3, target positions 0 to 4 *)
Example C96_case : fst (@interpolate Q QT (fun _ _ _ _ => 0%Q) (fun _ _ _ _ => 0%Q)
    (@make Q [[[0; 2]; [4; 10]]%Q] ([1; 3]%Q, [1; 3]%Q) ([0; 2; 4]%Q, [0; 1; 2; 3; 4]%Q) 1 1 0)) =
  Ok [[[0; 0; 1; 2; 2]; [2; 2; 4; 6; 6]; [4; 4; 7; 10; 10]]%Q].
Proof. vm_compute. reflexivity. Qed.
