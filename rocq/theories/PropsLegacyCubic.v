(** C102: all columns of modis5kmto1km, modis1kmto500m and modis1kmto250m, with splines of degree 3. *)
From Coq Require Import ZArith QArith List Lia Bool Reals Lra Arith.
From Verif Require Import Spec Base Num Splits SplitsProofs Geo GeoProofs Interp PlProofs InterpProofs Legacy LegacyProofs LegacyInst LegacyTie SimpleModisReal LegacyRows.
From Verif Require Import PropsInterp PropsLegacy PropsAnyOrder PropsBilinear Cubic CubicProofs PropsCubic LegacyCubic PropsSimple PropsLegacyRows.
Import ListNotations.
#[local] Existing Instance RT.
Open Scope R_scope.

(** ** Specification *)
(** fine columns with given values: the tie columns, the last column, and the first one; positions in units of the tie-point distance *)
Definition knot_columns (f : legacy_fn) : list nat :=
  (if Nat.eqb (tie_col0 f) 0 then [] else [0%nat]) ++ map (fun c => zoom f * c + tie_col0 f)%nat (seq 0 (tie_cols f)) ++ [(fine_cols f - 1)%nat].
Definition column_position (f : legacy_fn) (J : nat) : R := INR J / INR (zoom f).
Definition knots (f : legacy_fn) : list R := map (column_position f) (knot_columns f).
(** the values there: those of the tie row [v], continued linearly to both ends *)
Definition line_data (f : legacy_fn) (v : Z -> R) : list R := map (fun J => pwl (Z.of_nat (tie_cols f)) v (x_of f J)) (knot_columns f).
(** the cubic spline along a tie row *)
Definition row_spline (f : legacy_fn) (v : Z -> R) (s : R -> R) : Prop := spline3 (knots f) s /\ through (knots f) (line_data f v) s.

(** second differences along a tie row *)
Definition bends (f : legacy_fn) (v : Z -> R) (D : R) : Prop :=
  forall c, (0 <= c <= Z.of_nat (tie_cols f) - 3)%Z -> Rabs (v (c + 2)%Z - 2 * v (c + 1)%Z + v c) <= D.
Definition between_tie_rows (f : legacy_fn) (j : nat) : Prop := 0 <= y_of f j <= INR (tie_rows f) - 1.
Definition inner_column (f : legacy_fn) (J : nat) : Prop := 1 <= x_of f J <= INR (tie_cols f) - 2.

(** ** Proof *)
(** what the three layouts have in common *)
Record layout (f : legacy_fn) (g m W L : nat) (delta dc o : R) : Prop := {
  l_g : g = zoom f; l_m : m = tie_rows f; l_W : W = tie_cols f; l_L : L = fine_cols f;
  l_dc : INR (tie_col0 f) = INR (zoom f) * dc; l_o : (INR (zoom f) - 1) / 2 = o + INR (zoom f) * delta;
  l_g1 : (1 <= g)%nat; l_m2 : (2 <= m)%nat; l_delta : 0 <= delta < 1; l_W4 : (4 <= W)%nat; l_L1 : (1 <= L)%nat;
  l_first : hposn g o 0 < posn delta 0; l_last : posn delta (m - 1) < hposn g o (g * m - 1);
  l_gm : (g * m <> m + 2)%nat;
  l_0 : hposn g 0 0 <= posn dc 0; l_1 : posn dc (W - 1) < hposn g 0 (L - 1);
  l_2 : posn dc 0 - hposn g 0 0 <= 1; l_3 : hposn g 0 (L - 1) - posn dc (W - 1) <= 1;
  l_run : forall spl1 spl2 lons lats, legacy f spl1 spl2 lons lats = layout_run g m delta o (Pn dc W) (Hn g 0 L) spl1 spl2 lons lats }.

Lemma layout_of f : exists g m W L delta dc o, layout f g m W L delta dc o.
Proof.
  destruct f.
  - exists 5%nat, 2%nat, 271%nat, 1354%nat, (2 / 5), (2 / 5), 0.
    assert (E1 : hposn 5 0 (1354 - 1) = 1353 / 5) by (unfold hposn; replace (Z.of_nat (1354 - 1)) with 1353%Z by (now vm_compute); simpl Z.of_nat; field).
    assert (E2 : posn (2 / 5) (271 - 1) = 270 + 2 / 5) by (unfold posn; replace (Z.of_nat (271 - 1)) with 270%Z by reflexivity; field).
    assert (E3 : posn (2 / 5) 0 - hposn 5 0 0 = 2 / 5) by (unfold posn, hposn; simpl; field).
    constructor; [reflexivity|reflexivity|reflexivity|reflexivity|cbn; lra|cbn; lra|lia|lia|lra|lia|lia|apply c5_first|apply c5_last|lia|lra|rewrite E1, E2; lra|lra|rewrite E1, E2; lra|].
    intros. apply modis5km_layout.
  - exists 2%nat, 10%nat, 1354%nat, 2708%nat, 0, 0, (1 / 2).
    assert (E1 : hposn 2 0 (2708 - 1) = 2707 / 2) by (unfold hposn; replace (Z.of_nat (2708 - 1)) with 2707%Z by (now vm_compute); simpl Z.of_nat; field).
    assert (E2 : posn 0 (1354 - 1) = 1353) by (unfold posn; replace (Z.of_nat (1354 - 1)) with 1353%Z by (now vm_compute); field).
    assert (E3 : posn 0 0 - hposn 2 0 0 = 0) by (unfold posn, hposn; simpl; field).
    constructor; [reflexivity|reflexivity|reflexivity|reflexivity|cbn; lra|cbn; lra|lia|lia|lra|lia|lia|apply c500_first|apply c500_last|lia|lra|rewrite E1, E2; lra|lra|rewrite E1, E2; lra|].
    intros. apply modis500m_layout.
  - exists 4%nat, 10%nat, 1354%nat, (4 * 1354)%nat, 0, 0, (3 / 2).
    assert (E1 : hposn 4 0 (4 * 1354 - 1) = 5415 / 4) by (unfold hposn; replace (Z.of_nat (4 * 1354 - 1)) with 5415%Z by (now vm_compute); simpl Z.of_nat; field).
    assert (E2 : posn 0 (1354 - 1) = 1353) by (unfold posn; replace (Z.of_nat (1354 - 1)) with 1353%Z by (now vm_compute); field).
    assert (E3 : posn 0 0 - hposn 4 0 0 = 0) by (unfold posn, hposn; simpl; field).
    constructor; [reflexivity|reflexivity|reflexivity|reflexivity|cbn; lra|cbn; lra|lia|lia|lra|lia|lia|apply c250_first|apply c250_last|lia|lra|rewrite E1, E2; lra|lra|rewrite E1, E2; lra|].
    intros. apply modis250m_layout.
Qed.

Section OneLayout.
Variables (f : legacy_fn) (g m W L : nat) (delta dc o : R).
Hypothesis Y : layout f g m W L delta dc o.
Notation cols := (Pn dc W).
Notation hcols := (Hn g 0 L).

Lemma zoom_pos : 0 < INR (zoom f).
Proof. destruct f; cbn; lra. Qed.
Lemma column_position_hposn J : column_position f J = hposn g 0 J.
Proof. destruct Y. unfold column_position, hposn. rewrite l_g0, <- !INR_IZR_INZ. f_equal. ring. Qed.
Lemma x_of_hposn J : x_of f J = hposn g 0 J - dc.
Proof. pose proof zoom_pos. destruct Y. unfold x_of, hposn. rewrite l_g0, <- !INR_IZR_INZ, l_dc0. field. lra. Qed.
Lemma y_of_hposn j : y_of f j = hposn g o j - delta.
Proof. pose proof zoom_pos. destruct Y. unfold y_of, hposn. rewrite l_g0, <- !INR_IZR_INZ, l_o0. field. lra. Qed.

Lemma knots_ext : knots f = ext_cols cols hcols.
Proof.
  pose proof zoom_pos as Z. pose proof Y as Y0. destruct Y0. unfold knots, knot_columns, ext_cols. rewrite !map_app, nl_true by auto. f_equal; [|f_equal].
  - destruct (Nat.eqb_spec (tie_col0 f) 0) as [E|E].
    + rewrite nf_false; auto. rewrite E in l_dc0. cbn [INR] in l_dc0. assert (dc = 0) by nra. subst dc. unfold hposn, posn. simpl. unfold Rdiv. ring.
    + assert (0 < INR (tie_col0 f)) by (apply lt_0_INR; lia). assert (0 < dc) by nra.
      rewrite nf_true; auto; [|unfold hposn, posn; simpl; unfold Rdiv; lra]. cbn [map]. rewrite hd_nth, nth_Hn by lia. now rewrite column_position_hposn.
  - rewrite map_map. unfold Pn. rewrite <- l_W0. apply map_ext. intros c. unfold column_position, posn. rewrite plus_INR, mult_INR, l_dc0, <- INR_IZR_INZ. field. lra.
  - cbn [map]. rewrite last_nth, Hn_length, nth_Hn, column_position_hposn, l_L0 by lia. reflexivity.
Qed.
Lemma line_data_sample v : line_data f v = sample g W L dc v.
Proof.
  destruct Y as [_ _ EW]. unfold line_data, sample. rewrite <- knots_ext. unfold knots. rewrite map_map. apply map_ext. intros J.
  rewrite x_of_hposn, column_position_hposn, EW. reflexivity.
Qed.
Lemma knots_inc : increasing (knots f).
Proof. destruct Y. rewrite knots_ext. apply KS_inc; auto. Qed.
Lemma knots_length : (4 <= length (knots f))%nat.
Proof. destruct Y. rewrite knots_ext, KS_length by auto. lia. Qed.

Lemma hposn_range J : (J < L)%nat -> hposn g 0 0 <= hposn g 0 J <= hposn g 0 (L - 1).
Proof.
  intros HJ. destruct Y. assert (P : 0 < IZR (Z.of_nat g)) by (apply IZR_lt; lia).
  unfold hposn. split; apply Rmult_le_compat_r; try (left; now apply Rinv_0_lt_compat); unfold Rminus; apply Rplus_le_compat_r, IZR_le; lia.
Qed.

Definition cubic_eval (j J : nat) (u : Z -> Z -> R) : R :=
  pwl (Z.of_nat m) (fun a => cubic_splev (knots f) (line_data f (u a)) (column_position f J)) (y_of f j).

Lemma sr_eval other b j J : shaped m W b -> (j < g * m)%nat -> (J < L)%nat ->
  at2 0 (sr g m delta o cols hcols (spl2_with other) b) j J = cubic_eval j J (fun a c => at2 0 b (Z.to_nat a) (Z.to_nat c)).
Proof.
  intros Sb Hj HJ. pose proof Y as Y0. destruct Y0. rewrite (sr_cubic g m delta o) by (rewrite ?Pn_length, ?Hn_length; auto; apply ext_cols_inc; auto; lia).
  unfold cubic_eval. rewrite y_of_hposn. apply pwl_ext; [lia|]. intros i Hi.
  rewrite ext_row_sample by (auto; apply (shaped_row m W b); auto; lia).
  rewrite nth_Hn by exact HJ. rewrite <- line_data_sample, <- knots_ext. rewrite bispev_nearest by (auto using knots_inc; pose proof knots_length; lia).
  rewrite column_position_hposn. f_equal.
  apply (proj2 (proj2 (C96_constant_outside (knots f) (hposn g 0 J) knots_inc ltac:(pose proof knots_length; lia)))).
  red. rewrite knots_ext, KS_length, KS_first by auto. replace (off g W L dc + W + 1 - 1)%nat with (off g W L dc + W)%nat by lia. rewrite KS_last by auto. now apply hposn_range.
Qed.

Lemma line_data_ext u v : (forall c, (0 <= c < Z.of_nat W)%Z -> u c = v c) -> line_data f u = line_data f v.
Proof. intros H. destruct Y. unfold line_data. apply map_ext. intros J. apply pwl_ext; [lia|]. intros c Hc. apply H. lia. Qed.

Lemma run_eval spl1 other K lons lats lo la q j J :
  shaped (K * m) W lons -> shaped (K * m) W lats -> legacy f spl1 (spl2_with other) lons lats = Ok (lo, la) ->
  (q < K)%nat -> (j < g * m)%nat -> (J < L)%nat ->
  let position (coordinate : R -> R -> R) :=
    cubic_eval j J (fun a c => coordinate (at2 0 lons (q * m + Z.to_nat a) (Z.to_nat c)) (at2 0 lats (q * m + Z.to_nat a) (Z.to_nat c))) in
  (at2 None lo (q * (g * m) + j) J, at2 None la (q * (g * m) + j) J) =
  @xyz2lonlat _ RN (Some (position at_x), Some (position at_y), Some (position at_z)).
Proof.
  intros Sl Sa Hrun Hq Hj HJ. pose proof Y as Y0. destruct Y0. rewrite l_run0 in Hrun.
  apply (layout_pixel g m W L delta dc o) with (spl1 := spl1) (spl2 := spl2_with other) (K := K) (eval := cubic_eval j J); auto.
  - intros b Sb. now apply sr_eval.
  - intros u v H. unfold cubic_eval. apply pwl_ext; [lia|]. intros a Ha. f_equal. apply line_data_ext. intros c Hc. now apply H.
Qed.

Lemma eval_near j J u D : (j < g * m)%nat -> (J < L)%nat -> 0 <= D ->
  (forall a, (0 <= a < Z.of_nat m)%Z -> bends f (u a) D) ->
  let E := Rabs (cubic_eval j J u - PropsSimple.bilinear (Z.of_nat m) (Z.of_nat W) u (y_of f j) (x_of f J)) in
  E <= 9 / 5 * (9 / 8 * D) /\ (between_tie_rows f j -> E <= 9 / 8 * D) /\
  (inner_column f J -> E <= 9 / 5 * (3 / 8 * D)) /\ (between_tie_rows f j -> inner_column f J -> E <= 3 / 8 * D).
Proof.
  intros Hj HJ HD Hb E. pose proof Y as Y0. destruct Y0.
  assert (N : forall a, (0 <= a < Z.of_nat m)%Z ->
     Rabs (cubic_splev (knots f) (line_data f (u a)) (column_position f J) - pwl (Z.of_nat W) (u a) (x_of f J)) <= 9 / 8 * D /\
     (inner_column f J -> Rabs (cubic_splev (knots f) (line_data f (u a)) (column_position f J) - pwl (Z.of_nat W) (u a) (x_of f J)) <= 3 / 8 * D)).
  { intros a Ha. rewrite line_data_sample, knots_ext, column_position_hposn, x_of_hposn.
    assert (HK : kinks W (u a) D) by (intros c Hc; apply (Hb a Ha); rewrite <- l_W0; exact Hc).
    destruct (spline_near g W L dc l_g2 l_W5 l_L2 l_4 l_5 l_6 l_7 (u a) D (hposn g 0 J) HD HK (hposn_range J HJ)) as [A B]. split; [exact A|].
    intros [I1 I2]. apply B. rewrite x_of_hposn in I1, I2. rewrite <- l_W0, INR_IZR_INZ in I2. unfold posn. simpl (Z.of_nat 1). split; [lra|].
    replace (Z.of_nat (W - 2)) with (Z.of_nat W - 2)%Z by lia. rewrite minus_IZR. lra. }
  assert (Yr : - (2 / 5) <= y_of f j <= IZR (Z.of_nat m) - 1 + 2 / 5).
  { rewrite l_m0, l_g0 in Hj. rewrite l_m0, <- INR_IZR_INZ. clear - Hj. pose proof (pos_INR j) as P. apply le_INR in Hj. rewrite S_INR in Hj.
    unfold y_of. destruct f; cbn in Hj; cbn [zoom tie_rows INR]; lra. }
  assert (Zm : (2 <= Z.of_nat m)%Z) by lia.
  assert (Br : between_tie_rows f j -> 0 <= y_of f j <= IZR (Z.of_nat m) - 1) by (unfold between_tie_rows; rewrite l_m0, INR_IZR_INZ; auto).
  unfold E, cubic_eval, PropsSimple.bilinear.
  destruct (pwl_near (Z.of_nat m) _ (fun a => pwl (Z.of_nat W) (u a) (x_of f J)) (y_of f j) (9 / 8 * D) Zm ltac:(lra) (fun a Ha => proj1 (N a Ha)) Yr) as [A1 A2].
  split; [exact A1|]. split; [auto|].
  assert (I : inner_column f J -> _) by (intros Hi; exact (pwl_near (Z.of_nat m) _ (fun a => pwl (Z.of_nat W) (u a) (x_of f J)) (y_of f j) (3 / 8 * D) Zm ltac:(lra) (fun a Ha => proj2 (N a Ha) Hi) Yr)).
  split; [intros Hi; apply (I Hi)|intros Hr Hi; apply (I Hi); auto].
Qed.
End OneLayout.

(** the tie values of one coordinate in scan q *)
Definition tie_values (f : legacy_fn) (lons lats : mat R) (q : nat) (coordinate : R -> R -> R) (a c : Z) : R :=
  coordinate (at2 0 lons (q * tie_rows f + Z.to_nat a) (Z.to_nat c)) (at2 0 lats (q * tie_rows f + Z.to_nat a) (Z.to_nat c)).

(** along each tie row there is exactly one such spline *)
Theorem C102_spline : forall f v, exists s, row_spline f v s /\ forall s', row_spline f v s' -> forall x, s' x = s x.
Proof.
  intros f v. destruct (layout_of f) as (g & m & W & L & delta & dc & o & Y).
  destruct (C99_spline (knots f) (line_data f v) (knots_inc _ _ _ _ _ _ _ _ Y) (knots_length _ _ _ _ _ _ _ _ Y)) as (A & B & U).
  exists (cubic_splev (knots f) (line_data f v)). split; [split; assumption|]. intros s' [A' B'] x. now apply U.
Qed.
Print Assumptions C102_spline.

(** every pixel: between the tie rows linearly, along the tie rows by these splines *)
Theorem C102_pixel : forall f spl1 other K lons lats lo la q j J (s : (R -> R -> R) -> Z -> R -> R),
  shaped (K * tie_rows f) (tie_cols f) lons -> shaped (K * tie_rows f) (tie_cols f) lats ->
  legacy f spl1 (spl2_with other) lons lats = Ok (lo, la) ->
  (q < K)%nat -> (j < zoom f * tie_rows f)%nat -> (J < fine_cols f)%nat ->
  (forall coordinate a, (0 <= a < Z.of_nat (tie_rows f))%Z -> row_spline f (tie_values f lons lats q coordinate a) (s coordinate a)) ->
  let position coordinate := pwl (Z.of_nat (tie_rows f)) (fun a => s coordinate a (column_position f J)) (y_of f j) in
  (at2 None lo (q * (zoom f * tie_rows f) + j) J, at2 None la (q * (zoom f * tie_rows f) + j) J) =
  @xyz2lonlat _ RN (Some (position at_x), Some (position at_y), Some (position at_z)).
Proof.
  intros f spl1 other K lons lats lo la q j J s Sl Sa Hrun Hq Hj HJ Hs.
  destruct (layout_of f) as (g & m & W & L & delta & dc & o & Y).
  pose proof (run_eval f g m W L delta dc o Y spl1 other K lons lats lo la q j J) as RE.
  pose proof (knots_inc _ _ _ _ _ _ _ _ Y) as KI. pose proof (knots_length _ _ _ _ _ _ _ _ Y) as KL.
  destruct Y. subst g m W L. specialize (RE Sl Sa Hrun Hq Hj HJ). cbv zeta in RE |- *. rewrite RE.
  assert (E : forall coordinate, cubic_eval f (tie_rows f) j J (tie_values f lons lats q coordinate) =
     pwl (Z.of_nat (tie_rows f)) (fun a => s coordinate a (column_position f J)) (y_of f j)).
  { intros coordinate. unfold cubic_eval. apply pwl_ext; [lia|]. intros a Ha. destruct (Hs coordinate a Ha) as [A B].
    symmetry. now apply (C99_spline (knots f) _ KI KL). }
  rewrite <- !E. reflexivity.
Qed.
Print Assumptions C102_pixel.

(** how far such a position is from the bilinear one, if the second differences along the tie rows of the scan are at most D *)
Theorem C102_near : forall f lons lats q j J (s : Z -> R -> R) coordinate D,
  (j < zoom f * tie_rows f)%nat -> (J < fine_cols f)%nat -> 0 <= D ->
  (forall a, (0 <= a < Z.of_nat (tie_rows f))%Z -> row_spline f (tie_values f lons lats q coordinate a) (s a)) ->
  (forall a, (0 <= a < Z.of_nat (tie_rows f))%Z -> bends f (tie_values f lons lats q coordinate a) D) ->
  let position := pwl (Z.of_nat (tie_rows f)) (fun a => s a (column_position f J)) (y_of f j) in
  let E := Rabs (position - PropsSimple.bilinear (Z.of_nat (tie_rows f)) (Z.of_nat (tie_cols f)) (tie_values f lons lats q coordinate) (y_of f j) (x_of f J)) in
  E <= 9 / 5 * (9 / 8 * D) /\ (between_tie_rows f j -> E <= 9 / 8 * D) /\
  (inner_column f J -> E <= 9 / 5 * (3 / 8 * D)) /\ (between_tie_rows f j -> inner_column f J -> E <= 3 / 8 * D).
Proof.
  intros f lons lats q j J s coordinate D Hj HJ HD Hs Hb.
  destruct (layout_of f) as (g & m & W & L & delta & dc & o & Y).
  pose proof (eval_near f g m W L delta dc o Y j J (tie_values f lons lats q coordinate) D) as N.
  pose proof (knots_inc _ _ _ _ _ _ _ _ Y) as KI. pose proof (knots_length _ _ _ _ _ _ _ _ Y) as KL.
  destruct Y. subst g m W L. specialize (N Hj HJ HD Hb). cbv zeta in N |- *.
  assert (E : cubic_eval f (tie_rows f) j J (tie_values f lons lats q coordinate) =
     pwl (Z.of_nat (tie_rows f)) (fun a => s a (column_position f J)) (y_of f j)).
  { unfold cubic_eval. apply pwl_ext; [lia|]. intros a Ha. destruct (Hs a Ha) as [A B].
    symmetry. now apply (C99_spline (knots f) _ KI KL). }
  rewrite E in N. exact N.
Qed.
Print Assumptions C102_near.

(** both together *)
Corollary C102_close : forall f spl1 other K lons lats lo la q j J D,
  shaped (K * tie_rows f) (tie_cols f) lons -> shaped (K * tie_rows f) (tie_cols f) lats ->
  legacy f spl1 (spl2_with other) lons lats = Ok (lo, la) ->
  (q < K)%nat -> (j < zoom f * tie_rows f)%nat -> (J < fine_cols f)%nat -> 0 <= D ->
  (forall coordinate a, In coordinate [at_x; at_y; at_z] -> (0 <= a < Z.of_nat (tie_rows f))%Z -> bends f (tie_values f lons lats q coordinate a) D) ->
  exists p : (R -> R -> R) -> R,
    (at2 None lo (q * (zoom f * tie_rows f) + j) J, at2 None la (q * (zoom f * tie_rows f) + j) J) =
      @xyz2lonlat _ RN (Some (p at_x), Some (p at_y), Some (p at_z)) /\
    forall coordinate, In coordinate [at_x; at_y; at_z] ->
      Rabs (p coordinate - PropsSimple.bilinear (Z.of_nat (tie_rows f)) (Z.of_nat (tie_cols f)) (tie_values f lons lats q coordinate) (y_of f j) (x_of f J)) <= 9 / 5 * (9 / 8 * D).
Proof.
  intros f spl1 other K lons lats lo la q j J D Sl Sa Hrun Hq Hj HJ HD Hb.
  destruct (layout_of f) as (g & m & W & L & delta & dc & o & Y).
  pose proof (knots_inc _ _ _ _ _ _ _ _ Y) as KI. pose proof (knots_length _ _ _ _ _ _ _ _ Y) as KL. clear Y g m W L delta dc o.
  set (s := fun coordinate a => cubic_splev (knots f) (line_data f (tie_values f lons lats q coordinate a))).
  assert (Hs : forall coordinate a, row_spline f (tie_values f lons lats q coordinate a) (s coordinate a)).
  { intros. destruct (C99_spline (knots f) (line_data f (tie_values f lons lats q coordinate a)) KI KL) as (A & B & _). now split. }
  exists (fun coordinate => pwl (Z.of_nat (tie_rows f)) (fun a => s coordinate a (column_position f J)) (y_of f j)). split.
  - now apply (C102_pixel f spl1 other K lons lats lo la q j J s).
  - intros coordinate Hc. apply (C102_near f lons lats q j J (s coordinate) coordinate D); auto.
Qed.
Print Assumptions C102_close.

(** not vacuous: a run; the positions of the splines of modis5kmto1km begin and end with shorter cells *)
Example C102_case :
  (exists lo la, legacy L500m (spl1_with (fun _ _ _ _ => 0)) (spl2_with (fun _ _ _ _ => 0))
     (repeat (repeat 10 1354) (2 * tie_rows L500m)) (repeat (repeat 60 1354) (2 * tie_rows L500m)) = Ok (lo, la)) /\
  firstn 4 (knot_columns L5km) = [0; 2; 7; 12]%nat /\ skipn 270 (knot_columns L5km) = [1347; 1352; 1353]%nat /\
  firstn 3 (knot_columns L250m) = [0; 4; 8]%nat /\ between_tie_rows L250m 2 /\ ~ between_tie_rows L250m 1 /\ inner_column L5km 9.
Proof.
  split; [|split; [vm_compute; reflexivity|split; [vm_compute; reflexivity|split; [vm_compute; reflexivity|]]]].
  - destruct (C11_modis500m (spl1_with (fun _ _ _ _ => 0)) (spl2_with (fun _ _ _ _ => 0)) (2 * tie_rows L500m)
      (repeat (repeat 10 1354) (2 * tie_rows L500m)) (repeat (repeat 60 1354) (2 * tie_rows L500m)) (shaped_repeat _ _ _) (shaped_repeat _ _ _)) as [H _].
    destruct H as (lo & la & E & _); [cbn; split; [lia|reflexivity]|]. exists lo, la. exact E.
  - unfold between_tie_rows, inner_column, y_of, x_of. cbn [zoom tie_rows tie_cols tie_col0]. rewrite (INR_IZR_INZ 271), (INR_IZR_INZ 9). simpl (Z.of_nat _). cbn [INR]. lra.
Qed.
(** the positions are not the bilinear ones: tie values 0, 1, 4, 9, 16, laid out as in modis5kmto1km;
    straight lines would give -2/5, -1/5, 0, 1/5, 2/5, 3/5, 4/5, 1 *)
Example C102_curved :
  map (fun J => Qred (@cubic_splev Q QT [0; 2 # 5; 7 # 5; 12 # 5; 17 # 5; 22 # 5; 23 # 5]%Q [-2 # 5; 0; 1; 4; 9; 16; 87 # 5]%Q (J / 5)%Q)) [0; 1; 2; 3; 4; 5; 6; 7]%Q
  = [-2 # 5; -1787 # 10375; 0; 1499 # 10375; 2998 # 10375; 957 # 2075; 7148 # 10375; 1]%Q.
Proof. vm_compute. reflexivity. Qed.
