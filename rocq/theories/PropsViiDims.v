(** C124: dimension names of longitudes and latitudes (viiinterpolator.py) *)
From Coq Require Import Reals ZArith List Bool Lia Lra.
From Verif Require Import Base Num Geo Vii ViiProofs PropsVii.
Import ListNotations.
Local Open Scope nat_scope.

(** the same two names, in the other order *)
Definition names_swapped {A B} (a : darray A) (b : darray B) : Prop :=
  fst (dims a) = snd (dims b) /\ snd (dims a) = fst (dims b).
(** an array seen with its axes exchanged *)
Definition turned {A} (a : darray A) : darray A :=
  {| dims := (snd (dims a), fst (dims a)); nrows := ncols a; ncols := nrows a; at_ := fun i j => at_ a j i |}.

(** names that are not the same two names are refused, whatever the numbers are *)
Theorem C124_other_names_partial : forall {T} {N : NumOps T} nan (lon lat : darray T) s f lt zt, 1 <= s -> 1 <= f ->
  dims lon <> dims lat -> ~ names_swapped lon lat ->
  tie_points_geo_interpolation nan lon lat s f lt zt = Err ValueError.
Proof.
  intros T N nan lon lat s f lt zt Hs Hf H1 H2. unfold tie_points_geo_interpolation.
  destruct (shape_eqb lon lat); [|reflexivity]. cbn [negb]. destruct (_ || _); [reflexivity|]. destruct (to_cart _ _ _).
  - unfold align_longitude. destruct (dims_eqb lon lat) eqn:E; [apply dims_eqb_eq in E; contradiction|].
    destruct (Nat.eqb_spec (fst (dims lon)) (snd (dims lat))); [|reflexivity].
    destruct (Nat.eqb_spec (snd (dims lon)) (fst (dims lat))); [|reflexivity]. exfalso. apply H2. split; auto.
  - rewrite (C38_shapes nan lon lat [lat] s f Hs Hf (or_introl eq_refl)); [reflexivity|right; congruence].
Qed.
(** swapped names are refused for arrays that are not square *)
Theorem C124_not_square_partial : forall {T} {N : NumOps T} nan (lon lat : darray T) s f lt zt, 1 <= s -> 1 <= f ->
  dims lon <> dims lat -> nrows lat <> ncols lat -> tie_points_geo_interpolation nan lon lat s f lt zt = Err ValueError.
Proof.
  intros T N nan lon lat s f lt zt Hs Hf H1 H2. unfold tie_points_geo_interpolation.
  destruct (shape_eqb lon lat) eqn:S; [|reflexivity]. apply shape_eqb_eq in S as [S1 S2].
  cbn [negb]. destruct (_ || _); [reflexivity|]. destruct (to_cart _ _ _).
  - unfold align_longitude. destruct (dims_eqb lon lat) eqn:E; [apply dims_eqb_eq in E; contradiction|].
    destruct (Nat.eqb_spec (nrows lon) (ncols lat)); [congruence|]. rewrite andb_false_r. reflexivity.
  - rewrite (C38_shapes nan lon lat [lat] s f Hs Hf (or_introl eq_refl)); [reflexivity|right; congruence].
Qed.

Section Reals.
#[local] Existing Instance RN.
Local Open Scope R_scope.

(** ... and when longitudes and latitudes are interpolated themselves *)
Theorem C124_geodetic_partial : forall nan lon lat vlon vlat s f thr zt, (1 <= s)%nat -> (1 <= f)%nat ->
  finite_da lon vlon -> finite_da lat vlat -> dims lon <> dims lat -> safe_lonlat lon vlon vlat thr ->
  tie_points_geo_interpolation nan lon lat s f (Some thr) zt = Err ValueError.
Proof.
  intros nan lon lat vlon vlat s f thr zt Hs Hf F1 F2 H1 H2. unfold tie_points_geo_interpolation.
  destruct (shape_eqb lon lat) eqn:S; [|reflexivity]. apply shape_eqb_eq in S as [S1 S2]. cbn [negb].
  destruct (Nat.eqb_spec (nrows lat) 0); [reflexivity|]. destruct (Nat.eqb_spec (ncols lat) 0); [reflexivity|]. cbn [orb].
  rewrite (proj2 (unsafe_cart lon lat vlon vlat thr F1 F2 S1 S2 ltac:(lia) ltac:(lia)) H2).
  rewrite (C38_shapes nan lon lat [lat] s f Hs Hf (or_introl eq_refl)); [reflexivity|right; congruence].
Qed.

(** but in cartesian coordinates square arrays with swapped names are processed: the result is the one for the turned
    longitudes, on the axes of the latitudes *)
Theorem C124_cartesian_partial : forall nan lon lat vlon vlat s f thr zt,
  finite_da lon vlon -> finite_da lat vlat -> (1 <= nrows lon)%nat ->
  nrows lon = nrows lat -> ncols lon = ncols lat -> nrows lat = ncols lat ->
  dims lon <> dims lat -> names_swapped lon lat -> ~ safe_lonlat lon vlon vlat thr ->
  tie_points_geo_interpolation nan lon lat s f (Some thr) zt = tie_points_geo_interpolation nan (turned lon) lat s f (Some thr) zt.
Proof.
  intros nan lon lat vlon vlat s f thr zt F1 F2 Hn S1 S2 Sq Hd [W1 W2] Hs.
  assert (F1' : finite_da (turned lon) (fun i j => vlon j i)).
  { intros i j Hi Hj. cbn in *. apply F1; assumption. }
  assert (TC : to_cart lon lat (Some thr) = true).
  { destruct (to_cart lon lat (Some thr)) eqn:T; [reflexivity|exfalso]. apply Hs.
    apply (unsafe_cart lon lat vlon vlat thr F1 F2 S1 S2 Hn ltac:(lia)). exact T. }
  assert (TC' : to_cart (turned lon) lat (Some thr) = true).
  { destruct (to_cart (turned lon) lat (Some thr)) eqn:T; [reflexivity|exfalso]. apply Hs.
    apply (unsafe_cart (turned lon) lat _ vlat thr F1' F2) in T; cbn; try lia.
    destruct T as [A B]. cbn [turned nrows ncols] in A, B. split.
    - intros i k Hi Hk. apply A; lia.
    - intros i k i' k' Hi Hk Hi' Hk'. apply (B k i k' i'); assumption. }
  unfold tie_points_geo_interpolation. rewrite TC, TC'.
  rewrite (proj2 (shape_eqb_eq lon lat)), (proj2 (shape_eqb_eq (turned lon) lat)) by (cbn; lia). cbn [negb].
  destruct (_ || _); [reflexivity|].
  assert (A : forall l : darray (option R), l = turned lon -> align_longitude l lat = Ok l).
  { intros l ->. unfold align_longitude. rewrite (proj2 (dims_eqb_eq (turned lon) lat)); [reflexivity|].
    cbn [turned dims]. rewrite W1, W2. now destruct (dims lat). }
  rewrite (A _ eq_refl). unfold align_longitude.
  destruct (dims_eqb lon lat) eqn:E; [apply dims_eqb_eq in E; contradiction|].
  rewrite W1, W2, !Nat.eqb_refl, S1, S2, Sq, Nat.eqb_refl. cbn [andb bind].
  replace {| dims := dims lat; nrows := ncols lat; ncols := ncols lat; at_ := fun i j => at_ lon j i |} with (turned lon); [reflexivity|].
  unfold turned. rewrite W1, W2, S1, S2, Sq. f_equal. now destruct (dims lat).
Qed.

(** so the refusal of different dimensions depends on the positions: two scans of two rows and four columns *)
Definition c124_lon : darray (option R) := {| dims := (0, 1)%nat; nrows := 4; ncols := 4; at_ := fun i k => Some (INR k) |}.
Definition c124_lat (v : R) : darray (option R) := {| dims := (1, 0)%nat; nrows := 4; ncols := 4; at_ := fun i k => Some v |}.
Lemma c124_safe v thr : safe_lonlat c124_lon (fun i k => INR k) (fun i k => v) thr <-> Rabs v <= thr.
Proof.
  split.
  - intros [A _]. apply (A 0%nat 0%nat); cbn; lia.
  - intros H. split; [intros; exact H|]. intros i j k l _ Hj _ _. cbn [c124_lon ncols] in Hj. pose proof (pos_INR l).
    assert (B : (INR j <= INR 4)%R) by (apply le_INR; lia). cbn [INR] in B. lra.
Qed.
Theorem C124_refuted : exists nan lon lat lat' s f thr zt out,
  dims lon <> dims lat /\ dims lat' = dims lat /\ tie_points_geo_interpolation nan lon lat s f thr zt = Ok out /\ tie_points_geo_interpolation nan lon lat' s f thr zt = Err ValueError.
Proof.
  assert (G : finite_da c124_lon (fun i k => INR k)) by (intros i j _ _; reflexivity).
  assert (L : forall v, finite_da (c124_lat v) (fun i k => v)) by (intros v i j _ _; reflexivity).
  assert (A : args_ok [turned c124_lon; c124_lat 70] 2 8 2).
  { exists (turned c124_lon), [c124_lat 70]. repeat split; cbn; try lia. repeat constructor. }
  assert (N : ~ safe_lonlat (turned c124_lon) (fun i k => INR i) (fun i k => 70) 60).
  { intros [B _]. specialize (B 0%nat 0%nat ltac:(cbn; lia) ltac:(cbn; lia)). rewrite Rabs_pos_eq in B; lra. }
  assert (G' : finite_da (turned c124_lon) (fun i k => INR i)) by (intros i j _ _; reflexivity).
  destruct (C39_cartesian_when_unsafe None (turned c124_lon) (c124_lat 70) (fun i k => INR i) (fun i k => 70) 2 8 2 60 (Some (8 / 10)) G' (L 70) A N)
    as (_ & _ & _ & _ & _ & _ & olon & olat & _ & _ & _ & _ & _ & _ & _ & _ & _ & _ & E & _).
  exists None, c124_lon, (c124_lat 70), (c124_lat 10), 2%nat, 8%nat, (Some 60), (Some (8 / 10)), (olon, olat).
  split; [discriminate|]. split; [reflexivity|]. split.
  - rewrite (C124_cartesian_partial None _ _ (fun i k => INR k) (fun i k => 70)); [|exact G|apply L|cbn; lia|reflexivity|reflexivity|reflexivity| | |]; [exact E| | |].
    + discriminate.
    + split; reflexivity.
    + rewrite c124_safe, Rabs_pos_eq; lra.
  - apply (C124_geodetic_partial None _ _ (fun i k => INR k) (fun i k => 10) 2 8 60); [lia|lia|exact G|apply L|discriminate|].
    apply c124_safe. rewrite Rabs_pos_eq; lra.
Qed.
End Reals.
Example C124_case : dims c124_lon <> dims (c124_lat 70) /\ names_swapped c124_lon (c124_lat 70) /\ nrows (c124_lat 70) = ncols (c124_lat 70) /\ dims ex_lon <> (0, 2) /\ nrows ex_lat <> ncols ex_lat.
Proof. repeat split; discriminate. Qed.
Print Assumptions C124_other_names_partial.
Print Assumptions C124_not_square_partial.
Print Assumptions C124_geodetic_partial.
Print Assumptions C124_cartesian_partial.
Print Assumptions C124_refuted.
