(** Concrete cases of C13, C60, C68, C107, C129. *)
From Coq Require Import ZArith QArith List Bool Lia Reals Lra.
From Verif Require Import Spec Base Num Splits Interp Legacy PropsLegacy Basic PropsBasic Chunks GridLinear SplineGrid PropsGridLinear PropsSplineGrid InterpObj PropsInterpObj PropsBorderOrder.
Import ListNotations.
#[local] Existing Instance RT.
Open Scope R_scope.

Example C13_case : forall spl1 spl2, exists e, generic_modis5kmto1km spl1 spl2 [repeat (repeat 10 271) 4; repeat (repeat 20 271) 4] = Err e.
Proof. intros. apply (C13_generic_always_raises spl1 spl2 4); [discriminate|]. repeat constructor. Qed.

Notation frame1 := {| f_rows := 2; f_cols := 3; f_at := fun i j => Some (IZR (i + j)) |}.
Example C60_case : @basic_interpolate R RT false [0; 2; 5]%Z [0; 4]%Z frame1 frame1 = Err AttributeError /\
  exists r, @basic_interpolate R RT true [0; 2; 5]%Z [0; 4]%Z frame1 frame1 = Ok r.
Proof. destruct C59_case as (A & B & C). split; [exact (C60_attribute_error _ _ _ _ _ A B C)|exact (C60_partial _ _ _ _ _ _ A B C C)]. Qed.
Example C68_case : exists a b, @basic_interpolate R RT true [0; 2; 5]%Z [0; 4]%Z frame1 frame1 = Ok (a, b) /\ @interp R RT true [0; 2; 5]%Z [0; 4]%Z frame1 = Ok a.
Proof. destruct (proj2 C60_case) as ([a b] & E). exists a, b. split; [exact E|]. exact (proj1 (C68_order _ _ _ _ _ _ _ E)). Qed.

(** a grid interpolator of constant value 1, asked for the rows 2, 0, 1 and the column 0; and a spline interpolator asked for the same *)
Notation ones := {| s_kind := Grid; s_init := tt; s_points := tt; s_values := tt |}.
Example C107_case : exists out, interpolate_numpy (N := RT) (fun _ (_ _ _ _ : unit) y (x : R) => Some (Some (y + x))) ones ([2; 0; 1], [0]) tt = Ok out /\ at2 None out 0 0 = Some (2 + 0).
Proof.
  destruct (C107_grid _ _ _ (fun _ (_ _ _ _ : unit) y (x : R) => Some (Some (y + x))) ones eq_refl [2; 0; 1] [0]) as (out & E & _ & H); [discriminate|].
  exists out. split; [exact E|]. specialize (H 0%nat 0%nat ltac:(cbn; lia) ltac:(cbn; lia)). cbn in H |- *. now injection H.
Qed.
Example C107_case_spline : interpolate_numpy (N := RT) (fun _ (_ _ _ _ : unit) y (x : R) => Some (y + x)) {| s_kind := Spline; s_init := tt; s_points := tt; s_values := tt |} ([2; 0; 1], [0]) tt = Err ValueError /\
  interpolate_numpy (N := RT) (fun _ (_ _ _ _ : unit) y (x : R) => Some (y + x)) {| s_kind := Spline; s_init := tt; s_points := tt; s_values := tt |} ([2; 0; 1], []) tt = Ok [[]; []; []].
Proof.
  split; [|now apply C107_empty; right].
  apply C107_spline; try discriminate; [reflexivity|]. intros [D _]. specialize (D 0%nat ltac:(cbn; lia)). cbn [nth] in D. lra.
Qed.

(** the state of C129_refuted: interpolate() twice more, then the borders *)
Notation state := (@make Q [[[0; 1]; [0; 2]]]%Q ([0; 2]%Q, [1; 2]%Q) ([0; 1; 2]%Q, [0; 1; 2]%Q) 1 1 0).
Example C129_case : exists out, fst (@interpolate _ QT line1 line1 state) = Ok out /\
  held_list (@after_all _ QT line1 line1 [Interpolate; Interpolate; Fill [DimX]] (snd (@interpolate _ QT line1 line1 state))) = out.
Proof.
  destruct (fst (@interpolate _ QT line1 line1 state)) as [out|e] eqn:E; [|vm_compute in E; discriminate]. exists out. split; [reflexivity|].
  apply (C129_kept_partial (N := QT) line1 line1 state out 2 [[DimX]]); [reflexivity|exact E].
Qed.
