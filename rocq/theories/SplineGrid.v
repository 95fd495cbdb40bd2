(** scipy's RectBivariateSpline as used by SingleSplineInterpolator (geotiepoints/interpolator.py:328-339),
    MultipleSplineInterpolator (interpolator.py:372-377) and GeoSplineInterpolator (geointerpolator.py:78-93, 112):
    another instance of the abstract evaluator [ev] and constructor check [valid] of Chunks.v.

    Modelled after scipy/interpolate/_fitpack2.py (RectBivariateSpline.__init__, __call__ with grid=True, no
    derivatives) and FITPACK's regrid and bispev with s=0: the tensor product of the splines along both axes, of
    which those of degrees 1 and 3 are Interp.pl_eval and Cubic.cubic_bispev; [other] stands for degrees 2, 4, 5.
    scipy is not part of the repository.

    Simplifications: exact arithmetic on finite values; bbox is the default, the range of the tie points. *)
From Coq Require Import ZArith List Bool Arith.
From Verif Require Import Base Num Chunks Interp Cubic GridLinear.
Import ListNotations.
Open Scope nat_scope.

Section Splines.
Context {T : Type} {N : NumOps T}.

(** constructor keyword arguments kx and ky (scipy: 3 and 3 by default); interpolator.py:333 passes them on *)
Record spline_init := { deg_y : Z; deg_x : Z }.
Definition default_degrees : spline_init := {| deg_y := 3; deg_x := 3 |}.

(** scipy: RectBivariateSpline.__init__ (increasing axes, matching shape), FITPACK regrid (1 <= k <= 5, more points than k) *)
Definition spline_valid (i : spline_init) (p : list T * list T) (d : tie_values T) : bool :=
  strict_inc (fst p) && strict_inc (snd p) &&
  (length (fst p) =? length (v_data d)) && forallb (fun r => length (snd p) =? length r) (v_data d) &&
  ((1 <=? deg_y i) && (deg_y i <=? 5) && (1 <=? deg_x i) && (deg_x i <=? 5))%Z &&
  ((deg_y i <? Z.of_nat (length (fst p))) && (deg_x i <? Z.of_nat (length (snd p))))%Z.

Variable other : list T -> list T -> Z -> T -> T.

(** one point: interpolator.py:337-339 with scipy's __call__ *)
Definition spline_point (i : spline_init) (p : list T * list T) (d : tie_values T) (y x : T) : T :=
  astype (v_int d)
    (axis_spline (spl2_with other) (fst p) (map (fun r => axis_spline (spl2_with other) (snd p) r (deg_x i) x) (v_data d)) (deg_y i) y).

(** the instance of Chunks.v; the grid interpolator is in GridLinear.v *)
Definition rbs (k : kind) (i : spline_init) (p : list T * list T) (d : tie_values T) (kw : unit) (y x : T) : option T :=
  match k with Spline => Some (spline_point i p d y x) | Grid => None end.
Definition rbs_valid (k : kind) (i : spline_init) (p : list T * list T) (d : tie_values T) : bool :=
  match k with Spline => spline_valid i p d | Grid => false end.
End Splines.
