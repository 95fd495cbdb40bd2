(** scipy's RegularGridInterpolator with method 'linear' on two axes, as used by
    SingleGridInterpolator (geotiepoints/interpolator.py:315-325), MultipleGridInterpolator
    (interpolator.py:364-369) and GeoGridInterpolator (geointerpolator.py:78-93, 111): an instance of
    the abstract evaluator [ev] and constructor check [valid] of Chunks.v.

    Modelled after scipy/interpolate/_rgi.py (_check_points, _check_dimensionality, __call__,
    _prepare_xi, _find_indices, _evaluate_linear) and _rgi_cython.pyx / _poly_common.pxi
    (find_interval_ascending, evaluate_linear_2d). scipy is not part of the repository.

    Simplifications: the interval is found by scanning the axis instead of by bisection;
    axes have at least two points (scipy's special case of axes of length one is left out);
    coordinates are not NaN; the method is 'linear' in the constructor and in every call. *)
From Coq Require Import ZArith List Bool Arith.
From Verif Require Import Base Num Chunks.
Import ListNotations.
Open Scope nat_scope.

Section Grid.
Context {T : Type} {N : NumOps T}.

(** constructor keyword arguments: interpolator.py:235-241 passes them on; scipy's defaults are
    bounds_error=True, fill_value=nan; [fill_value = None] means extrapolation *)
Record grid_init := { bounds_error : bool; fill_value : option T }.

(** tie values with their dtype (only integer or not matters) *)
Record tie_values := { v_int : bool; v_data : list (list T) }.

Fixpoint ascending (p : list T) : bool :=
  match p with a :: (b :: _) as p' => (a <? b)%num && ascending p' | _ => true end.
Fixpoint descending (p : list T) : bool :=
  match p with a :: (b :: _) as p' => (b <? a)%num && descending p' | _ => true end.

(** scipy: _check_points, _check_dimensionality *)
Definition grid_valid (p : list T * list T) (d : tie_values) : bool :=
  (ascending (fst p) || descending (fst p)) && (ascending (snd p) || descending (snd p)) &&
  (length (v_data d) =? length (fst p)) && forallb (fun r => length r =? length (snd p)) (v_data d).

(** scipy: _check_points and __init__: descending axes are flipped together with the values *)
Definition flip {A} (p : list T) (l : list A) : list A := if ascending p then l else rev l.

(** scipy: find_interval_ascending with extrapolation *)
Fixpoint locate (g : list T) (x : T) : nat :=
  match g with
  | _ :: (b :: _ :: _) as g' => if (x <? b)%num then 0 else S (locate g' x)
  | _ => 0
  end.
(** scipy: find_indices, norm_distances *)
Definition distance (g : list T) (i : nat) (x : T) : T :=
  ((x - nth i g (nz 0)) / (nth (S i) g (nz 0) - nth i g (nz 0)))%num.

(** scipy: evaluate_linear_2d *)
Definition linear_2d (v : nat -> nat -> T) (i j : nat) (y0 y1 : T) : T :=
  (v i j * (nz 1 - y0) * (nz 1 - y1) + v i (S j) * (nz 1 - y0) * y1
   + v (S i) j * y0 * (nz 1 - y1) + v (S i) (S j) * y0 * y1)%num.

(** scipy: _prepare_xi (the test for bounds_error) *)
Definition within (g : list T) (x : T) : bool :=
  (nth 0 g (nz 0) <=? x)%num && (x <=? nth (length g - 1) g (nz 0))%num.

(** interpolator.py:325: .astype(self.values.dtype) *)
Definition astype (int : bool) (x : T) : T := if int then nz (ntrunc x) else nst x.

(** one point: interpolator.py:322-325 with scipy's __call__; [None] = ValueError. [linear] is the evaluation of
    one cell: evaluate_linear_2d for doubles (and integers, which scipy converts to doubles),
    _evaluate_linear for float32 values (GridSingle.v). *)
Definition grid_point_with (linear : (nat -> nat -> T) -> nat -> nat -> T -> T -> T) (i : grid_init) (p : list T * list T) (d : tie_values) (y x : T) : option T :=
  let ys := flip (fst p) (fst p) in
  let xs := flip (snd p) (snd p) in
  let data := flip (fst p) (map (flip (snd p)) (v_data d)) in
  let v r c := nth c (nth r data []) (nz 0) in
  let inside := within ys y && within xs x in
  if bounds_error i && negb inside then None else
  let r := locate ys y in
  let c := locate xs x in
  let value := linear v r c (distance ys r y) (distance xs c x) in
  Some (astype (v_int d) (match fill_value i with Some f => if inside then value else f | None => value end)).

Definition grid_point := grid_point_with linear_2d.

(** the instance of Chunks.v; splines are not modelled here *)
Definition rgi (k : kind) (i : grid_init) (p : list T * list T) (d : tie_values) (kw : unit) (y x : T) : option T :=
  match k with Grid => grid_point i p d y x | Spline => None end.
Definition rgi_valid (k : kind) (i : grid_init) (p : list T * list T) (d : tie_values) : bool :=
  match k with Grid => grid_valid p d | Spline => false end.

End Grid.
Arguments grid_init : clear implicits.
Arguments tie_values : clear implicits.
