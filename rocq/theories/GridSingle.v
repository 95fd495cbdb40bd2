(** GridInterpolator on float32 values (geotiepoints/interpolator.py:306-325).

    scipy's RegularGridInterpolator keeps float32 values as they are (_check_values) and evaluates them with the numpy
    code of _evaluate_linear instead of the compiled evaluate_linear_2d, which takes double values only: the weights are
    doubles, their product is taken first, and the sum is a double. The cast of line 325 then rounds it to float32
    ([nst] of the instance [F64_32]). The rest of grid_point (GridLinear.v) is unchanged: scipy converts the axes
    to doubles, and so are the points asked for. *)
From Coq Require Import List Arith Bool ZArith Lia.
From Verif Require Import Num Chunks GridLinear.
Import ListNotations.

Section Single.
Context {T : Type} {N : NumOps T}.

(** scipy: _evaluate_linear; weight = 1., then times the two weights; value = 0., then the four terms *)
Definition linear_np (v : nat -> nat -> T) (i j : nat) (y0 y1 : T) : T :=
  let weight a b := (nz 1 * a * b)%num in
  (nz 0 + v i j * weight (nz 1 - y0) (nz 1 - y1) + v i (S j) * weight (nz 1 - y0) y1
   + v (S i) j * weight y0 (nz 1 - y1) + v (S i) (S j) * weight y0 y1)%num.

Definition rgi_single (k : kind) (i : grid_init T) (p : list T * list T) (d : tie_values T) (kw : unit) (y x : T) : option T :=
  match k with Grid => grid_point_with linear_np i p d y x | Spline => None end.
End Single.
