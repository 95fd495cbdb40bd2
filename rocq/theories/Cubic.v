(** FITPACK's interpolating splines of degree 3 (scipy splrep with s=0 and RectBivariateSpline with s=0), as used by
    class Interpolator with kx_ or ky_ = 3 (geotiepoints/interpolator.py:196-223; __init__.py:40-137 uses ky_ = 3).

    FITPACK (fpcurf, fpregr with s = 0) takes as interior knots all positions except the first two and the last two, and
    solves for the coefficients of the B-splines. Here the same function (PropsCubic.v) is computed from its second
    derivatives at the positions, the solution of a tridiagonal system; scipy is not part of the repository. *)
From Coq Require Import ZArith List Bool Arith.
From Verif Require Import Base Num Interp.
Import ListNotations.
Open Scope nat_scope.

Section Cubic.
Context {T : Type} {N : NumOps T}.

(** equations a * m_(k-1) + b * m_k + c * m_(k+1) = d: elimination downwards, substitution upwards *)
Record row := { r_a : T; r_b : T; r_c : T; r_d : T }.
Fixpoint solve (rows : list row) (cp dp : T) : list T :=
  match rows with
  | [] => []
  | r :: rows' =>
      let den := (r_b r - r_a r * cp)%num in
      let c := (r_c r / den)%num in
      let d := ((r_d r - r_a r * dp) / den)%num in
      let m := solve rows' c d in
      (d - c * hd (nz 0) m)%num :: m
  end.

Variables ks vs : list T.
Definition width (i : nat) : T := (nth (S i) ks (nz 0) - nth i ks (nz 0))%num.
Definition slope (i : nat) : T := ((nth (S i) vs (nz 0) - nth i vs (nz 0)) / width i)%num.
Definition cells : nat := length ks - 1.

(** continuity of the first derivative at position k; the first two and the last two cells have the same polynomial *)
Definition equation (k : nat) : row :=
  let h := width (k - 1) in
  let h' := width k in
  let d := (nz 6 * (slope k - slope (k - 1)))%num in
  if k =? 1 then {| r_a := nz 0; r_b := (h + nz 2 * h')%num; r_c := (h' - h)%num; r_d := (d * h' / (h + h'))%num |}
  else if k =? cells - 1 then {| r_a := (h - h')%num; r_b := (h' + nz 2 * h)%num; r_c := nz 0; r_d := (d * h / (h + h'))%num |}
  else {| r_a := h; r_b := (nz 2 * (h + h'))%num; r_c := h'; r_d := d |}.

Definition inner : list T := solve (map equation (seq 1 (cells - 1))) (nz 0) (nz 0).

(** second derivatives at all positions *)
Definition curvature (k : nat) : T :=
  let m (j : nat) : T := nth (j - 1) inner (nz 0) in
  let e := cells - 1 in
  let e' := cells - 2 in
  if k =? 0 then (m 1 - width 0 / width 1 * (m 2 - m 1))%num
  else if k =? cells then (m e + width e / width e' * (m e - m e'))%num
  else m k.

Definition piece (i : nat) (x : T) : T :=
  let t := (x - nth i ks (nz 0))%num in
  let m0 := curvature i in
  let m1 := curvature (S i) in
  (nth i vs (nz 0) + (slope i - width i * (nz 2 * m0 + m1) / nz 6) * t + m0 / nz 2 * (t * t)
   + (m1 - m0) / (nz 6 * width i) * (t * t * t))%num.

End Cubic.

Section Evaluate.
Context {T : Type} {N : NumOps T}.

(** the interval k_i <= x < k_(i+1); the last one reaches to the right without end, the first one to the left *)
Fixpoint interval (ks : list T) (x : T) : nat :=
  match ks with
  | _ :: ((b :: _ :: _) as ks') => if (x <? b)%num then 0 else S (interval ks' x)
  | _ => 0
  end.

(** splev: extrapolates with the outermost polynomials *)
Definition cubic_splev (ks vs : list T) (x : T) : T := piece ks vs (interval ks x) x.
(** bispev: the argument is moved into the interval of the data *)
Definition cubic_bispev (ks vs : list T) (x : T) : T :=
  cubic_splev ks vs (clamp (hd (nz 0) ks) (last ks (nz 0)) x).

(** the evaluators of Interp.v, given those of the other degrees *)
Definition spl1_with (other : list T -> list T -> Z -> T -> T) (ks vs : list T) (k : Z) (x : T) : T :=
  if (k =? 3)%Z then cubic_splev ks vs x else other ks vs k x.
Definition spl2_with (other : list T -> list T -> Z -> T -> T) (ks vs : list T) (k : Z) (x : T) : T :=
  if (k =? 3)%Z then cubic_bispev ks vs x else other ks vs k x.
End Evaluate.
