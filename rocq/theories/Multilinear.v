(** Model of geotiepoints/multilinear.py and geotiepoints/multilinear_cython.pyx.

    Arrays are lists; [rd1]/[rd2] are reads without bounds check in the program ([OutOfBounds] here).
    Orders and positions are C ints, which wrap around ([cint]); sums and products of wrapped numbers, wrapped again, are
    the wrapped sums and products, so that one wrap at the end of an expression is enough.
    (order - 1 and order - 2 do not wrap unless the order is -2^31 or -2^31 + 1.)
    The prange loops run in an arbitrary order. *)
From Coq Require Import ZArith List Bool.
From Verif Require Import Base Num.
Import ListNotations.
Open Scope Z_scope.

Definition rd1 {A} (l : list A) (i : Z) : res A :=
  if i <? 0 then Err OutOfBounds
  else match nth_error l (Z.to_nat i) with Some a => Ok a | None => Err OutOfBounds end.
Definition rd2 {A} (l : list (list A)) (i j : Z) : res A := let* r := rd1 l i in rd1 r j.

(** conversion to a 32 bit C int *)
Definition cint (z : Z) : Z := (z + 2147483648) mod 4294967296 - 2147483648.
(** cdef int order_k = orders[k] *)
Definition rdo (orders : list Z) (k : Z) : res Z := let* o := rd1 orders k in Ok (cint o).
(** V[...] at a position computed with C ints *)
Definition rdi {A} (V : list A) (i : Z) : res A := rd1 V (cint i).

Definition wr1 {A} (l : list A) (i : Z) (a : A) : res (list A) :=
  if (0 <=? i) && (i <? Z.of_nat (length l))
  then Ok (firstn (Z.to_nat i) l ++ a :: skipn (S (Z.to_nat i)) l) else Err OutOfBounds.

Section ML.
Context {T : Type} {N : NumOps T}.

(** q_k = max(min(<int>(sn_k*(order_k-1)), order_k-2), 0) *)
Definition cell (sn : T) (order : Z) : Z :=
  Z.max (Z.min (ntrunc (nmul sn (nz (order - 1)))) (order - 2)) 0.

Section Bodies.
Local Open Scope num_scope.
(** multilinear_cython.pyx:48-78: the values on the vertices, and the interpolated value *)
Definition vertices_1d (V : list T) (q_0 : Z) (lam_0 : T) : res T :=
  let* v_0 := rdi V (q_0)%Z in
  let* v_1 := rdi V ((q_0 + 1))%Z in
  Ok ((nz 1 - lam_0) * (v_0) + lam_0 * (v_1)).

(** multilinear_cython.pyx:48-78, body of the loop *)
Definition ml_1d (smin smax : list T) (orders : list Z) (V : list T) (s : list (list T)) (i : Z) : res T :=
  let* order_0 := rdo orders 0 in
  let* s_0 := rd2 s 0 i in
  let* lo_0 := rd1 smin 0 in let* hi_0 := rd1 smax 0 in
  let sn_0 := (s_0 - lo_0) / (hi_0 - lo_0) in
  let q_0 := cell sn_0 order_0 in
  let lam_0 := sn_0 * nz (order_0 - 1) - nz q_0 in
  vertices_1d V q_0 lam_0.

(** multilinear_cython.pyx:81-123: the values on the vertices, and the interpolated value *)
Definition vertices_2d (V : list T) (M_0 q_0 q_1 : Z) (lam_0 lam_1 : T) : res T :=
  let* v_00 := rdi V (M_0 * q_0 + q_1)%Z in
  let* v_01 := rdi V (M_0 * q_0 + (q_1 + 1))%Z in
  let* v_10 := rdi V (M_0 * (q_0 + 1) + q_1)%Z in
  let* v_11 := rdi V (M_0 * (q_0 + 1) + (q_1 + 1))%Z in
  Ok ((nz 1 - lam_0) * ((nz 1 - lam_1) * (v_00) + lam_1 * (v_01)) + lam_0 * ((nz 1 - lam_1) * (v_10) + lam_1 * (v_11))).

(** multilinear_cython.pyx:81-123, body of the loop *)
Definition ml_2d (smin smax : list T) (orders : list Z) (V : list T) (s : list (list T)) (i : Z) : res T :=
  let* order_0 := rdo orders 0 in
  let* order_1 := rdo orders 1 in
  let M_0 := (order_1)%Z in
  let* s_0 := rd2 s 0 i in
  let* s_1 := rd2 s 1 i in
  let* lo_0 := rd1 smin 0 in let* hi_0 := rd1 smax 0 in
  let sn_0 := (s_0 - lo_0) / (hi_0 - lo_0) in
  let* lo_1 := rd1 smin 1 in let* hi_1 := rd1 smax 1 in
  let sn_1 := (s_1 - lo_1) / (hi_1 - lo_1) in
  let q_0 := cell sn_0 order_0 in
  let q_1 := cell sn_1 order_1 in
  let lam_0 := sn_0 * nz (order_0 - 1) - nz q_0 in
  let lam_1 := sn_1 * nz (order_1 - 1) - nz q_1 in
  vertices_2d V M_0 q_0 q_1 lam_0 lam_1.

(** multilinear_cython.pyx:126-183: the values on the vertices, and the interpolated value *)
Definition vertices_3d (V : list T) (M_0 M_1 q_0 q_1 q_2 : Z) (lam_0 lam_1 lam_2 : T) : res T :=
  let* v_000 := rdi V (M_0 * q_0 + M_1 * q_1 + q_2)%Z in
  let* v_001 := rdi V (M_0 * q_0 + M_1 * q_1 + (q_2 + 1))%Z in
  let* v_010 := rdi V (M_0 * q_0 + M_1 * (q_1 + 1) + q_2)%Z in
  let* v_011 := rdi V (M_0 * q_0 + M_1 * (q_1 + 1) + (q_2 + 1))%Z in
  let* v_100 := rdi V (M_0 * (q_0 + 1) + M_1 * q_1 + q_2)%Z in
  let* v_101 := rdi V (M_0 * (q_0 + 1) + M_1 * q_1 + (q_2 + 1))%Z in
  let* v_110 := rdi V (M_0 * (q_0 + 1) + M_1 * (q_1 + 1) + q_2)%Z in
  let* v_111 := rdi V (M_0 * (q_0 + 1) + M_1 * (q_1 + 1) + (q_2 + 1))%Z in
  Ok ((nz 1 - lam_0) * ((nz 1 - lam_1) * ((nz 1 - lam_2) * (v_000) + lam_2 * (v_001)) + lam_1 * ((nz 1 - lam_2) * (v_010) + lam_2 * (v_011))) + lam_0 * ((nz 1 - lam_1) * ((nz 1 - lam_2) * (v_100) + lam_2 * (v_101)) + lam_1 * ((nz 1 - lam_2) * (v_110) + lam_2 * (v_111)))).

(** multilinear_cython.pyx:126-183, body of the loop *)
Definition ml_3d (smin smax : list T) (orders : list Z) (V : list T) (s : list (list T)) (i : Z) : res T :=
  let* order_0 := rdo orders 0 in
  let* order_1 := rdo orders 1 in
  let* order_2 := rdo orders 2 in
  let M_0 := (order_1 * order_2)%Z in
  let M_1 := (order_2)%Z in
  let* s_0 := rd2 s 0 i in
  let* s_1 := rd2 s 1 i in
  let* s_2 := rd2 s 2 i in
  let* lo_0 := rd1 smin 0 in let* hi_0 := rd1 smax 0 in
  let sn_0 := (s_0 - lo_0) / (hi_0 - lo_0) in
  let* lo_1 := rd1 smin 1 in let* hi_1 := rd1 smax 1 in
  let sn_1 := (s_1 - lo_1) / (hi_1 - lo_1) in
  let* lo_2 := rd1 smin 2 in let* hi_2 := rd1 smax 2 in
  let sn_2 := (s_2 - lo_2) / (hi_2 - lo_2) in
  let q_0 := cell sn_0 order_0 in
  let q_1 := cell sn_1 order_1 in
  let q_2 := cell sn_2 order_2 in
  let lam_0 := sn_0 * nz (order_0 - 1) - nz q_0 in
  let lam_1 := sn_1 * nz (order_1 - 1) - nz q_1 in
  let lam_2 := sn_2 * nz (order_2 - 1) - nz q_2 in
  vertices_3d V M_0 M_1 q_0 q_1 q_2 lam_0 lam_1 lam_2.

(** multilinear_cython.pyx:186-268: the values on the vertices, and the interpolated value *)
Definition vertices_4d (V : list T) (M_0 M_1 M_2 q_0 q_1 q_2 q_3 : Z) (lam_0 lam_1 lam_2 lam_3 : T) : res T :=
  let* v_0000 := rdi V (M_0 * q_0 + M_1 * q_1 + M_2 * q_2 + q_3)%Z in
  let* v_0001 := rdi V (M_0 * q_0 + M_1 * q_1 + M_2 * q_2 + (q_3 + 1))%Z in
  let* v_0010 := rdi V (M_0 * q_0 + M_1 * q_1 + M_2 * (q_2 + 1) + q_3)%Z in
  let* v_0011 := rdi V (M_0 * q_0 + M_1 * q_1 + M_2 * (q_2 + 1) + (q_3 + 1))%Z in
  let* v_0100 := rdi V (M_0 * q_0 + M_1 * (q_1 + 1) + M_2 * q_2 + q_3)%Z in
  let* v_0101 := rdi V (M_0 * q_0 + M_1 * (q_1 + 1) + M_2 * q_2 + (q_3 + 1))%Z in
  let* v_0110 := rdi V (M_0 * q_0 + M_1 * (q_1 + 1) + M_2 * (q_2 + 1) + q_3)%Z in
  let* v_0111 := rdi V (M_0 * q_0 + M_1 * (q_1 + 1) + M_2 * (q_2 + 1) + (q_3 + 1))%Z in
  let* v_1000 := rdi V (M_0 * (q_0 + 1) + M_1 * q_1 + M_2 * q_2 + q_3)%Z in
  let* v_1001 := rdi V (M_0 * (q_0 + 1) + M_1 * q_1 + M_2 * q_2 + (q_3 + 1))%Z in
  let* v_1010 := rdi V (M_0 * (q_0 + 1) + M_1 * q_1 + M_2 * (q_2 + 1) + q_3)%Z in
  let* v_1011 := rdi V (M_0 * (q_0 + 1) + M_1 * q_1 + M_2 * (q_2 + 1) + (q_3 + 1))%Z in
  let* v_1100 := rdi V (M_0 * (q_0 + 1) + M_1 * (q_1 + 1) + M_2 * q_2 + q_3)%Z in
  let* v_1101 := rdi V (M_0 * (q_0 + 1) + M_1 * (q_1 + 1) + M_2 * q_2 + (q_3 + 1))%Z in
  let* v_1110 := rdi V (M_0 * (q_0 + 1) + M_1 * (q_1 + 1) + M_2 * (q_2 + 1) + q_3)%Z in
  let* v_1111 := rdi V (M_0 * (q_0 + 1) + M_1 * (q_1 + 1) + M_2 * (q_2 + 1) + (q_3 + 1))%Z in
  Ok ((nz 1 - lam_0) * ((nz 1 - lam_1) * ((nz 1 - lam_2) * ((nz 1 - lam_3) * (v_0000) + lam_3 * (v_0001)) + lam_2 * ((nz 1 - lam_3) * (v_0010) + lam_3 * (v_0011))) + lam_1 * ((nz 1 - lam_2) * ((nz 1 - lam_3) * (v_0100) + lam_3 * (v_0101)) + lam_2 * ((nz 1 - lam_3) * (v_0110) + lam_3 * (v_0111)))) + lam_0 * ((nz 1 - lam_1) * ((nz 1 - lam_2) * ((nz 1 - lam_3) * (v_1000) + lam_3 * (v_1001)) + lam_2 * ((nz 1 - lam_3) * (v_1010) + lam_3 * (v_1011))) + lam_1 * ((nz 1 - lam_2) * ((nz 1 - lam_3) * (v_1100) + lam_3 * (v_1101)) + lam_2 * ((nz 1 - lam_3) * (v_1110) + lam_3 * (v_1111))))).

(** multilinear_cython.pyx:186-268, body of the loop *)
Definition ml_4d (smin smax : list T) (orders : list Z) (V : list T) (s : list (list T)) (i : Z) : res T :=
  let* order_0 := rdo orders 0 in
  let* order_1 := rdo orders 1 in
  let* order_2 := rdo orders 2 in
  let* order_3 := rdo orders 3 in
  let M_0 := (order_1 * order_2 * order_3)%Z in
  let M_1 := (order_2 * order_3)%Z in
  let M_2 := (order_3)%Z in
  let* s_0 := rd2 s 0 i in
  let* s_1 := rd2 s 1 i in
  let* s_2 := rd2 s 2 i in
  let* s_3 := rd2 s 3 i in
  let* lo_0 := rd1 smin 0 in let* hi_0 := rd1 smax 0 in
  let sn_0 := (s_0 - lo_0) / (hi_0 - lo_0) in
  let* lo_1 := rd1 smin 1 in let* hi_1 := rd1 smax 1 in
  let sn_1 := (s_1 - lo_1) / (hi_1 - lo_1) in
  let* lo_2 := rd1 smin 2 in let* hi_2 := rd1 smax 2 in
  let sn_2 := (s_2 - lo_2) / (hi_2 - lo_2) in
  let* lo_3 := rd1 smin 3 in let* hi_3 := rd1 smax 3 in
  let sn_3 := (s_3 - lo_3) / (hi_3 - lo_3) in
  let q_0 := cell sn_0 order_0 in
  let q_1 := cell sn_1 order_1 in
  let q_2 := cell sn_2 order_2 in
  let q_3 := cell sn_3 order_3 in
  let lam_0 := sn_0 * nz (order_0 - 1) - nz q_0 in
  let lam_1 := sn_1 * nz (order_1 - 1) - nz q_1 in
  let lam_2 := sn_2 * nz (order_2 - 1) - nz q_2 in
  let lam_3 := sn_3 * nz (order_3 - 1) - nz q_3 in
  vertices_4d V M_0 M_1 M_2 q_0 q_1 q_2 q_3 lam_0 lam_1 lam_2 lam_3.

(** multilinear_cython.pyx:271-392: the values on the vertices, and the interpolated value *)
Definition vertices_5d (V : list T) (M_0 M_1 M_2 M_3 q_0 q_1 q_2 q_3 q_4 : Z) (lam_0 lam_1 lam_2 lam_3 lam_4 : T) : res T :=
  let* v_00000 := rdi V (M_0 * q_0 + M_1 * q_1 + M_2 * q_2 + M_3 * q_3 + q_4)%Z in
  let* v_00001 := rdi V (M_0 * q_0 + M_1 * q_1 + M_2 * q_2 + M_3 * q_3 + (q_4 + 1))%Z in
  let* v_00010 := rdi V (M_0 * q_0 + M_1 * q_1 + M_2 * q_2 + M_3 * (q_3 + 1) + q_4)%Z in
  let* v_00011 := rdi V (M_0 * q_0 + M_1 * q_1 + M_2 * q_2 + M_3 * (q_3 + 1) + (q_4 + 1))%Z in
  let* v_00100 := rdi V (M_0 * q_0 + M_1 * q_1 + M_2 * (q_2 + 1) + M_3 * q_3 + q_4)%Z in
  let* v_00101 := rdi V (M_0 * q_0 + M_1 * q_1 + M_2 * (q_2 + 1) + M_3 * q_3 + (q_4 + 1))%Z in
  let* v_00110 := rdi V (M_0 * q_0 + M_1 * q_1 + M_2 * (q_2 + 1) + M_3 * (q_3 + 1) + q_4)%Z in
  let* v_00111 := rdi V (M_0 * q_0 + M_1 * q_1 + M_2 * (q_2 + 1) + M_3 * (q_3 + 1) + (q_4 + 1))%Z in
  let* v_01000 := rdi V (M_0 * q_0 + M_1 * (q_1 + 1) + M_2 * q_2 + M_3 * q_3 + q_4)%Z in
  let* v_01001 := rdi V (M_0 * q_0 + M_1 * (q_1 + 1) + M_2 * q_2 + M_3 * q_3 + (q_4 + 1))%Z in
  let* v_01010 := rdi V (M_0 * q_0 + M_1 * (q_1 + 1) + M_2 * q_2 + M_3 * (q_3 + 1) + q_4)%Z in
  let* v_01011 := rdi V (M_0 * q_0 + M_1 * (q_1 + 1) + M_2 * q_2 + M_3 * (q_3 + 1) + (q_4 + 1))%Z in
  let* v_01100 := rdi V (M_0 * q_0 + M_1 * (q_1 + 1) + M_2 * (q_2 + 1) + M_3 * q_3 + q_4)%Z in
  let* v_01101 := rdi V (M_0 * q_0 + M_1 * (q_1 + 1) + M_2 * (q_2 + 1) + M_3 * q_3 + (q_4 + 1))%Z in
  let* v_01110 := rdi V (M_0 * q_0 + M_1 * (q_1 + 1) + M_2 * (q_2 + 1) + M_3 * (q_3 + 1) + q_4)%Z in
  let* v_01111 := rdi V (M_0 * q_0 + M_1 * (q_1 + 1) + M_2 * (q_2 + 1) + M_3 * (q_3 + 1) + (q_4 + 1))%Z in
  let* v_10000 := rdi V (M_0 * (q_0 + 1) + M_1 * q_1 + M_2 * q_2 + M_3 * q_3 + q_4)%Z in
  let* v_10001 := rdi V (M_0 * (q_0 + 1) + M_1 * q_1 + M_2 * q_2 + M_3 * q_3 + (q_4 + 1))%Z in
  let* v_10010 := rdi V (M_0 * (q_0 + 1) + M_1 * q_1 + M_2 * q_2 + M_3 * (q_3 + 1) + q_4)%Z in
  let* v_10011 := rdi V (M_0 * (q_0 + 1) + M_1 * q_1 + M_2 * q_2 + M_3 * (q_3 + 1) + (q_4 + 1))%Z in
  let* v_10100 := rdi V (M_0 * (q_0 + 1) + M_1 * q_1 + M_2 * (q_2 + 1) + M_3 * q_3 + q_4)%Z in
  let* v_10101 := rdi V (M_0 * (q_0 + 1) + M_1 * q_1 + M_2 * (q_2 + 1) + M_3 * q_3 + (q_4 + 1))%Z in
  let* v_10110 := rdi V (M_0 * (q_0 + 1) + M_1 * q_1 + M_2 * (q_2 + 1) + M_3 * (q_3 + 1) + q_4)%Z in
  let* v_10111 := rdi V (M_0 * (q_0 + 1) + M_1 * q_1 + M_2 * (q_2 + 1) + M_3 * (q_3 + 1) + (q_4 + 1))%Z in
  let* v_11000 := rdi V (M_0 * (q_0 + 1) + M_1 * (q_1 + 1) + M_2 * q_2 + M_3 * q_3 + q_4)%Z in
  let* v_11001 := rdi V (M_0 * (q_0 + 1) + M_1 * (q_1 + 1) + M_2 * q_2 + M_3 * q_3 + (q_4 + 1))%Z in
  let* v_11010 := rdi V (M_0 * (q_0 + 1) + M_1 * (q_1 + 1) + M_2 * q_2 + M_3 * (q_3 + 1) + q_4)%Z in
  let* v_11011 := rdi V (M_0 * (q_0 + 1) + M_1 * (q_1 + 1) + M_2 * q_2 + M_3 * (q_3 + 1) + (q_4 + 1))%Z in
  let* v_11100 := rdi V (M_0 * (q_0 + 1) + M_1 * (q_1 + 1) + M_2 * (q_2 + 1) + M_3 * q_3 + q_4)%Z in
  let* v_11101 := rdi V (M_0 * (q_0 + 1) + M_1 * (q_1 + 1) + M_2 * (q_2 + 1) + M_3 * q_3 + (q_4 + 1))%Z in
  let* v_11110 := rdi V (M_0 * (q_0 + 1) + M_1 * (q_1 + 1) + M_2 * (q_2 + 1) + M_3 * (q_3 + 1) + q_4)%Z in
  let* v_11111 := rdi V (M_0 * (q_0 + 1) + M_1 * (q_1 + 1) + M_2 * (q_2 + 1) + M_3 * (q_3 + 1) + (q_4 + 1))%Z in
  Ok ((nz 1 - lam_0) * ((nz 1 - lam_1) * ((nz 1 - lam_2) * ((nz 1 - lam_3) * ((nz 1 - lam_4) * (v_00000) + lam_4 * (v_00001)) + lam_3 * ((nz 1 - lam_4) * (v_00010) + lam_4 * (v_00011))) + lam_2 * ((nz 1 - lam_3) * ((nz 1 - lam_4) * (v_00100) + lam_4 * (v_00101)) + lam_3 * ((nz 1 - lam_4) * (v_00110) + lam_4 * (v_00111)))) + lam_1 * ((nz 1 - lam_2) * ((nz 1 - lam_3) * ((nz 1 - lam_4) * (v_01000) + lam_4 * (v_01001)) + lam_3 * ((nz 1 - lam_4) * (v_01010) + lam_4 * (v_01011))) + lam_2 * ((nz 1 - lam_3) * ((nz 1 - lam_4) * (v_01100) + lam_4 * (v_01101)) + lam_3 * ((nz 1 - lam_4) * (v_01110) + lam_4 * (v_01111))))) + lam_0 * ((nz 1 - lam_1) * ((nz 1 - lam_2) * ((nz 1 - lam_3) * ((nz 1 - lam_4) * (v_10000) + lam_4 * (v_10001)) + lam_3 * ((nz 1 - lam_4) * (v_10010) + lam_4 * (v_10011))) + lam_2 * ((nz 1 - lam_3) * ((nz 1 - lam_4) * (v_10100) + lam_4 * (v_10101)) + lam_3 * ((nz 1 - lam_4) * (v_10110) + lam_4 * (v_10111)))) + lam_1 * ((nz 1 - lam_2) * ((nz 1 - lam_3) * ((nz 1 - lam_4) * (v_11000) + lam_4 * (v_11001)) + lam_3 * ((nz 1 - lam_4) * (v_11010) + lam_4 * (v_11011))) + lam_2 * ((nz 1 - lam_3) * ((nz 1 - lam_4) * (v_11100) + lam_4 * (v_11101)) + lam_3 * ((nz 1 - lam_4) * (v_11110) + lam_4 * (v_11111)))))).

(** multilinear_cython.pyx:271-392, body of the loop (never called) *)
Definition ml_5d (smin smax : list T) (orders : list Z) (V : list T) (s : list (list T)) (i : Z) : res T :=
  let* order_0 := rdo orders 0 in
  let* order_1 := rdo orders 1 in
  let* order_2 := rdo orders 2 in
  let* order_3 := rdo orders 3 in
  let* order_4 := rdo orders 4 in
  let M_0 := (order_1 * order_2 * order_3 * order_4)%Z in
  let M_1 := (order_2 * order_3 * order_4)%Z in
  let M_2 := (order_3 * order_4)%Z in
  let M_3 := (order_4)%Z in
  let* s_0 := rd2 s 0 i in
  let* s_1 := rd2 s 1 i in
  let* s_2 := rd2 s 2 i in
  let* s_3 := rd2 s 3 i in
  let* s_4 := rd2 s 4 i in
  let* lo_0 := rd1 smin 0 in let* hi_0 := rd1 smax 0 in
  let sn_0 := (s_0 - lo_0) / (hi_0 - lo_0) in
  let* lo_1 := rd1 smin 1 in let* hi_1 := rd1 smax 1 in
  let sn_1 := (s_1 - lo_1) / (hi_1 - lo_1) in
  let* lo_2 := rd1 smin 2 in let* hi_2 := rd1 smax 2 in
  let sn_2 := (s_2 - lo_2) / (hi_2 - lo_2) in
  let* lo_3 := rd1 smin 3 in let* hi_3 := rd1 smax 3 in
  let sn_3 := (s_3 - lo_3) / (hi_3 - lo_3) in
  let* lo_4 := rd1 smin 4 in let* hi_4 := rd1 smax 4 in
  let sn_4 := (s_4 - lo_4) / (hi_4 - lo_4) in
  let q_0 := cell sn_0 order_0 in
  let q_1 := cell sn_1 order_1 in
  let q_2 := cell sn_2 order_2 in
  let q_3 := cell sn_3 order_3 in
  let q_4 := cell sn_4 order_4 in
  let lam_0 := sn_0 * nz (order_0 - 1) - nz q_0 in
  let lam_1 := sn_1 * nz (order_1 - 1) - nz q_1 in
  let lam_2 := sn_2 * nz (order_2 - 1) - nz q_2 in
  let lam_3 := sn_3 * nz (order_3 - 1) - nz q_3 in
  let lam_4 := sn_4 * nz (order_4 - 1) - nz q_4 in
  vertices_5d V M_0 M_1 M_2 M_3 q_0 q_1 q_2 q_3 q_4 lam_0 lam_1 lam_2 lam_3 lam_4.

End Bodies.

(** [for i in prange(n_s): output[i] = body i], iterations in the order given *)
Fixpoint prange (order : list Z) (body : Z -> res T) (output : list T) : res (list T) :=
  match order with
  | [] => Ok output
  | i :: order' => let* v := body i in let* output' := wr1 output i v in prange order' body output'
  end.

(** multilinear_cython.pyx:13-45. [empty] = contents of np.empty((n_v, n_s)); [scheds] = for every row
    of values the order in which the parallel loop runs through the points: 0 .. n_s-1, n_s being passed as a C int. *)
Definition multilinear_interpolation (scheds : list (list Z)) (empty : list (list T))
    (smin smax : list T) (orders : list Z) (values s : list (list T)) : res (list (list T)) :=
  let d := Z.of_nat (length s) in
  if 4 <? d then Err GenericException
  else mapM (fun vr => let '(vals, res, sched) := vr in
         if d =? 1 then prange sched (ml_1d smin smax orders vals s) res
         else if d =? 2 then prange sched (ml_2d smin smax orders vals s) res
         else if d =? 3 then prange sched (ml_3d smin smax orders vals s) res
         else if d =? 4 then prange sched (ml_4d smin smax orders vals s) res
         else Ok res) (combine (combine values empty) scheds).

(** numpy.linspace(start, stop, num) for num >= 1: arange * step + start, last element = stop *)
Definition linspace (start stop : T) (num : nat) : list T :=
  match num with
  | O => []
  | S O => [start]
  | S (S _ as m) =>
      let step := ndiv (nsub stop start) (nz (Z.of_nat m)) in
      map (fun k => nadd (nmul (nz k) step) start) (zrange 0 m) ++ [stop]
  end.

(** the points of a cartesian grid, last coordinate fastest (meshgrid 'ij' + flatten), as points *)
Fixpoint cart (axes : list (list T)) : list (list T) :=
  match axes with
  | [] => [[]]
  | a :: axes' => flat_map (fun x => map (cons x) (cart axes')) a
  end.

(** multilinear.py:8-16. For one dimension numpy.linspace is given an array as number of points: TypeError.
    (mismatching lengths of smin, smax, orders: IndexError) *)
Definition mlinspace (smin smax : list T) (orders : list nat) : res (list (list T)) :=
  if (length orders =? 1)%nat then Err TypeError
  else
    let* axes := mapM (fun i =>
       match nth_error smin i, nth_error smax i, nth_error orders i with
       | Some a, Some b, Some n => Ok (linspace a b n)
       | _, _, _ => Err IndexError
       end) (seq 0 (length orders)) in
    let points := cart axes in
    Ok (map (fun k => map (fun p => nth k p (nz 0)) points) (seq 0 (length orders))).

End ML.
