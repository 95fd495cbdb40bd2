(** Fixed-point numbers with approximations of the elementary functions: [FX] is used to run the model on the inputs of the
    project's own tests (Conformance.v). A number is an integer in units of 2^-44, or none (not a finite number). No theorem
    depends on it. *)
From Coq Require Import ZArith List Bool.
From Verif Require Import Base Num.
Import ListNotations.
Open Scope Z_scope.

Definition prec : Z := 44.
Definition fx_one : Z := 2 ^ prec.
Definition fx_of (z : Z) : Z := Z.shiftl z prec.
(** the rational number a / b *)
Definition fx_frac (a b : Z) : Z := Z.shiftl a prec / b.
Definition fx_mul (x y : Z) : Z := Z.shiftr (x * y) prec.
Definition fx_div (x y : Z) : Z := Z.shiftl x prec / y.
Definition fx_sqrt (x : Z) : Z := Z.sqrt (Z.shiftl x prec).

(** c0 + x (c1 + x (...)) *)
Definition horner (cs : list Z) (x : Z) : Z := fold_right (fun c acc => c + fx_mul x acc) 0 cs.
Definition sin_coeffs : list Z := Eval vm_compute in
  map (fun k => fx_frac (if Nat.even k then 1 else -1) (fold_right Z.mul 1 (zrange 1 (2 * k + 1)))) (seq 0 8).
Definition cos_coeffs : list Z := Eval vm_compute in
  map (fun k => fx_frac (if Nat.even k then 1 else -1) (fold_right Z.mul 1 (zrange 1 (2 * k)))) (seq 0 8).
Definition atan_coeffs : list Z := Eval vm_compute in
  map (fun k => fx_frac (if Nat.even k then 1 else -1) (2 * Z.of_nat k + 1)) (seq 0 10).
(** cosine and sine: of x / 4 by their series, then twice the angle, twice *)
Definition double (p : Z * Z) : Z * Z := let '(c, s) := p in (fx_mul c c - fx_mul s s, 2 * fx_mul c s).
Definition fx_cos_sin (x : Z) : Z * Z :=
  let y := Z.shiftr x 2 in
  let y2 := fx_mul y y in
  double (double (horner cos_coeffs y2, fx_mul y (horner sin_coeffs y2))).
Definition fx_cos (x : Z) : Z := fst (fx_cos_sin x).
Definition fx_sin (x : Z) : Z := snd (fx_cos_sin x).
(** arctangent: of half the angle, twice, then the series *)
Definition half_tan (x : Z) : Z := fx_div x (fx_one + fx_sqrt (fx_one + fx_mul x x)).
Definition fx_atan (x : Z) : Z :=
  let y := half_tan (half_tan x) in 4 * fx_mul y (horner atan_coeffs (fx_mul y y)).
Definition fx_pi : Z := Eval vm_compute in fx_frac 3141592653589793238462643383279 (10 ^ 30).
(** arcsine of a number of [-1, 1] *)
Definition fx_asin (x : Z) : Z :=
  let c := fx_sqrt (fx_one - fx_mul x x) in
  if Z.abs x <=? c then fx_atan (fx_div x c)
  else if 0 <=? x then Z.shiftr fx_pi 1 - fx_atan (fx_div c x) else - Z.shiftr fx_pi 1 - fx_atan (fx_div c x).
Definition fx_acos (x : Z) : Z := Z.shiftr fx_pi 1 - fx_asin x.

Definition in_unit (f : Z -> Z) (x : option Z) : option Z :=
  match x with Some a => if Z.abs a <=? fx_one then Some (f a) else None | None => None end.
Definition FX : NumOps (option Z) := {|
  nz := fun z => Some (fx_of z);
  nadd := lift2 Z.add; nsub := lift2 Z.sub; nmul := lift2 fx_mul;
  ndiv := fun x y => match x, y with Some a, Some b => if b =? 0 then None else Some (fx_div a b) | _, _ => None end;
  nsqrt := fun x => match x with Some a => if 0 <=? a then Some (fx_sqrt a) else None | None => None end;
  ncos := lift1 fx_cos; nsin := lift1 fx_sin; nacos := in_unit fx_acos; nasin := in_unit fx_asin; npi := Some fx_pi;
  nltb := liftb Z.ltb; nleb := liftb Z.leb; neqb := liftb Z.eqb;
  ntrunc := fun x => match x with Some a => to_int (Z.quot a fx_one) | None => int_min end;
  nfloor := fun x => match x with Some a => Z.shiftr a prec | None => 0 end;
  nst := fun x => x |}.

(** |x - y| <= tol, for numbers that are finite *)
Definition near (tol : Z) (x : option Z) (y : Z) : bool := match x with Some a => Z.abs (a - y) <=? tol | None => false end.
#[local] Existing Instance FX.
Example functions_near : let t := 30 in
  near t (nsin (npi / nz 6)%num) (fx_frac 1 2) = true /\ near t (ncos (npi / nz 3)%num) (fx_frac 1 2) = true /\
  near t (nasin (nz 1 / nz 2)%num) (fx_pi / 6) = true /\ near t (nacos (nz (-1) / nz 2)%num) (2 * fx_pi / 3) = true /\
  near t (nsqrt (nz 2)) (fx_frac 1414213562373095048801688724209 (10 ^ 30)) = true /\
  near t (nsin (nz (-1) * npi)%num) 0 = true /\ near t (ncos npi) (- fx_one) = true /\
  near t (nsin (nz 1)) (fx_frac 841470984807896506652502321630 (10 ^ 30)) = true /\
  near t (nacos (nz 1 / nz 10)%num) (fx_frac 1470628905633336822885798512187 (10 ^ 30)) = true /\
  near t (nasin (nz (-9) / nz 10)%num) (fx_frac (-1119769514998634186686677055845) (10 ^ 30)) = true.
Proof. vm_compute. repeat split; reflexivity. Qed.
