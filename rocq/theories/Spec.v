(** Notions used to state properties; independent of the model of the code. *)
From Coq Require Import ZArith List Reals.
Import ListNotations.

(** a 2d array with [n] rows of [w] columns *)
Definition shaped {A} (n w : nat) (a : list (list A)) : Prop :=
  length a = n /\ Forall (fun r => length r = w) a.

(** element (r, c) of a 2d array ([d] outside) *)
Definition at2 {A} (d : A) (a : list (list A)) (r c : nat) : A := nth c (nth r a []) d.

(** all elements of a 2d array *)
Definition all2 {A} (P : A -> Prop) (a : list (list A)) : Prop := Forall (Forall P) a.

Definition increasing (l : list R) : Prop :=
  forall i j, (i < j < length l)%nat -> (nth i l 0 < nth j l 0)%R.

(** a spline evaluator [f knots values degree x] that passes through its data *)
Definition interpolates (f : list R -> list R -> Z -> R -> R) : Prop :=
  forall ks vs k i, increasing ks -> length vs = length ks -> (1 <= k <= 5)%Z -> (k < Z.of_nat (length ks))%Z ->
    (i < length ks)%nat -> f ks vs k (nth i ks 0%R) = nth i vs 0%R.

(** the straight line through (p0, d0) and (p1, d1) *)
Definition straight_line (p0 d0 p1 d1 x : R) : R := (d0 + (d1 - d0) / (p1 - p0) * (x - p0))%R.
