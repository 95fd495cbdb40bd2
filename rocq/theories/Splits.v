(** Model of geotiepoints/__init__.py: get_scene_splits and the multi-core driver _multi. *)
From Coq Require Import ZArith List Lia Bool Permutation.
From Verif Require Import Base.
Import ListNotations.
Open Scope Z_scope.
Open Scope res_scope.

(** Python [range(start, stop, step)] for [step > 0]; [step = 0] raises ValueError.
    (Negative steps do not occur in the code.) *)
Definition py_range (start stop step : Z) : res (list Z) :=
  if step =? 0 then Err ValueError
  else Ok (map (fun i => start + step * i) (range0 ((stop - start + step - 1) / step))).

(** Python floor division *)
Definition py_floordiv (a b : Z) : res Z := if b =? 0 then Err ZeroDivisionError else Ok (a / b).

(** __init__.py:15-26 *)
Definition get_scene_splits (nlines_swath nlines_scan n_cpus : Z) : res (list Z) :=
  let* nscans := py_floordiv nlines_swath nlines_scan in
  let* nscans_subscene := (if nscans <? n_cpus then Ok 1 else py_floordiv nscans n_cpus) in
  let nlines_subscene := nscans_subscene * nlines_scan in
  py_range nlines_subscene nlines_swath nlines_subscene.

(** numpy slice [l[st:en]] for [0 <= st] *)
Definition slice {A} (st en : Z) (l : list A) : list A :=
  firstn (Z.to_nat (en - st)) (skipn (Z.to_nat st) l).

(** numpy vsplit(ary, indices): ary[0:i0], ary[i0:i1], ..., ary[ik:] *)
Fixpoint split_from {A} (st : Z) (idx : list Z) (l : list A) : list (list A) :=
  match idx with
  | [] => [slice st (Z.of_nat (length l)) l]
  | e :: idx' => slice st e l :: split_from e idx' l
  end.
Definition vsplit {A} (l : list A) (idx : list Z) : list (list A) := split_from 0 idx l.

(** A pool of workers: the tasks finish in the order given by [order] (a list of task
    numbers); a finished task stores its result (value or exception) in its own slot. *)
Definition pool_run {I O} (f : I -> res O) (tasks : list I) (order : list nat) : nat -> option (res O) :=
  fold_left (fun slots k => match nth_error tasks k with
                            | Some t => fun i => if Nat.eqb i k then Some (f t) else slots i
                            | None => slots end) order (fun _ => None).

(** [res.get() for res in results]: results are taken in task order; a task that never
    finished would block (no value here: [Err GenericException]). *)
Definition pool_get {O} (slots : nat -> option (res O)) (n : nat) : res (list O) :=
  mapM (fun i => match slots i with Some r => r | None => Err GenericException end) (seq 0 n).

(** numpy vstack of 2d arrays (lists of rows): nothing to stack or different widths raise ValueError.
    (The width of a part without rows is not tracked; such parts do not occur as results.) *)
Definition vstack {A} (l : list (list (list A))) : res (list (list A)) :=
  match l with
  | [] => Err ValueError
  | _ => match concat l with
         | [] => Ok []
         | r :: rs => if forallb (fun r' => Nat.eqb (length r') (length r)) rs
                      then Ok (concat l) else Err ValueError
         end
  end.

(** __init__.py:74-94. [fun_] works on a (lons, lats) pair of arrays. [order] is the order in which
    the worker processes finish. *)
Definition multi {A B} (fun_ : list (list A) * list (list A) -> res (list (list B) * list (list B)))
    (lons lats : list (list A)) (chunk_size cores : Z) (order : list nat)
  : res (list (list B) * list (list B)) :=
  let* splits := get_scene_splits (Z.of_nat (length lons)) chunk_size cores in
  let lons_parts := vsplit lons splits in
  let lats_parts := vsplit lats splits in
  let tasks := combine lons_parts lats_parts in
  let* results := pool_get (pool_run fun_ tasks order) (length tasks) in
  let* lo := vstack (map fst results) in
  let* la := vstack (map snd results) in
  Ok (lo, la).
