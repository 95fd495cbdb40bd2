(** Model of class MultilinearInterpolator (geotiepoints/multilinear.py:19-86).
    numpy's asarray and ascontiguousarray with a dtype round every element to that dtype: [nst]. The object dtype
    of the model is float32, float64 or another one.
    Simplifications: smin, smax and orders are one-dimensional; arrays that are given are arrays (numpy refuses ragged
    nested lists); the attributes are only assigned by the methods. *)
From Coq Require Import ZArith List Bool.
From Verif Require Import Base Num Multilinear.
Import ListNotations.
Open Scope Z_scope.

(** an array of one, of two, or of another number of dimensions *)
Inductive array (T : Type) := Array1 (l : list T) | Array2 (rows : list (list T)) | ArrayN.
Arguments Array1 {T}. Arguments Array2 {T}. Arguments ArrayN {T}.
Inductive fdtype := Float32 | Float64 | AnotherDtype.

Section Class.
Context {T : Type} {N : NumOps T}.

(** np.ascontiguousarray(a, dtype=dtype) *)
Definition ascontiguousarray (a : array T) : array T :=
  match a with Array1 l => Array1 (map nst l) | Array2 rows => Array2 (map (map nst) rows) | ArrayN => ArrayN end.

(** the attributes smin, smax, orders, d, dtype, values (absent before set_values), __grid__ *)
Record mlobj := { o_smin : list T; o_smax : list T; o_orders : list Z; o_d : Z; o_dtype : fdtype;
                  o_values : option (array T); o_grid : option (list (list T)) }.

(** multilinear.py:76-77 *)
Definition set_values (values : array T) (o : mlobj) : mlobj :=
  {| o_smin := o_smin o; o_smax := o_smax o; o_orders := o_orders o; o_d := o_d o; o_dtype := o_dtype o;
     o_values := Some (ascontiguousarray values); o_grid := o_grid o |}.

(** multilinear.py:61-68 *)
Definition init (smin smax : list T) (orders : list Z) (values : option (array T)) (dt : fdtype) : mlobj :=
  let o := {| o_smin := map nst smin; o_smax := map nst smax; o_orders := orders; o_d := Z.of_nat (length orders); o_dtype := dt;
              o_values := None; o_grid := None |} in
  match values with Some v => set_values v o | None => o end.

(** multilinear.py:8-16 on orders that may be negative (numpy.linspace: ValueError) *)
Definition mlinspace_Z (smin smax : list T) (orders : list Z) : res (list (list T)) :=
  if negb (length orders =? 1)%nat && existsb (fun k => k <? 0) orders then Err ValueError
  else mlinspace smin smax (map Z.to_nat orders).

(** multilinear.py:70-74: the value, and the object afterwards *)
Definition grid (o : mlobj) : res (list (list T)) * mlobj :=
  match o_grid o with
  | Some g => (Ok g, o)
  | None =>
      match mlinspace_Z (o_smin o) (o_smax o) (o_orders o) with
      | Err e => (Err e, o)
      | Ok g => (Ok g, {| o_smin := o_smin o; o_smax := o_smax o; o_orders := o_orders o; o_d := o_d o; o_dtype := o_dtype o;
                          o_values := o_values o; o_grid := Some g |})
      end
  end.

(** multilinear.py:79-86 (interpolate and __call__). The compiled function accepts arrays of float or double
    (TypeError: no matching signature) with two dimensions (ValueError: wrong number of dimensions);
    [scheds], [empty] as in [multilinear_interpolation]. *)
Definition call (scheds : list (list Z)) (empty : list (list T)) (s : array T) (o : mlobj) : res (list (list T)) :=
  let s := ascontiguousarray s in
  match o_values o with
  | None => Err AttributeError
  | Some values =>
      match o_dtype o with
      | AnotherDtype => Err TypeError
      | _ =>
        match values, s with
        | Array2 values, Array2 s => multilinear_interpolation scheds empty (o_smin o) (o_smax o) (o_orders o) values s
        | _, _ => Err ValueError
        end
      end
  end.

(** a use of the object: what is asked for, and the answers *)
Inductive op := OpGrid | OpSet (values : array T) | OpCall (scheds : list (list Z)) (empty : list (list T)) (s : array T).
Definition step (p : op) (o : mlobj) : res (list (list T)) * mlobj :=
  match p with
  | OpGrid => grid o
  | OpSet v => (Ok [], set_values v o)
  | OpCall scheds empty s => (call scheds empty s o, o)
  end.
Fixpoint run (ops : list op) (o : mlobj) : list (res (list (list T))) :=
  match ops with
  | [] => []
  | p :: ops' => fst (step p o) :: run ops' (snd (step p o))
  end.
End Class.
Arguments op : clear implicits.
Arguments mlobj : clear implicits.
