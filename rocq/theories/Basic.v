(** Model of geotiepoints/basic_interpolator.py.
    pandas is modelled from its documentation: a DataFrame is a table with integer row labels; [reindex] looks rows up by
    label; [Series.interpolate] (linear, forward) treats the values as equally spaced, fills a gap between two values
    linearly (np.interp), repeats the last value after it and leaves the cells before the first value missing.
    Simplifications: cells are numbers or missing (None = NaN), tables have at least one column. [as_matrix] says
    whether DataFrame has the method as_matrix (removed in pandas 1.0). *)
From Coq Require Import ZArith List Bool.
From Verif Require Import Base Num.
Import ListNotations.
Open Scope Z_scope.

Section Basic.
Context {T : Type} {N : NumOps T}.

(** a table: numbers of rows and columns, cells *)
Record frame := { f_rows : Z; f_cols : Z; f_at : Z -> Z -> option T }.
Definition transpose (d : frame) : frame := {| f_rows := f_cols d; f_cols := f_rows d; f_at := fun i j => f_at d j i |}.

Definition is_some (x : option T) : bool := match x with Some _ => true | None => false end.
(** nearest cell with a value before / after i in a column of n cells *)
Definition value_before (v : Z -> option T) (i : Z) : option Z := find (fun j => is_some (v j)) (rev (range0 i)).
Definition value_after (n : Z) (v : Z -> option T) (i : Z) : option Z := find (fun j => is_some (v j)) (zrange (i + 1) (Z.to_nat (n - 1 - i))).
(** np.interp between two neighbours *)
Definition np_interp (xa xb x : Z) (ya yb : T) : T :=
  nadd (nmul (ndiv (nsub yb ya) (nsub (nz xb) (nz xa))) (nsub (nz x) (nz xa))) ya.
(** pandas Series.interpolate() *)
Definition series_interpolate (n : Z) (v : Z -> option T) (i : Z) : option T :=
  match v i with
  | Some x => Some x
  | None =>
      match value_before v i with
      | None => None
      | Some a =>
          match value_after n v i with
          | None => v a
          | Some b => match v a, v b with Some ya, Some yb => Some (np_interp a b i ya yb) | _, _ => None end
          end
      end
  end.

(** position of label i *)
Fixpoint position (indices : list Z) (i : Z) (q : Z) : option Z :=
  match indices with [] => None | x :: l => if x =? i then Some q else position l i (q + 1) end.
(** DataFrame(data, index=indices).reindex(np.arange(n)) *)
Fixpoint distinct (l : list Z) : bool := match l with [] => true | x :: l => negb (existsb (Z.eqb x) l) && distinct l end.
Definition reindex (data : frame) (indices : list Z) (n : Z) : res frame :=
  if negb (Z.of_nat (length indices) =? f_rows data) then Err ValueError
  else if negb (distinct indices) then Err ValueError
  else Ok {| f_rows := n; f_cols := f_cols data;
             f_at := fun i j => match position indices i 0 with Some q => f_at data q j | None => None end |}.

(** basic_interpolator.py:65-79 _pandas_interp *)
Definition pandas_interp (data : frame) (indices : list Z) : res frame :=
  match rev indices with
  | [] => Err IndexError
  | last :: _ =>
      let n := Z.max 0 (last + 1) in
      let* d := reindex data indices n in
      Ok {| f_rows := n; f_cols := f_cols d; f_at := fun i j => series_interpolate n (fun i => f_at d i j) i |}
  end.

(** basic_interpolator.py:43-62 _interp_axis, 30-39 _interp *)
Definition call_as_matrix (as_matrix : bool) (d : frame) : res frame := if as_matrix then Ok d else Err AttributeError.
Definition interp_rows (rows : list Z) (data : frame) : res frame := pandas_interp data rows.
Definition interp_cols (as_matrix : bool) (cols : list Z) (data : frame) : res frame :=
  let* m := call_as_matrix as_matrix data in
  let* r := pandas_interp (transpose m) cols in
  let* m := call_as_matrix as_matrix r in
  Ok (transpose m).
Definition interp (as_matrix : bool) (cols rows : list Z) (data : frame) : res frame :=
  let* row_interpol_data := interp_rows rows data in
  interp_cols as_matrix cols row_interpol_data.

(** basic_interpolator.py:18-27, 81-88: BasicSatelliteInterpolator(cols, rows, lat_data, lon_data).interpolate() *)
Definition basic_interpolate (as_matrix : bool) (cols rows : list Z) (lat_data lon_data : frame) : res (frame * frame) :=
  let* latitude := interp as_matrix cols rows lat_data in
  let* longitude := interp as_matrix cols rows lon_data in
  Ok (latitude, longitude).
End Basic.
Arguments frame : clear implicits.
