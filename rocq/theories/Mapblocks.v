(** Model of geotiepoints/_modis_utils.pyx:80-200: the decorator scanline_mapblocks around the MODIS interpolations.
    dask is modelled from its documentation: [rechunk] (a size per axis, -1 = the whole axis), [map_blocks] (dask
    arguments are handed over block by block, everything else as it is) and [compute] (the tasks of a graph are run in
    some order, the blocks are put together).
    Simplifications: a dask array is its chunks and its (already known) elements; arrays that are not the first one
    and not two-dimensional are only known to be refused; keyword arguments are part of [func]; memory found by
    np.empty is an argument of [func], a different one for each task. *)
From Coq Require Import ZArith List Bool.
From Verif Require Import Base Num Geo Mem Modis SimpleModis.
Import ListNotations.
Open Scope Z_scope.

Definition zsum (l : list Z) : Z := fold_right Z.add 0 l.

(** ** Python objects *)
(** two-dimensional dask array: type, row chunks, column chunks, elements *)
Record darr (T : Type) := { ddt : dtype; drow : list Z; dcol : list Z; dat : Z -> Z -> T }.
Arguments ddt {T}. Arguments drow {T}. Arguments dcol {T}. Arguments dat {T}.
Definition drows {T} (d : darr T) : Z := zsum (drow d).
Definition dcols {T} (d : darr T) : Z := zsum (dcol d).
Inductive data (T : Type) := NP (a : ndarray T) | DA (d : darr T).
Arguments NP {T}. Arguments DA {T}.
(** positional arguments: two-dimensional numpy or dask array; DataArray of one; array with another number of
    dimensions; object without ndim *)
Inductive obj (T : Type) := Arr (d : data T) | XArr (d : data T) | NotTwoD (ndim : Z) (dask : bool) | NotArray.
Arguments Arr {T}. Arguments XArr {T}. Arguments NotTwoD {T}. Arguments NotArray {T}.
(** what the wrapped function is called with *)
Inductive barg (T : Type) := BArr (a : ndarray T) | BBad.
Arguments BArr {T}. Arguments BBad {T}.

Section Mapblocks.
Context {T G : Type}.

(** hasattr(arr, "ndim"), "compute", "dims", "chunks" *)
Definition has_ndim (o : obj T) : bool := match o with NotArray => false | _ => true end.
Definition has_compute (o : obj T) : bool :=
  match o with Arr (DA _) | XArr _ => true | NotTwoD _ dask => dask | _ => false end.
Definition has_dims (o : obj T) : bool := match o with XArr _ => true | _ => false end.
Definition ndim (o : obj T) : Z := match o with Arr _ | XArr _ => 2 | NotTwoD n _ => n | NotArray => 0 end.

(** [arr for arr in args if hasattr(arr, "ndim")][0] *)
Definition first_array (args : list (obj T)) : res (obj T) :=
  match filter has_ndim args with o :: _ => Ok o | [] => Err IndexError end.

(** _modis_utils.pyx:132-133 _extract_dask_arrays_from_args *)
Definition extract (o : obj T) : obj T := match o with XArr d => Arr d | _ => o end.

(** dask: chunks of one axis of n elements for blocks of k elements *)
Definition blockdims (n k : Z) : res (list Z) :=
  if n =? 0 then Ok [0]
  else if k =? 0 then Err ZeroDivisionError
  else Ok (repeat k (Z.to_nat (n / k)) ++ (if n mod k =? 0 then [] else [n mod k])).
(** dask: arr.rechunk((k, -1)) *)
Definition rechunk (k : Z) (d : darr T) : res (darr T) :=
  if (drows d =? 0) && (dcols d =? 0) then Ok d
  else
    let* rows := blockdims (drows d) k in
    Ok {| ddt := ddt d; drow := rows; dcol := [dcols d]; dat := dat d |}.

Definition list_eqb (a b : list Z) : bool := if list_eq_dec Z.eq_dec a b then true else false.
Definition same_chunks (d e : darr T) : bool := list_eqb (drow d) (drow e) && list_eqb (dcol d) (dcol e).
Definition dask_of (o : obj T) : list (darr T) := match o with Arr (DA d) => [d] | _ => [] end.

(** _modis_utils.pyx:165-188 _rechunk_dask_arrays_if_needed *)
Definition rechunk_if_needed (args : list (obj T)) (rows_per_scan : Z) : res (list (obj T)) :=
  let* first := first_array args in
  match first with
  | Arr (DA d) =>
      let row_chunks := drow d in
      let col_chunks := dcol d in
      let num_rows := drows d in
      let num_cols := dcols d in
      let good_row_chunks := forallb (fun x => x mod rows_per_scan =? 0) row_chunks in
      let good_col_chunks := match col_chunks with [c] => negb (c =? num_cols) | _ => false end in
      let all_orig := flat_map dask_of args in
      if negb (num_rows mod rows_per_scan =? 0) then Err ValueError
      else if good_row_chunks && good_col_chunks && forallb (same_chunks d) all_orig then Ok args
      else
        let new_row_chunks := nth 0 row_chunks 0 / rows_per_scan * rows_per_scan in
        mapM (fun o => match o with
          | Arr (DA d) => let* d' := rechunk new_row_chunks d in Ok (Arr (DA d'))
          | _ => Ok o
          end) args
  | _ => Err AttributeError     (* .chunks of something else than a dask array *)
  end.

(** ** da.map_blocks *)
(** row blocks: first row and number of rows *)
Fixpoint row_blocks (start : Z) (chunks : list Z) : list (Z * Z) :=
  match chunks with [] => [] | c :: l => (start, c) :: row_blocks (start + c) l end.
(** block of all columns *)
Definition rows_of (d : darr T) (b : Z * Z) : ndarray T :=
  {| adt := ddt d; arows := snd b; acols := dcols d; aat := fun i j => dat d (fst b + i) j |}.
(** the part of an argument that block number q of nb is called with *)
Definition block_arg (nb q : nat) (o : obj T) : res (barg T) :=
  match o with
  | Arr (NP a) => Ok (BArr a)
  | Arr (DA d) =>
      let bs := row_blocks 0 (drow d) in
      if negb (Nat.eqb (length (dcol d)) 1) then Err ValueError
      else if Nat.eqb (length bs) nb then match nth_error bs q with Some b => Ok (BArr (rows_of d b)) | None => Err IndexError end
      else if Nat.eqb (length bs) 1 then match bs with b :: _ => Ok (BArr (rows_of d b)) | [] => Err IndexError end
      else Err ValueError
  | _ => Ok BBad
  end.

(** the lazy result: announced type, row chunks, column chunk; the function and the arguments of each block's task *)
Record lazyres := { z_dt : dtype; z_rows : list Z; z_cols : Z; z_func : G -> list (barg T) -> res (ndarray T * ndarray T); z_tasks : list (list (barg T)) }.

(** _modis_utils.pyx:136-152 _call_map_blocks_interp; res[0], res[1] are the two halves of each block *)
Definition call_map_blocks (func : Z -> Z -> G -> list (barg T) -> res (ndarray T * ndarray T)) (coarse_resolution fine_resolution : Z) (args : list (obj T)) : res lazyres :=
  let* first := first_array args in
  if fine_resolution =? 0 then Err ZeroDivisionError
  else
    let res_factor := coarse_resolution / fine_resolution in
    match first with
    | Arr (DA d) =>
        let new_row_chunks := map (fun x => x * res_factor) (drow d) in
        let* fine_pixels_per_1km :=
          if fine_resolution =? 250 then Ok 4 else if fine_resolution =? 500 then Ok 2 else if fine_resolution =? 1000 then Ok 1 else Err KeyError in
        let fine_scan_width := 1354 * fine_pixels_per_1km in
        let nb := length (drow d) in
        let* tasks := mapM (fun q => mapM (block_arg nb q) args) (seq 0 nb) in
        Ok {| z_dt := ddt d; z_rows := new_row_chunks; z_cols := fine_scan_width; z_func := func coarse_resolution fine_resolution; z_tasks := tasks |}
    | _ => Err AttributeError
    end.

(** results of a call: arrays, or a lazy result (as DataArrays or not) *)
Inductive answer := Eager (r : ndarray T * ndarray T) | Lazy (l : lazyres) (dataarrays : bool).

Definition plain_arg (o : obj T) : barg T := match o with Arr (NP a) => BArr a | _ => BBad end.

(** _modis_utils.pyx:98-129 _wrapper *)
Definition wrapper (func : Z -> Z -> G -> list (barg T) -> res (ndarray T * ndarray T)) (g : G)
    (coarse_resolution fine_resolution : option Z) (args : list (obj T)) : res answer :=
  match coarse_resolution, fine_resolution with
  | Some coarse, Some fine =>
      let* first_arr := first_array args in
      if negb (ndim first_arr =? 2) then Err ValueError
      else if has_compute first_arr then
        let dask_args := map extract args in
        let* rows_per_scan := rows_per_scan_for_resolution coarse in
        let* rechunked_args := rechunk_if_needed dask_args rows_per_scan in
        let* results := call_map_blocks func coarse fine rechunked_args in
        Ok (Lazy results (has_dims first_arr))
      else
        let* r := func coarse fine g (map plain_arg args) in
        Ok (Eager r)
  | _, _ => Err ValueError
  end.

(** ** dask.compute *)
(** run the tasks number [order]; the p-th one run finds memory [gs p] *)
Fixpoint run_blocks (func : G -> list (barg T) -> res (ndarray T * ndarray T)) (gs : nat -> G) (tasks : list (list (barg T)))
    (p : nat) (order : list nat) : res (list (nat * (ndarray T * ndarray T))) :=
  match order with
  | [] => Ok []
  | q :: rest =>
      match nth_error tasks q with
      | None => Err KeyError
      | Some args =>
          let* r := func (gs p) args in
          let* rs := run_blocks func gs tasks (S p) rest in
          Ok ((q, r) :: rs)
      end
  end.
Definition stored (store : list (nat * (ndarray T * ndarray T))) (q : nat) : res (ndarray T * ndarray T) :=
  match find (fun e => Nat.eqb (fst e) q) store with Some e => Ok (snd e) | None => Err KeyError end.
(** the blocks one below the other *)
Fixpoint stack (l : list (ndarray T)) : res (ndarray T) :=
  match l with
  | [] => Err ValueError
  | [a] => Ok a
  | a :: l =>
      let* b := stack l in
      if acols a =? acols b then
        Ok {| adt := adt a; arows := arows a + arows b; acols := acols a;
              aat := fun i j => if i <? arows a then aat a i j else aat b (i - arows a) j |}
      else Err ValueError
  end.
Definition computed (gs : nat -> G) (order : list nat) (l : lazyres) : res (ndarray T * ndarray T) :=
  let* store := run_blocks (z_func l) gs (z_tasks l) 0 order in
  let* blocks := mapM (stored store) (seq 0 (length (z_tasks l))) in
  let* a := stack (map fst blocks) in
  let* b := stack (map snd blocks) in
  Ok (a, b).
End Mapblocks.
Arguments lazyres : clear implicits.
Arguments answer : clear implicits.

Section Functions.
Context {T : Type} {N : NumOps T}.

(** _modis_interpolator.pyx:17-38 *)
Definition modis_func (coarse_scan_width coarse fine : Z) (g : garbage T) (args : list (barg T)) : res (ndarray T * ndarray T) :=
  match args with
  | [BArr lon; BArr lat; BArr satz] => interpolate g lon lat satz coarse fine coarse_scan_width
  | _ => Err TypeError
  end.
(** simple_modis_interpolator.py:21-46 *)
Definition simple_func (coarse fine : Z) (g : garbage2 T) (args : list (barg T)) : res (ndarray T * ndarray T) :=
  match args with
  | [BArr lon; BArr lat] => simple_interp g lon lat coarse fine
  | _ => Err TypeError
  end.

(** lon1.shape[1] *)
Definition width_of (o : obj T) : res Z :=
  match o with
  | Arr (NP a) | XArr (NP a) => Ok (acols a)
  | Arr (DA d) | XArr (DA d) => Ok (dcols d)
  | NotTwoD n _ => if n <? 2 then Err IndexError else Ok 0
  | NotArray => Err AttributeError
  end.
(** modisinterpolator.py:22-62 for any kind of array; the value of coarse_scan_width (1km: default of the function) *)
Definition modis_width (k : modis_fn) (lon : obj T) : res Z :=
  match k with M1km_250m | M1km_500m => Ok 0 | _ => width_of lon end.
Definition modis_any (k : modis_fn) (g : garbage T) (lon lat satz : obj T) : res (answer T (garbage T)) :=
  let* w := modis_width k lon in
  wrapper (modis_func w) g (Some (coarse_of k)) (Some (fine_of k)) [lon; lat; satz].
(** simple_modis_interpolator.py:49-61 for any kind of array *)
Definition simple_any (fine : Z) (g : garbage2 T) (lon lat : obj T) : res (answer T (garbage2 T)) :=
  wrapper simple_func g (Some 1000) (Some fine) [lon; lat].
End Functions.
