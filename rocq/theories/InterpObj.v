(** Interpolator and GeoInterpolator as objects: the dtype of the tie data, the list that interpolate() hands out,
    and the argument of GeoInterpolator's constructor (geotiepoints/interpolator.py, geotiepoints/geointerpolator.py). *)
From Coq Require Import ZArith List Bool Reals.
From Verif Require Import Base Num Splits Geo Interp Legacy.
Import ListNotations.
Open Scope Z_scope.
Open Scope res_scope.

(** ** Tie data of integers or of floating-point numbers.
    Integers are int64 and floating-point numbers float64; overflow is not modelled. *)
Inductive vdtype := VInt | VFloat.

Section Typed.
Context {T : Type} {N : NumOps T}.
Variable trunc : T -> T.            (* numpy's conversion of float64 to int64: towards zero *)
Variable spl1 spl2 : list T -> list T -> Z -> T -> T.

Record tstate := mkT { core : istate T; dtypes : list vdtype }.

(** interpolator.py:70-83: [data] with their dtypes *)
Definition t_make (data : list (vdtype * mat T)) (tiepoint_grid final_grid : list T * list T) (kx ky chunk : Z) : tstate :=
  mkT (make (map snd data) tiepoint_grid final_grid kx ky chunk) (map fst data).

(** interpolator.py:215-223: an assignment to an array of the given dtype *)
Definition store (dt : vdtype) (m : mat T) : mat T := match dt with VInt => map (map trunc) m | VFloat => m end.

(** interpolator.py:196-229: only _interp1d stores its values with the dtype of the tie data *)
Definition t_interpolate (ts : tstate) : res (list (mat T)) :=
  let* out := fst (interpolate spl1 spl2 (core ts)) in
  if array_equal (hrow_indices (core ts)) (row_indices (core ts)) then Ok (map2 store (dtypes ts) out) else Ok out.

(** interpolator.py:114-123, 155-159, 192: hstack and vstack with extrapolated (float64) lines *)
Definition widen (d : dim) (st : istate T) (dts : list vdtype) : list vdtype :=
  match d with
  | DimX => match nth_res (col_indices st) 0, nth_res (hcol_indices st) 0, last_res (col_indices st), last_res (hcol_indices st) with
            | Ok c0, Ok h0, Ok c1, Ok h1 => if neqb c0 h0 && neqb c1 h1 then dts else map (fun _ => VFloat) dts
            | _, _, _, _ => dts
            end
  | _ => map (fun _ => VFloat) dts
  end.
Fixpoint t_run (l : list dim) (ts : tstate) : res tstate :=
  match l with
  | [] => Ok ts
  | d :: l' => let* st := run_dim d (core ts) in t_run l' (mkT st (widen d (core ts) (dtypes ts)))
  end.
(** interpolator.py:85-97, a call that does not raise *)
Definition t_fill (args : list dim) (ts : tstate) : res tstate :=
  let* to_run := resolve args in t_run to_run ts.

(** ** The list handed out.
    interpolator.py:229 returns the attribute new_data itself, interpolator.py:209 and 217 assign to its elements:
    whoever holds the result of an earlier call sees [new_data] of the present state. *)
Inductive call := Fill (args : list dim) | Interpolate.
Definition after (c : call) (st : istate T) : istate T :=
  match c with Fill args => snd (fill_borders args st) | Interpolate => snd (interpolate spl1 spl2 st) end.
Definition after_all (cs : list call) (st : istate T) : istate T := fold_left (fun s c => after c s) cs st.
Definition held_list (st : istate T) : list (mat T) := new_data st.
End Typed.
Arguments tstate : clear implicits.

(** ** GeoInterpolator.
    What the constructor may be given: an object with lons, lats and get_cartesian_coords; one with lons and lats only;
    a sequence. *)
Inductive geo_obj (M : Type) := SwathObj (lons lats : M) (xyz : M * M * M) | LonsLatsObj (lons lats : M) | SeqObj (l : list M).
Arguments SwathObj {M}. Arguments LonsLatsObj {M}. Arguments SeqObj {M}.

(** geointerpolator.py:30-41: lon_tiepoint, lat_tiepoint and the tie data. Subscripting an object that is not a sequence is
    a TypeError. *)
Definition geo_init {M} (conv : M -> M -> M * M * M) (o : geo_obj M) : res (M * M * (M * M * M)) :=
  match o with
  | SwathObj lons lats xyz => Ok (lons, lats, xyz)
  | LonsLatsObj _ _ => Err TypeError
  | SeqObj l => let* lons := nth_res l 0 in let* lats := nth_res l 1 in Ok (lons, lats, conv lons lats)
  end.

Section Exact.
Variable spl1 spl2 : list R -> list R -> Z -> R -> R.
#[local] Existing Instance RT.

(** geointerpolator.py:52-59 on arrays *)
Definition xyz_arrays (lons lats : mat R) : mat R * mat R * mat R :=
  let p := mat2 lonlat2xyz lons lats in (mat1 (fun t => fst (fst t)) p, mat1 (fun t => snd (fst t)) p, mat1 snd p).

(** geointerpolator.py:30-43 *)
Definition geo_object (o : geo_obj (mat R)) (tiepoint_grid final_grid : list R * list R) (kx ky chunk : Z) : res (istate R) :=
  let* g := geo_init xyz_arrays o in
  let '(_, _, (x, y, z)) := g in Ok (make [x; y; z] tiepoint_grid final_grid kx ky chunk).

(** a new GeoInterpolator, fill_borders([args]) and interpolate(): geointerpolator.py:45-49 *)
Definition geo_run (o : geo_obj (mat R)) (tiepoint_grid final_grid : list R * list R) (kx ky chunk : Z) (args : list dim) :
    res (list (list (option R)) * list (list (option R))) :=
  let* st := geo_object o tiepoint_grid final_grid kx ky chunk in
  match fill_borders args st with
  | (Ok _, st') => geo_interpolate spl1 spl2 st'
  | (Err e, _) => Err e
  end.
End Exact.
