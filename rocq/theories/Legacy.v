(** Model of geotiepoints/__init__.py (the functions on swaths), of GeoInterpolator
    (geotiepoints/geointerpolator.py) and of generic_modis5kmto1km (geotiepoints/interpolator.py). *)
From Coq Require Import ZArith List Bool Reals.
From Verif Require Import Base Num Splits Geo Interp.
Import ListNotations.
Open Scope Z_scope.
Open Scope res_scope.

(** numpy arange(start, stop, step) / d with integer arguments, [step > 0] *)
Definition np_arange (start stop step : Z) : list Z :=
  map (fun i => start + step * i) (range0 ((stop - start + step - 1) / step)).

Section Generic.
Context {T : Type} {N : NumOps T}.
Variable spl1 spl2 : list T -> list T -> Z -> T -> T.

Definition grid_of (l : list Z) : list T := map nz l.
Definition grid_div (d : Z) (l : list Z) : list T := map (fun i => nz i / nz d)%num l.
(** (arange(n) - a/b) / d *)
Definition grid_shift_div (a b d : Z) (l : list Z) : list T :=
  map (fun i => ((nz i - nz a / nz b) / nz d)%num) l.

(** fill_borders("y", "x") then interpolate() *)
Definition fill_then_interpolate (st : istate T) : res (list (mat T)) :=
  match fill_borders [DimY; DimX] st with
  | (Err e, _) => Err e
  | (Ok _, st') => fst (interpolate spl1 spl2 st')
  end.

(** interpolator.py:9-27 *)
Definition generic_modis5kmto1km (data5km : list (mat T)) : res (list (mat T)) :=
  match data5km with
  | [] => Err IndexError
  | d0 :: _ =>
    let cols5km := grid_of (np_arange 2 1354 5) in
    let cols1km := grid_of (np_arange 0 1354 1) in
    let lines := Z.of_nat (length d0) * 5 in
    let rows5km := grid_of (np_arange 2 lines 5) in
    let rows1km := grid_of (np_arange 0 lines 1) in
    fill_then_interpolate (make data5km (rows5km, cols5km) (rows1km, cols1km) 1 3 10)
  end.

(** The interpolators set up by the functions of __init__.py, for cartesian tie data with [n] rows. *)

(** __init__.py:32-45 *)
Definition metop_grid (n : Z) (data : list (mat T)) : istate T :=
  let cols20km := grid_of (0 :: np_arange 4 2048 20 ++ [2047]) in
  let cols1km := grid_of (np_arange 0 2048 1) in
  let rows20km := grid_of (np_arange 0 n 1) in
  let rows1km := grid_of (np_arange 0 n 1) in
  make data (rows20km, cols20km) (rows1km, cols1km) 1 3 0.

(** __init__.py:54-68 *)
Definition modis5km_grid (n : Z) (data : list (mat T)) : istate T :=
  let cols5km := grid_div 5 (np_arange 2 1354 5) in
  let cols1km := grid_div 5 (np_arange 0 1354 1) in
  let lines := n * 5 in
  let rows5km := grid_div 5 (np_arange 2 lines 5) in
  let rows1km := grid_div 5 (np_arange 0 lines 1) in
  make data (rows5km, cols5km) (rows1km, cols1km) 1 3 10.

(** __init__.py:105-119 *)
Definition modis500m_grid (n : Z) (data : list (mat T)) : istate T :=
  let cols1km := grid_of (np_arange 0 1354 1) in
  let cols500m := grid_div 2 (np_arange 0 (1354 * 2) 1) in
  let rows1km := grid_of (np_arange 0 n 1) in
  let rows500m := grid_shift_div 1 2 2 (np_arange 0 (n * 2) 1) in
  make data (rows1km, cols1km) (rows500m, cols500m) 1 3 20.

(** __init__.py:133-148 *)
Definition modis250m_grid (n : Z) (data : list (mat T)) : istate T :=
  let cols1km := grid_of (np_arange 0 1354 1) in
  let cols250m := grid_div 4 (np_arange 0 (1354 * 4) 1) in
  let rows1km := grid_of (np_arange 0 n 1) in
  let rows250m := grid_shift_div 3 2 4 (np_arange 0 (n * 4) 1) in
  make data (rows1km, cols1km) (rows250m, cols250m) 1 3 40.

(** elementwise numpy operations on 2d arrays of the same shape *)
Definition mat2 {A B C} (f : A -> B -> C) (a : list (list A)) (b : list (list B)) : list (list C) :=
  map2 (map2 f) a b.
Definition mat1 {A B} (f : A -> B) (a : list (list A)) : list (list B) := map (map f) a.

(** geointerpolator.py:38-41: the three component arrays *)
Definition tie_xyz (lons lats : mat T) : list (mat T) :=
  let p := mat2 lonlat2xyz lons lats in
  [mat1 (fun t => fst (fst t)) p; mat1 (fun t => snd (fst t)) p; mat1 snd p].

Definition zip3 (x y z : mat T) : list (list (T * T * T)) := mat2 pair (mat2 pair x y) z.

End Generic.

(** ** The legacy functions in exact arithmetic.
    Tie points are real numbers; the final conversion may give "not a number". *)
Section Exact.
Variable spl1 spl2 : list R -> list R -> Z -> R -> R.
#[local] Existing Instance RT.

Definition to_geo (d : list (mat R)) : res (list (list (option R)) * list (list (option R))) :=
  match d with
  | [x; y; z] =>
    let ll := mat1 (fun p : R * R * R => let '(a, b, c) := p in
                 @xyz2lonlat _ RN (Some a, Some b, Some c)) (zip3 x y z) in
    Ok (mat1 fst ll, mat1 snd ll)
  | _ => Err ValueError
  end.

(** geointerpolator.py:45-49 *)
Definition geo_fill_interpolate (st : istate R) :=
  let* d := fill_then_interpolate spl1 spl2 st in to_geo d.
Definition geo_interpolate (st : istate R) :=
  let* d := fst (interpolate spl1 spl2 st) in to_geo d.

Definition nrows {A} (m : list (list A)) : Z := Z.of_nat (length m).

(** __init__.py:29-46 *)
Definition metop20kmto1km (lons lats : mat R) :=
  geo_interpolate (metop_grid (nrows lons) (tie_xyz lons lats)).

(** __init__.py:49-71 *)
Definition modis5kmto1km (lons lats : mat R) :=
  geo_fill_interpolate (modis5km_grid (nrows lons) (tie_xyz lons lats)).

(** __init__.py:105-122 (cores = 1) *)
Definition modis1kmto500m_1 (lons lats : mat R) :=
  geo_fill_interpolate (modis500m_grid (nrows lons) (tie_xyz lons lats)).

(** __init__.py:133-152 (cores = 1) *)
Definition modis1kmto250m_1 (lons lats : mat R) :=
  geo_fill_interpolate (modis250m_grid (nrows lons) (tie_xyz lons lats)).

(** __init__.py:102-103, 130-131; [order] = order in which the workers finish *)
Definition modis1kmto500m (lons lats : mat R) (cores : Z) (order : list nat) :=
  if 1 <? cores then multi (fun p => modis1kmto500m_1 (fst p) (snd p)) lons lats 10 cores order
  else modis1kmto500m_1 lons lats.
Definition modis1kmto250m (lons lats : mat R) (cores : Z) (order : list nat) :=
  if 1 <? cores then multi (fun p => modis1kmto250m_1 (fst p) (snd p)) lons lats 10 cores order
  else modis1kmto250m_1 lons lats.
End Exact.
