(** Model of geotiepoints/viiinterpolator.py.

    A DataArray is its dimension names (numbers here), its shape and its contents as a function of two
    indices (only indices inside the shape mean anything); coordinates the caller attached to it are
    modelled in ViiCoords.v. [nan] is the fill value of the interpolation. *)
From Coq Require Import ZArith List Bool.
From Verif Require Import Base Num Geo.
Import ListNotations.
Open Scope Z_scope.

Record darray (T : Type) := { dims : nat * nat; nrows : nat; ncols : nat; at_ : nat -> nat -> T }.
Arguments dims {T}. Arguments nrows {T}. Arguments ncols {T}. Arguments at_ {T}.

(** numpy.arange(start, stop, step), step > 0 *)
Definition arange (start stop step : Z) : list Z :=
  map (fun k => start + k * step) (range0 ((stop - start + step - 1) / step)).

(** numpy.searchsorted(grid, x), side 'left', on a sorted grid: number of elements below x *)
Definition searchsorted (grid : list Z) (x : Z) : nat := length (filter (fun t => t <? x) grid).

Definition shape_eqb {A B} (a : darray A) (b : darray B) : bool := (nrows a =? nrows b)%nat && (ncols a =? ncols b)%nat.
Definition dims_eqb {A B} (a : darray A) (b : darray B) : bool :=
  (fst (dims a) =? fst (dims b))%nat && (snd (dims a) =? snd (dims b))%nat.

Section Vii.
Context {T : Type} {N : NumOps T}.
Variable nan : T.

(** scipy.interpolate.interp1d(grid, y, kind='linear', bounds_error=False) at x (scipy's _call_linear) *)
Definition interp1d (grid : list Z) (y : nat -> T) (x : Z) : T :=
  if (x <? nth 0 grid 0) || (nth (length grid - 1) grid 0 <? x) then nan
  else
    let hi := Nat.min (Nat.max (searchsorted grid x) 1) (length grid - 1) in
    let lo := (hi - 1)%nat in
    let slope := ndiv (nsub (y hi) (y lo)) (nz (nth hi grid 0 - nth lo grid 0)) in
    nadd (nmul slope (nz (x - nth lo grid 0))) (y lo).

(** DataArray.interp along the first / second dimension. xarray raises ValueError when there are no new
    positions (minimum of an empty array). *)
Definition interp_rows (grid : list Z) (new : list Z) (a : darray T) : res (darray T) :=
  if (length new =? 0)%nat then Err ValueError
  else Ok {| dims := dims a; nrows := length new; ncols := ncols a;
             at_ := fun i j => interp1d grid (fun k => at_ a k j) (nth i new 0) |}.
Definition interp_cols (grid : list Z) (new : list Z) (a : darray T) : res (darray T) :=
  if (length new =? 0)%nat then Err ValueError
  else Ok {| dims := dims a; nrows := nrows a; ncols := length new;
             at_ := fun i j => interp1d grid (fun k => at_ a i k) (nth j new 0) |}.

(** viiinterpolator.py:23-79; scan_alt_tie_points = [s], tie_points_factor = [f] (not negative); [rows], [cols]: the two
    calls of DataArray.interp in lines 74-75 *)
Definition tie_points_with (rows cols : list Z -> list Z -> darray T -> res (darray T)) (data_on_tie_points : list (darray T)) (s f : nat)
    : res (list (darray T)) :=
  match data_on_tie_points with
  | [] => Err IndexError
  | first :: _ =>
    let n_tie_alt := Z.of_nat (nrows first) in
    let n_tie_act := Z.of_nat (ncols first) in
    let s' := Z.of_nat s in
    let f' := Z.of_nat f in
    if (s =? 0)%nat then Err ZeroDivisionError
    else if negb (n_tie_alt mod s' =? 0) then Err ValueError
    else
      let n_scans := n_tie_alt / s' in
      let n_pixel_act := (n_tie_act - 1) * f' in
      let n_pixel_alt := (n_tie_alt - 1) * f' in
      if (f =? 0)%nat then Err ZeroDivisionError
      else
        let tie_grid_act := arange 0 (n_pixel_act + 1) f' in
        let pixel_grid_act := arange 0 n_pixel_act 1 in
        let tie_grid_alt := arange 0 (n_pixel_alt + 1) f' in
        let n_pixel_alt_per_scan := (s' - 1) * f' in
        let pixel_grid_alts := map (fun j_scan =>
              let start_index_scan := j_scan * s' * f' in
              arange start_index_scan (start_index_scan + n_pixel_alt_per_scan) 1) (range0 n_scans) in
        if n_scans =? 0 then Err ValueError
        else
          let pixel_grid_alt := concat pixel_grid_alts in
          mapM (fun data =>
            if negb (shape_eqb data first) || negb (dims_eqb data first) then Err ValueError
            else let* d1 := rows tie_grid_alt pixel_grid_alt data in
                 cols tie_grid_act pixel_grid_act d1) data_on_tie_points
  end.
Definition tie_points_interpolation := tie_points_with interp_rows interp_cols.

(** all elements *)
Definition elements (a : darray T) : list T :=
  concat (map (fun i => map (at_ a i) (seq 0 (ncols a))) (seq 0 (nrows a))).

(** numpy.max/min of a DataArray: missing values are skipped (a value is missing iff it is not equal to
    itself), [None] = nan when nothing is left *)
Definition da_fold (better : T -> T -> bool) (l : list T) : option T :=
  fold_left (fun acc x => if neqb x x then match acc with
                                            | None => Some x
                                            | Some m => if better x m then Some x else acc
                                            end else acc) l None.
Definition da_max := da_fold (fun x m => nltb m x).
Definition da_min := da_fold (fun x m => nltb x m).

Definition map_da {U V} (g : U -> V) (a : darray U) : darray V :=
  {| dims := dims a; nrows := nrows a; ncols := ncols a; at_ := fun i j => g (at_ a i j) |}.
Definition zip_da {U V W} (g : U -> V -> W) (a : darray U) (b : darray V) : darray W :=
  {| dims := dims a; nrows := nrows a; ncols := ncols a; at_ := fun i j => g (at_ a i j) (at_ b i j) |}.

(** viiinterpolator.py:116 *)
Definition to_cart (longitude latitude : darray T) (lat_threshold : T) : bool :=
  match da_max (elements (map_da np_abs latitude)) with
  | Some m => nltb lat_threshold m
  | None => false
  end ||
  match da_max (elements longitude), da_min (elements longitude) with
  | Some a, Some b => nltb (nz 180) (nsub a b)
  | _, _ => false
  end.

(** viiinterpolator.py:150-151: [cos(lats_rad) * cos(lons_rad)] aligns by dimension names, in the order of the first
    operand. The same names in the other order: the longitudes are transposed if the sizes fit, otherwise ValueError;
    any other names: more than two dimensions, unpacking the shape raises ValueError. *)
Definition align_longitude (longitude latitude : darray T) : res (darray T) :=
  if dims_eqb longitude latitude then Ok longitude
  else if (fst (dims longitude) =? snd (dims latitude))%nat && (snd (dims longitude) =? fst (dims latitude))%nat
          && (nrows longitude =? ncols latitude)%nat && (ncols longitude =? nrows latitude)%nat
  then Ok {| dims := dims latitude; nrows := nrows latitude; ncols := ncols latitude; at_ := fun i j => at_ longitude j i |}
  else Err ValueError.

(** viiinterpolator.py:83-134. Empty arrays: numpy.max raises ValueError. *)
Definition tie_points_geo_interpolation (longitude latitude : darray T) (s f : nat) (lat_threshold z_threshold : T)
    : res (darray T * darray T) :=
  if negb (shape_eqb longitude latitude) then Err ValueError
  else if (nrows latitude =? 0)%nat || (ncols latitude =? 0)%nat then Err ValueError
  else if to_cart longitude latitude lat_threshold then
    let* longitude := align_longitude longitude latitude in
      let xyz := zip_da vii_lonlat2xyz longitude latitude in
      let x := map_da (fun p => fst (fst p)) xyz in
      let y := map_da (fun p => snd (fst p)) xyz in
      let z := map_da snd xyz in
      let* r := tie_points_interpolation [x; y; z] s f in
      match r with
      | [interp_x; interp_y; interp_z] =>
          let ll := zip_da (fun xy z => vii_xyz2lonlat z_threshold (fst xy, snd xy, z)) (zip_da pair interp_x interp_y) interp_z in
          Ok (map_da fst ll, map_da snd ll)
      | _ => Err ValueError
      end
  else
    let* r := tie_points_interpolation [longitude; latitude] s f in
    match r with [interp_longitude; interp_latitude] => Ok (interp_longitude, interp_latitude) | _ => Err ValueError end.

End Vii.
