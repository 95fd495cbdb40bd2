(** Model of the conversions between longitude/latitude and cartesian coordinates:
    geotiepoints/geointerpolator.py, geotiepoints/_modis_utils.pyx, geotiepoints/viiinterpolator.py.
    All three work element by element; the model is the function applied to one element. *)
From Coq Require Import ZArith List Bool.
From Verif Require Import Base Num.
Import ListNotations.
Open Scope Z_scope.

Section Geo.
Context {T : Type} {N : NumOps T}.
Local Open Scope num_scope.

(** numpy deg2rad/rad2deg; _modis_utils.pyx:72-77 *)
Definition deg2rad (x : T) : T := x * (npi / nz 180).
Definition rad2deg (x : T) : T := x * (nz 180 / npi).

(** numpy sign: nan for nan *)
Definition np_sign (x : T) : T :=
  if nz 0 <? x then nz 1 else if x <? nz 0 then nz (-1) else if x =? nz 0 then nz 0 else x.
Definition np_abs (x : T) : T := if x <? nz 0 then nz 0 - x else x.

(** _modis_utils.pyx:68-69: an int; 0 for nan *)
Definition c_sign (x : T) : T := if nz 0 <? x then nz 1 else if x <? nz 0 then nz (-1) else nz 0.

(** geointerpolator.py:7; _modis_utils.pyx:23 *)
Definition EARTH_RADIUS : T := nz 6370997.
(** viiinterpolator.py:20 *)
Definition MEAN_EARTH_RADIUS : T := nz 63710087714 / nz 10000.

(** geointerpolator.py:52-59 *)
Definition lonlat2xyz_at (radius lon lat : T) : T * T * T :=
  let lons_rad := deg2rad lon in
  let lats_rad := deg2rad lat in
  let x_coords := radius * ncos lats_rad * ncos lons_rad in
  let y_coords := radius * ncos lats_rad * nsin lons_rad in
  let z_coords := radius * nsin lats_rad in
  (x_coords, y_coords, z_coords).
Definition lonlat2xyz := lonlat2xyz_at EARTH_RADIUS.

(** geointerpolator.py:62-75 *)
Definition xyz2lonlat_at (radius thr : T) (low_lat_z : bool) (p : T * T * T) : T * T :=
  let '(x, y, z) := p in
  let lons := rad2deg (nacos (x / nsqrt (x * x + y * y))) * np_sign y in
  let lats := np_sign z * (nz 90 - rad2deg (nasin (nsqrt (x * x + y * y) / radius))) in
  let lats := if low_lat_z
              then let normalized_z := z / radius in
                   let lat_mask_cond := np_abs normalized_z <? thr in
                   let lat_z_only := nz 90 - rad2deg (nacos normalized_z) in
                   if lat_mask_cond then lat_z_only else lats
              else lats in
  (lons, lats).
(** default arguments thr=0.8, low_lat_z=True *)
Definition xyz2lonlat := xyz2lonlat_at EARTH_RADIUS (nz 8 / nz 10) true.

(** _modis_utils.pyx:26-40 (one element; [nst] = rounding to the array's precision) *)
Definition cy_lonlat2xyz (lon lat : T) : T * T * T :=
  let lon_rad := nst (deg2rad lon) in
  let lat_rad := nst (deg2rad lat) in
  (nst (EARTH_RADIUS * ncos lat_rad * ncos lon_rad),
   nst (EARTH_RADIUS * ncos lat_rad * nsin lon_rad),
   nst (EARTH_RADIUS * nsin lat_rad)).

(** _modis_utils.pyx:43-65 (one element) *)
Definition cy_xyz2lonlat (low_lat_z : bool) (thr : T) (p : T * T * T) : T * T :=
  let '(x, y, z) := p in
  let lon := rad2deg (nacos (x / nsqrt (x * x + y * y))) * c_sign y in
  let lat := if low_lat_z && (z <? thr * EARTH_RADIUS) && (nz (-1) * thr * EARTH_RADIUS <? z)
             then nz 90 - rad2deg (nacos (z / EARTH_RADIUS))
             else c_sign z * (nz 90 - rad2deg (nasin (nsqrt (x * x + y * y) / EARTH_RADIUS))) in
  (nst lon, nst lat).

(** viiinterpolator.py:137-153 *)
Definition vii_lonlat2xyz (lon lat : T) : T * T * T :=
  let lons_rad := deg2rad lon in
  let lats_rad := deg2rad lat in
  (MEAN_EARTH_RADIUS * ncos lats_rad * ncos lons_rad,
   MEAN_EARTH_RADIUS * ncos lats_rad * nsin lons_rad,
   MEAN_EARTH_RADIUS * nsin lats_rad).

(** viiinterpolator.py:156-178 *)
Definition vii_xyz2lonlat (z_threshold_use_xy : T) (p : T * T * T) : T * T :=
  let '(x, y, z) := p in
  let r := nsqrt (x * x + y * y) in
  let thr_z := z_threshold_use_xy * MEAN_EARTH_RADIUS in
  let lons := rad2deg (nacos (x / r)) * np_sign y in
  let lats := if (z <? thr_z) && (nz 0 - thr_z <? z)
              then nz 90 - rad2deg (nacos (z / MEAN_EARTH_RADIUS))
              else np_sign z * (nz 90 - rad2deg (nasin (r / MEAN_EARTH_RADIUS))) in
  (lons, lats).

End Geo.

(** What a geo interpolator may be given as data argument: an array, or an object with
    [get_cartesian_coords] (the three component arrays). *)
Inductive geo_arg (M : Type) := ArrayArg (m : M) | SwathArg (xyz : M * M * M).
Arguments ArrayArg {M}. Arguments SwathArg {M}.

(** geointerpolator.py:96-108. [conv] is lonlat2xyz on whole arrays. An array has no
    get_cartesian_coords method; a swath object cannot be converted by lonlat2xyz. *)
Definition to_xyz {M} (conv : M -> M -> M * M * M) (data : list (geo_arg M)) : res (M * M * M) :=
  match data with
  | [SwathArg xyz] => Ok xyz
  | [ArrayArg _] => Err AttributeError
  | [ArrayArg lon; ArrayArg lat] => Ok (conv lon lat)
  | [_; _] => Err TypeError
  | _ => Err ValueError
  end.
