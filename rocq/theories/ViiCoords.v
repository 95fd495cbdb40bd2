(** Model of geotiepoints/viiinterpolator.py for DataArrays with index coordinates attached by the caller.

    [index d] is the coordinate (labels) of dimension [d], if there is one; labels are integers here (xarray only
    compares them). Coordinates that are not the index of a dimension take no part in arithmetic and are not modelled. *)
From Coq Require Import ZArith List Bool.
From Verif Require Import Base Num Geo Vii.
Import ListNotations.
Open Scope Z_scope.

Record xarray (T : Type) := { plain : darray T; index : nat -> option (list Z) }.
Arguments plain {T}. Arguments index {T}.

(** equality of two pandas indexes *)
Fixpoint same_labels (a b : list Z) : bool :=
  match a, b with
  | [], [] => true
  | x :: a', y :: b' => (x =? y) && same_labels a' b'
  | _, _ => false
  end.
Definition has_label (l : list Z) (x : Z) : bool := existsb (Z.eqb x) l.
(** not index.is_unique *)
Fixpoint has_duplicates (l : list Z) : bool :=
  match l with [] => false | x :: l' => has_label l' x || has_duplicates l' end.
(** position of a label (index.get_indexer) *)
Fixpoint position (l : list Z) (x : Z) : nat :=
  match l with [] => O | y :: l' => if x =? y then O else S (position l' x) end.

(** xarray.align(join='inner') of one dimension: the positions taken from the first and the second operand. Equal
    indexes are not touched; otherwise the labels of the first that the second has too, in the order of the first
    (pandas Index.intersection), and ValueError for repeated labels. A dimension without index must have the same
    size in both. *)
Definition align_dim (ia ib : option (list Z)) (na nb : nat) : res (list nat * list nat) :=
  match ia, ib with
  | Some la, Some lb =>
      if same_labels la lb then Ok (seq 0 na, seq 0 nb)
      else if has_duplicates la || has_duplicates lb then Err ValueError
      else let common := filter (has_label lb) la in Ok (map (position la) common, map (position lb) common)
  | _, _ => if (na =? nb)%nat then Ok (seq 0 na, seq 0 nb) else Err ValueError
  end.

(** DataArray.isel of both dimensions (outside the shape: anything) *)
Definition take {T} (rows cols : list nat) (a : darray T) : darray T :=
  {| dims := dims a; nrows := length rows; ncols := length cols; at_ := fun i j => at_ a (nth i rows i) (nth j cols j) |}.
(** the second operand of arithmetic with its dimensions in the order of the first *)
Definition transpose_da {T} (a : darray T) : darray T :=
  {| dims := (snd (dims a), fst (dims a)); nrows := ncols a; ncols := nrows a; at_ := fun i j => at_ a j i |}.

Section Coords.
Context {T : Type} {N : NumOps T}.
Variable nan : T.

(** the two operands of [cos(lats_rad) * cos(lons_rad)], aligned: latitudes, longitudes (viiinterpolator.py:150-151).
    Other names: more than two dimensions, unpacking the shape raises ValueError. *)
Definition align_operands (longitude latitude : xarray T) : res (darray T * darray T) :=
  let lat := plain latitude in
  let* lon := (if dims_eqb (plain longitude) lat then Ok (plain longitude)
               else if (fst (dims (plain longitude)) =? snd (dims lat))%nat && (snd (dims (plain longitude)) =? fst (dims lat))%nat
               then Ok (transpose_da (plain longitude)) else Err ValueError) in
  let (d0, d1) := dims lat in
  let* r := align_dim (index latitude d0) (index longitude d0) (nrows lat) (nrows lon) in
  let* c := align_dim (index latitude d1) (index longitude d1) (ncols lat) (ncols lon) in
  Ok (take (fst r) (fst c) lat, take (snd r) (snd c) lon).

(** viiinterpolator.py:83-134. The coordinate z comes from the latitudes alone and is not aligned
    (viiinterpolator.py:152). tie_points_interpolation replaces the indexes of its arguments
    (viiinterpolator.py:72) and drops its own from the results (viiinterpolator.py:74). *)
Definition geo_interpolation (longitude latitude : xarray T) (s f : nat) (lat_threshold z_threshold : T) : res (darray T * darray T) :=
  if negb (shape_eqb (plain longitude) (plain latitude)) then Err ValueError
  else if (nrows (plain latitude) =? 0)%nat || (ncols (plain latitude) =? 0)%nat then Err ValueError
  else if to_cart (plain longitude) (plain latitude) lat_threshold then
    let* ll := align_operands longitude latitude in
      let xyz := zip_da vii_lonlat2xyz (snd ll) (fst ll) in
      let x := map_da (fun p => fst (fst p)) xyz in
      let y := map_da (fun p => snd (fst p)) xyz in
      let z := map_da (fun lat => snd (vii_lonlat2xyz lat lat)) (plain latitude) in
      let* r := tie_points_interpolation nan [x; y; z] s f in
      match r with
      | [interp_x; interp_y; interp_z] =>
          let ll := zip_da (fun xy z => vii_xyz2lonlat z_threshold (fst xy, snd xy, z)) (zip_da pair interp_x interp_y) interp_z in
          Ok (map_da fst ll, map_da snd ll)
      | _ => Err ValueError
      end
  else
    let* r := tie_points_interpolation nan [plain longitude; plain latitude] s f in
    match r with [interp_longitude; interp_latitude] => Ok (interp_longitude, interp_latitude) | _ => Err ValueError end.

End Coords.
