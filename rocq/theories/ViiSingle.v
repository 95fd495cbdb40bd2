(** viiinterpolator.py on float32 arrays.

    numpy and scipy compute in float32 where all operands are float32 arrays (or Python numbers) and in double as soon as one
    operand is an int64 or a double array:
    - the mode (line 116) and _lonlat2xyz (lines 148-153): float32;
    - the first DataArray.interp (line 74): scipy's interp1d subtracts the two neighbours in float32, the division by the
      distance (int64) and everything after it is done in double;
    - the second DataArray.interp (line 75) and _xyz2lonlat (lines 170-182): double.
    A number of either type is a [T]; [N32], [N64]: float32 and double arithmetic. *)
From Coq Require Import ZArith List Bool.
From Verif Require Import Base Num Geo Vii.
Import ListNotations.

Section Single.
Context {T : Type} (N32 N64 : NumOps T).
Variable nan : T.

(** double arithmetic, but for subtractions of tie points *)
Definition single_difference : NumOps T := {|
  nz := @nz _ N64; nadd := @nadd _ N64; nsub := @nsub _ N32; nmul := @nmul _ N64; ndiv := @ndiv _ N64; nsqrt := @nsqrt _ N64;
  ncos := @ncos _ N64; nsin := @nsin _ N64; nacos := @nacos _ N64; nasin := @nasin _ N64; npi := @npi _ N64;
  nltb := @nltb _ N64; nleb := @nleb _ N64; neqb := @neqb _ N64; ntrunc := @ntrunc _ N64; nfloor := @nfloor _ N64; nst := @nst _ N64 |}.

(** viiinterpolator.py:23-79 *)
Definition tie_points_interpolation_32 : list (darray T) -> nat -> nat -> res (list (darray T)) :=
  tie_points_with (@interp_rows _ single_difference nan) (@interp_cols _ N64 nan).

(** viiinterpolator.py:83-134 *)
Definition tie_points_geo_interpolation_32 (longitude latitude : darray T) (s f : nat) (lat_threshold z_threshold : T)
    : res (darray T * darray T) :=
  if negb (shape_eqb longitude latitude) then Err ValueError
  else if (nrows latitude =? 0)%nat || (ncols latitude =? 0)%nat then Err ValueError
  else if @to_cart _ N32 longitude latitude lat_threshold then
    let* longitude := align_longitude longitude latitude in
      let xyz := zip_da (@vii_lonlat2xyz _ N32) longitude latitude in
      let x := map_da (fun p => fst (fst p)) xyz in
      let y := map_da (fun p => snd (fst p)) xyz in
      let z := map_da snd xyz in
      let* r := tie_points_interpolation_32 [x; y; z] s f in
      match r with
      | [interp_x; interp_y; interp_z] =>
          let ll := zip_da (fun xy z => @vii_xyz2lonlat _ N64 z_threshold (fst xy, snd xy, z)) (zip_da pair interp_x interp_y) interp_z in
          Ok (map_da fst ll, map_da snd ll)
      | _ => Err ValueError
      end
  else
    let* r := tie_points_interpolation_32 [longitude; latitude] s f in
    match r with [interp_longitude; interp_latitude] => Ok (interp_longitude, interp_latitude) | _ => Err ValueError end.
End Single.
