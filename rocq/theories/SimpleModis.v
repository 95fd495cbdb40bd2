(** Model of geotiepoints/_simple_modis_interpolator.pyx and geotiepoints/simple_modis_interpolator.py for plain arrays.
    Memory as in Modis.v; the view xyz[:, :, k] of an array of triples is the buffer of the k-th components (an
    element of it exists exactly when the triple does).
    Simplifications: C integers do not overflow; scipy's map_coordinates is [map_coordinates] below; a C division by
    zero (a crash) is [ZeroDivisionError]. *)
From Coq Require Import ZArith List Bool.
From Verif Require Import Base Num Geo Mem Modis.
Import ListNotations.
Open Scope Z_scope.

(** _modis_utils.pyx:80-86 *)
Definition rows_per_scan_for_resolution (r : Z) : res Z :=
  if r =? 5000 then Ok 2 else if r =? 1000 then Ok 10 else if r =? 500 then Ok 20 else if r =? 250 then Ok 40 else Err KeyError.

(** what np.empty finds in memory (_simple_modis_interpolator.pyx:27-46) *)
Record garbage2 (T : Type) := { s_coords : Z -> T; s_result : Z -> T * T * T; s_in : Z -> T * T * T; s_lons : Z -> T; s_lats : Z -> T }.
Arguments s_coords {T}. Arguments s_result {T}. Arguments s_in {T}. Arguments s_lons {T}. Arguments s_lats {T}.

(** scipy ndimage: index of the coefficient used for index idx (mirror at both ends) *)
Definition mirror (len idx : Z) : Z :=
  if len <=? 1 then 0 else let s2 := 2 * len - 2 in let m := idx mod s2 in if len <=? m then s2 - m else m.

Section Simple.
Context {T : Type} {N : NumOps T}.

(** component k of an array of triples, seen as a buffer; and the array after this buffer has been written *)
Definition comp_buf (k : Z) (b : buf (T * T * T)) : buf T := {| bsize := bsize b; bat := fun a => comp k (bat b a) |}.
Definition put_comp (k : Z) (b : buf (T * T * T)) (c : buf T) : buf (T * T * T) :=
  {| bsize := bsize b; bat := fun a => set_comp k (bat b a) (bat c a) |}.

(** scipy ndimage, mode='nearest': coordinates outside are moved to the border *)
Definition nearest (len : Z) (x : T) : T :=
  if nltb x (nz 0) then nz 0 else if nltb (nz (len - 1)) x then nz (len - 1) else x.
(** scipy.ndimage.map_coordinates with order=1, mode='nearest' at one point *)
Definition map_coordinates (rows cols : Z) (nav : Z -> Z -> T) (y x : T) : T :=
  let y := nearest rows y in
  let x := nearest cols x in
  let r := nfloor y in
  let c := nfloor x in
  let ty := nsub y (nz r) in
  let tx := nsub x (nz c) in
  let wy0 := nsub (nz 1) ty in
  let wx0 := nsub (nz 1) tx in
  let at_ i j := nav (mirror rows (r + i)) (mirror cols (c + j)) in
  nadd (nadd (nadd (nadd (nz 0) (nmul (nmul (at_ 0 0) wy0) wx0)) (nmul (nmul (at_ 0 1) wy0) tx))
             (nmul (nmul (at_ 1 0) ty) wx0)) (nmul (nmul (at_ 1 1) ty) tx).

(** _simple_modis_interpolator.pyx:71-81; [fr], [fc] = shape of the coordinate planes *)
Definition y_coordinate (f j : Z) : T :=
  nst (nsub (nmul (nz j) (ndiv (nz 1) (nz f))) (nadd (nmul (nz f) (ndiv (nz 1) (nz 16))) (ndiv (nz 1) (nz 8)))).
Definition x_coordinate (f i : Z) : T := nst (nmul (nz i) (ndiv (nz 1) (nz f))).
Definition plane (fr fc k : Z) : vw := {| voff := k * (fr * fc); vs0 := fc; vrows := fr; vcols := fc |}.
Definition compute_yx (f fr fc : Z) (b : buf T) : res (buf T) :=
  for_range fr (fun j b => for_range fc (fun i b =>
    let* b := wr b (plane fr fc 0) j i (y_coordinate f j) in
    wr b (plane fr fc 1) j i (x_coordinate f i)) b) b.

(** _simple_modis_interpolator.pyx:121-132; the input has [rows] x [cols] elements *)
Definition call_map_coordinates (rows cols fr fc : Z) (nav coords : buf T) (b : buf T) : res (buf T) :=
  for_range fr (fun j b => for_range fc (fun i b =>
    let* y := rd coords (plane fr fc 0) j i in
    let* x := rd coords (plane fr fc 1) j i in
    wr b (full fr fc) j i (nst (map_coordinates rows cols (fun a c => bat nav (a * cols + c)) y x))) b) b.

(** _simple_modis_interpolator.pyx:139-150 *)
Definition extrapolate_rightmost (fr fc num_columns : Z) (b : buf T) : res (buf T) :=
  for_range fr (fun row_idx b =>
    let* u := rd b (full fr fc) row_idx (fc - num_columns - 1) in
    let* v := rd b (full fr fc) row_idx (fc - num_columns - 2) in
    let last_interp_col_diff := fsub u v in
    for_range num_columns (fun col_offset b =>
      let* old := rd b (full fr fc) row_idx (fc - num_columns + col_offset) in
      wr b (full fr fc) row_idx (fc - num_columns + col_offset) (fadd old (fmul last_interp_col_diff (nz (col_offset + 1))))) b) b.

(** _simple_modis_interpolator.pyx:232-277; d = 3 for 250m, 1 for 500m *)
Definition calc_slope (fr fc d : Z) (b coords : buf T) (col offset : Z) : res T :=
  let* u := rd b (full fr fc) (offset + d) col in
  let* v := rd b (full fr fc) offset col in
  let* yu := rd coords (plane fr fc 0) (offset + d) 0 in
  let* yv := rd coords (plane fr fc 0) offset 0 in
  Ok (fdiv (fsub u v) (fsub yu yv)).
Definition calc_offset (fr fc d : Z) (b coords : buf T) (m : T) (col offset : Z) : res T :=
  let* u := rd b (full fr fc) (offset + d) col in
  let* yu := rd coords (plane fr fc 0) (offset + d) 0 in
  Ok (fsub u (fmul m yu)).
Definition set_row (fr fc : Z) (coords : buf T) (m b_ : T) (row col : Z) (b : buf T) : res (buf T) :=
  let* y := rd coords (plane fr fc 0) row 0 in
  wr b (full fr fc) row col (fadd (fmul m y) b_).

(** _simple_modis_interpolator.pyx:157-189 *)
Definition interpolate_250 (fr fc : Z) (coords : buf T) (b : buf T) : res (buf T) :=
  for_range fc (fun col b =>
    let* m := calc_slope fr fc 3 b coords col 2 in
    let* o := calc_offset fr fc 3 b coords m col 2 in
    let* b := set_row fr fc coords m o 0 col b in
    let* b := set_row fr fc coords m o 1 col b in
    let* m := calc_slope fr fc 3 b coords col 34 in
    let* o := calc_offset fr fc 3 b coords m col 34 in
    let* b := set_row fr fc coords m o 38 col b in
    set_row fr fc coords m o 39 col b) b.

(** _simple_modis_interpolator.pyx:196-225 *)
Definition interpolate_500 (fr fc : Z) (coords : buf T) (b : buf T) : res (buf T) :=
  for_range fc (fun col b =>
    let* m := calc_slope fr fc 1 b coords col 1 in
    let* o := calc_offset fr fc 1 b coords m col 1 in
    let* b := set_row fr fc coords m o 0 col b in
    let* m := calc_slope fr fc 1 b coords col 17 in
    let* o := calc_offset fr fc 1 b coords m col 17 in
    set_row fr fc coords m o 19 col b) b.

(** _simple_modis_interpolator.pyx:85-118 *)
Definition interpolated_xyz_scan (f rows cols fr fc : Z) (coords : buf T) (xyz_in : buf (T * T * T)) (xyz : buf (T * T * T)) : res (buf (T * T * T)) :=
  let* xyz := for_range 3 (fun k xyz =>
    let* c := call_map_coordinates rows cols fr fc (comp_buf k xyz_in) coords (comp_buf k xyz) in
    Ok (put_comp k xyz c)) xyz in
  for_range 3 (fun k xyz =>
    let* c := extrapolate_rightmost fr fc (if f =? 4 then 3 else 1) (comp_buf k xyz) in
    let* c := (if f =? 4 then interpolate_250 fr fc coords c else interpolate_500 fr fc coords c) in
    Ok (put_comp k xyz c)) xyz.

(** the arrays that live through the loop over scans *)
Record work2 := { v_in : buf (T * T * T); v_res : buf (T * T * T); v_lons : buf T; v_lats : buf T }.

(** _simple_modis_interpolator.pyx:50-63 *)
Definition simple_scan (f rows nrows ncols : Z) (lon lat : ndarray T) (coords : buf T) (scan_idx : Z) (w : work2) : res work2 :=
  let j0 := rows * scan_idx in
  let j1 := j0 + rows in
  let k0 := rows * f * scan_idx in
  let k1 := k0 + rows * f in
  let vlon := slice_rows (full (arows lon) (acols lon)) j0 j1 in
  let vlat := slice_rows (full (arows lat) (acols lat)) j0 j1 in
  let vnew := slice_rows (full (f * nrows) (f * ncols)) k0 k1 in
  let* xin := lonlat2xyz_v (contiguous lon) vlon (contiguous lat) vlat (full rows ncols) (v_in w) in
  let* xres := interpolated_xyz_scan f rows ncols (f * rows) (f * ncols) coords xin (v_res w) in
  let* (lons, lats) := xyz2lonlat_v xres (full (f * rows) (f * ncols)) vnew (v_lons w, v_lats w) in
  Ok {| v_in := xin; v_res := xres; v_lons := lons; v_lats := lats |}.

(** _simple_modis_interpolator.pyx:13-64 *)
Definition simple_interp (g : garbage2 T) (lon lat : ndarray T) (coarse_resolution fine_resolution : Z) : res (ndarray T * ndarray T) :=
  if dtype_eqb (adt lon) OtherDtype then Err TypeError
  else if negb (dtype_eqb (adt lat) (adt lon)) then Err ValueError
  else
    let* rows := rows_per_scan_for_resolution coarse_resolution in
    if fine_resolution =? 0 then Err ZeroDivisionError
    else
      let f := coarse_resolution / fine_resolution in
      let nrows := arows lon in
      let ncols := acols lon in
      let scans := nrows / rows in
      let fr := f * rows in
      let fc := f * ncols in
      let* coords := compute_yx f fr fc {| bsize := 2 * (fr * fc); bat := s_coords g |} in
      let* w := for_range scans (simple_scan f rows nrows ncols lon lat coords)
        {| v_in := {| bsize := rows * ncols; bat := s_in g |}; v_res := {| bsize := fr * fc; bat := s_result g |};
           v_lons := {| bsize := f * nrows * fc; bat := s_lons g |}; v_lats := {| bsize := f * nrows * fc; bat := s_lats g |} |} in
      Ok (array_of (adt lon) (f * nrows) fc (v_lons w), array_of (adt lon) (f * nrows) fc (v_lats w)).

(** simple_modis_interpolator.py:45-61 for plain arrays *)
Definition simple_1km_to_250m (g : garbage2 T) (lon lat : ndarray T) := simple_interp g lon lat 1000 250.
Definition simple_1km_to_500m (g : garbage2 T) (lon lat : ndarray T) := simple_interp g lon lat 1000 500.

End Simple.
