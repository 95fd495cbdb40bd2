(** The model run on inputs of the project's own unit tests (geotiepoints/tests), compared with the results expected there.
    Tests of the model, not proofs. *)
From Coq Require Import ZArith List Bool Lia QArith.
From Verif Require Import Base Num Approx Splits Geo Interp Legacy Cubic Chunks GridLinear SplineGrid Vii Multilinear ConformanceData.
Import ListNotations.
Open Scope Z_scope.

(** np.arange(r * c).reshape((r, c), order="C") and order="F" *)
Definition c_order {A} (conv : Z -> A) (r c : nat) : list (list A) := map (fun i => map (fun j => conv (Z.of_nat (i * c + j))) (seq 0 c)) (seq 0 r).
Definition f_order {A} (conv : Z -> A) (r c : nat) : list (list A) := map (fun i => map (fun j => conv (Z.of_nat (j * r + i))) (seq 0 c)) (seq 0 r).
Definition matches {A B} (eq : A -> B -> bool) (a : list (list A)) (b : list (list B)) : bool :=
  (length a =? length b)%nat &&
  forallb (fun '(r, s) => (length r =? length s)%nat && forallb (fun '(x, y) => eq x y) (combine r s)) (combine a b).
Definition ok_matches {A B} (eq : A -> B -> bool) (a : res (list (list A))) (b : list (list B)) : bool :=
  match a with Ok a => matches eq a b | Err _ => false end.
(** equal rationals, [y] in tenths *)
Definition tenths (x : Q) (y : Z) : bool := Qeq_bool x (y # 10).
(** |x - y| <= |y| / rel + 10^-8, [y] in units of 10^-8 *)
Definition close (rel : Z) (x : option Z) (y : Z) : bool := near (fx_frac (Z.abs y / rel + 1) (10 ^ 8)) x (fx_frac y (10 ^ 8)).
Definition close_q (x : Q) (y : Z) : bool := Qle_bool (x - (y # (10 ^ 8)%positive)) (1 # 10 ^ 8) && Qle_bool ((y # (10 ^ 8)%positive) - x) (1 # 10 ^ 8).

(** test_modis.py:34-35 *)
Example test_get_numof_subscene_lines : get_scene_splits 1060 10 3 = Ok [350; 700; 1050].
Proof. reflexivity. Qed.

(** ** test_interpolator.py *)
Definition ints := map inject_Z.
Definition satint : istate Q :=
  @make Q [f_order inject_Z 2 5; c_order inject_Z 2 5] (ints [2; 7], ints [2; 7; 12; 17; 22]) (ints (range0 10), ints (range0 24)) 1 1 0.
(** test_interpolator.py:57-69 *)
Example test_extrapolate_cols : ok_matches tenths (@extrapolate_cols Q QT satint (f_order inject_Z 2 5) true true)
  [[-8; 0; 20; 40; 60; 80; 84]; [2; 10; 30; 50; 70; 90; 94]] = true.
Proof. vm_compute. reflexivity. Qed.
(** test_interpolator.py:71-85 *)
Example test_fill_col_borders : exists st, @fill_col_borders Q QT satint = Ok st /\
  matches tenths (nth 0 (tie_data st) []) [[-8; 0; 20; 40; 60; 80; 84]; [2; 10; 30; 50; 70; 90; 94]] = true /\
  matches tenths [col_indices st] [[0; 20; 70; 120; 170; 220; 230]] = true.
Proof. eexists. split; [vm_compute; reflexivity|]. split; vm_compute; reflexivity. Qed.
(** test_interpolator.py:87-103 *)
Example test_extrapolate_rows : ok_matches tenths (@extrapolate_rows Q QT (f_order inject_Z 2 5) (ints [2; 7]) 0%Q 9%Q)
  [[-4; 16; 36; 56; 76]; [0; 20; 40; 60; 80]; [10; 30; 50; 70; 90]; [14; 34; 54; 74; 94]] = true.
Proof. vm_compute. reflexivity. Qed.
(** test_interpolator.py:128-348, some rows: there scipy's RegularGridInterpolator with method 'cubic_legacy', here the
    bicubic spline of the spline interpolator (SplineGrid.v); both are the tensor product of cubic not-a-knot splines *)
Example test_interpolate :
  matches close_q
    (map (fun y => map (fun x => @spline_point Q QT (fun _ _ _ _ => 0%Q) default_degrees (ints [0; 3; 7; 15; 31], ints [0; 3; 7; 15])
        {| v_int := false; v_data := [ints [0; 1; 0; 1]; ints [2; 2; 2; 1]; ints [0; 3; 3; 3]; ints [1; 2; 1; 2]; ints [4; 4; 4; 4]] |}
        (inject_Z y) (inject_Z x)) (range0 16)) [0; 1; 8; 17; 30]) cubic_rows = true.
Proof. vm_compute. reflexivity. Qed.

(** ** test_geointerpolator.py and test_satelliteinterpolator.py *)
#[local] Existing Instance FX.
Definition fx := fun z => Some (fx_of z) : option Z.
Definition fifth (z : Z) : option Z := Some (fx_frac z 5).
Definition geoint (r : nat) (lines hlines : list (option Z)) (chunk : Z) : istate (option Z) :=
  make (tie_xyz (f_order fx r 5) (c_order fx r 5)) (lines, map fx [2; 7; 12; 17; 22]) (hlines, map fx (range0 24)) 1 1 chunk.
Definition metres := close (10 ^ 7).
(** test_geointerpolator.py:96-115 *)
Example test_fillborders : let st := geoint 4 (map fifth [2; 7; 12; 17]) (map fifth (range0 20)) 10 in
  let '(r, st') := fill_borders [DimX; DimY] st in
  r = Ok tt /\ matches metres (nth 0 (tie_data st') []) ties_exp1 = true /\
  row_indices st' = map fifth [0; 2; 7; 9; 10; 12; 17; 19] /\ col_indices st' = map fx [0; 2; 7; 12; 17; 22; 23].
Proof. vm_compute. repeat split; reflexivity. Qed.
(** test_geointerpolator.py:138-150: rows of the target grid are passed as positions *)
Example test_geo_extrapolate_rows :
  ok_matches metres (extrapolate_rows (nth 0 (tie_xyz (f_order fx 2 5) (c_order fx 2 5)) []) (map fx (range0 10)) (Some (fx_frac (-4) 10)) (Some (fx_frac 94 10)))
    ties_exp4 = true.
Proof. vm_compute. reflexivity. Qed.
(** test_geointerpolator.py:152-173 *)
Example test_fill_row_borders : let st := geoint 4 (map fifth [2; 7; 12; 17]) (map fifth (range0 20)) 10 in
  exists st', fill_row_borders st = Ok st' /\ matches metres (nth 0 (tie_data st') []) ties_exp6 = true /\
  row_indices st' = map fifth [0; 2; 7; 9; 10; 12; 17; 19].
Proof. eexists. split; [vm_compute; reflexivity|]. split; vm_compute; reflexivity. Qed.

(** GeoGridInterpolator and GeoSplineInterpolator with kx = ky = 1 (test_geointerpolator.py:193-216, 290-312) *)
Definition tie_lons : list (list (option Z)) := repeat (map fx [1; 2; 3; 4]) 5.
Definition tie_lats : list (list (option Z)) := map (fun z => repeat (fx z) 4) [1; 2; 3; 4; 5].
Definition floats_of (m : list (list (option Z))) : tie_values (option Z) := {| v_int := false; v_data := m |}.
Definition conv (lons lats : tie_values (option Z)) :=
  match tie_xyz (v_data lons) (v_data lats) with
  | [x; y; z] => (floats_of x, floats_of y, floats_of z)
  | _ => (floats_of [], floats_of [], floats_of [])
  end.
Definition points : list (option Z) * list (option Z) := (map fx [0; 1; 3; 7; 15], map fx [0; 1; 3; 7]).
Definition geo_args := [ArrayArg (floats_of tie_lons); ArrayArg (floats_of tie_lats)].
Definition elem (x y z : option Z) : option Z * option Z := xyz2lonlat (x, y, z).
Definition lons_expected := [1000; 2000; 2500; 3000; 3250; 3500; 3750; 4000].
Definition lats_expected := [1000; 2000; 2500; 3000; 3250; 3500; 3750; 4000; 4125; 4250; 4375; 4500; 4625; 4750; 4875; 5000].
Definition near_milli (x : option Z) (y : Z) : bool := close 20000 x (y * 10 ^ 5).
Definition geo_check (r : res (list (list (option Z)) * list (list (option Z)))) : bool :=
  match r with
  | Ok (lons, lats) => matches near_milli [nth 0 lons []] [lons_expected] && matches near_milli [map (fun r => nth 0 r None) lats] [lats_expected]
  | Err _ => false
  end.
Example test_geogrid_interpolation : geo_check
  (let* ss := make_geo rgi_valid conv Grid {| bounds_error := true; fill_value := Some None |} points geo_args in
   geo_interpolate rgi elem ss (to_shape_points 16 8) tt) = true.
Proof. vm_compute. reflexivity. Qed.
Example test_geospline_interpolation : geo_check
  (let* ss := make_geo rbs_valid conv Spline {| deg_y := 1; deg_x := 1 |} points geo_args in
   geo_interpolate (rbs (fun _ _ _ _ => None)) elem ss (to_shape_points 16 8) tt) = true.
Proof. vm_compute. reflexivity. Qed.

(** ** test_viiinterpolator.py *)
Open Scope nat_scope.
Definition tie_array (rows : nat) (v : Z -> Z) : darray (option Z) :=
  {| dims := (0, 1); nrows := rows; ncols := 4; at_ := fun i j => fx (v (Z.of_nat (i * 4 + j))) |}.
Definition to_list {A} (a : darray A) : list (list A) := map (fun i => map (at_ a i) (seq 0 (ncols a))) (seq 0 (nrows a)).
(** test_viiinterpolator.py:172-197 *)
Example test_tie_points_interpolation :
  match tie_points_interpolation None [tie_array 6 (fun k => k)] 3 2 with
  | Ok [r] => nth 0 (to_list r) [] = map (fun z => Some (fx_frac z 2)) [0; 1; 2; 3; 4; 5]%Z /\
              map (fun row => nth 0 row None) (to_list r) = map fx [0; 2; 4; 6; 12; 14; 16; 18]%Z
  | _ => False
  end /\
  tie_points_interpolation None [tie_array 7 (fun k => k)] 3 2 = Err ValueError.
Proof. vm_compute. repeat split; reflexivity. Qed.
(** shape, and rows 1 and 3 (between the tie points of the first scan) and 4 (a tie row) *)
Definition vii_check (lon lat : Z -> Z) (elon elat : list (list Z)) : bool :=
  match tie_points_geo_interpolation None (tie_array 6 lon) (tie_array 6 lat) 3 2 (fx 60) (Some (fx_frac 8 10)) with
  | Ok (olon, olat) =>
    let rows (a : darray (option Z)) := map (fun i => map (at_ a i) (seq 0 6)) [1; 3; 4] in
    let expected e := map (fun i => nth i e []) [1; 3; 4] in
    (nrows olon =? 8) && (ncols olon =? 6) && (nrows olat =? 8) && (ncols olat =? 6) &&
    matches (close (10 ^ 5)) (rows olon) (expected elon) && matches (close (10 ^ 5)) (rows olat) (expected elat)
  | Err _ => false
  end.
(** test_viiinterpolator.py:199-241 *)
Example test_tie_points_geo_interpolation : vii_check (fun k => k - 12)%Z (fun k => k) vii_lon_1 vii_lat_1 = true.
Proof. vm_compute. reflexivity. Qed.
Example test_over_360 : vii_check (fun k => (k - 12) mod 360)%Z (fun k => k) vii_lon_2 vii_lat_2 = true.
Proof. vm_compute. reflexivity. Qed.
Example test_over_60 : vii_check (fun k => k - 12)%Z (fun k => k + 45)%Z vii_lon_3 vii_lat_3 = true.
Proof. vm_compute. reflexivity. Qed.
Example test_geo_shapes :
  tie_points_geo_interpolation None (tie_array 6 (fun k => k - 12)%Z) (tie_array 7 (fun k => k)) 3 2 (fx 60) (Some (fx_frac 8 10)) = Err ValueError.
Proof. reflexivity. Qed.

(** ** test_multilinear.py:44-64. The two functions at the nodes 0, 1/2 and 1; they are not needed (and the second one is not a
    number) at negative nodes. *)
Open Scope Z_scope.
Definition node (x : Z) (y : Z) (f : Z -> Z -> option Z) : option Z := if (x <? 0) || (y <? 0) then None else f x y.
(** coordinates in halves; cube roots in units of 10^-12 *)
Definition f1 (x y : Z) : option Z := Some (fx_sqrt (fx_frac (x * x + y * y) 4)).
Definition f2 (x y : Z) : option Z :=
  match x + y, x * y with
  | 0, _ => Some 0 | 1, _ => Some (fx_frac 1 2) | 2, 0 => Some fx_one
  | 2, _ => Some (fx_frac 629960524947 (10 ^ 12)) | 3, _ => Some (fx_frac 1040041911526 (10 ^ 12)) | _, _ => Some (fx_frac 1259921049895 (10 ^ 12))
  end.
Definition ml_values (f : Z -> Z -> option Z) : list (option Z) := flat_map (fun x => map (fun y => node x y f) [-2; -1; 0; 1; 2]) [-2; -1; 0; 1; 2].
Definition ml_points : list (list (option Z)) := map (map (fun z => Some (fx_frac z (10 ^ 8)))) ml_arr1.
Example test_multilinear_interp :
  ok_matches (close (10 ^ 5)) (multilinear_interpolation [range0 30; rev (range0 30)] [repeat None 30; repeat None 30]
    (map fx [-1; -1]) (map fx [1; 1]) [5; 5] [ml_values f1; ml_values f2] ml_points) ml_res1 = true.
Proof. vm_compute. reflexivity. Qed.
