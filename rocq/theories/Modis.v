(** Model of geotiepoints/_modis_interpolator.pyx and geotiepoints/modisinterpolator.py
    (MODIS interpolation with satellite zenith angles). The code is compiled without bounds checks and reuses
    uninitialised work arrays, so memory is modelled explicitly (Mem.v).
    Simplifications: C integers do not overflow; an xyz array of shape (r, c, 3) is a buffer of r * c triples
    (same offsets up to the factor 3); division by zero of C integers is [ZeroDivisionError]; float operations are
    operations of [NumOps] followed by [nst]; the integer-valued floats of np.arange and % are exact. *)
From Coq Require Import ZArith List Bool.
From Verif Require Import Base Num Geo Mem.
Import ListNotations.
Open Scope Z_scope.

Inductive dtype := Float32 | Float64 | OtherDtype.
Definition dtype_eqb (a b : dtype) : bool :=
  match a, b with Float32, Float32 | Float64, Float64 | OtherDtype, OtherDtype => true | _, _ => false end.

(** a two-dimensional numpy array *)
Record ndarray (T : Type) := { adt : dtype; arows : Z; acols : Z; aat : Z -> Z -> T }.
Arguments adt {T}. Arguments arows {T}. Arguments acols {T}. Arguments aat {T}.

(** np.ascontiguousarray: the row-major buffer of an array *)
Definition contiguous {T} (a : ndarray T) : buf T := {| bsize := arows a * acols a; bat := flat2 (acols a) (aat a) |}.
(** the array held by a row-major buffer *)
Definition array_of {T} (dt : dtype) (r c : Z) (b : buf T) : ndarray T :=
  {| adt := dt; arows := r; acols := c; aat := fun i j => bat b (i * c + j) |}.

(** attributes of MODISInterpolator (_modis_interpolator.pyx:100-108; zero when not assigned) *)
Record cfg := { scl : Z; scw : Z; cpp : Z; ff : Z; fsw : Z; fac : Z }.

(** _modis_interpolator.pyx:110-128 *)
Definition cinit (coarse_resolution fine_resolution coarse_scan_width : Z) : res cfg :=
  let '(len, width) :=
    if coarse_resolution =? 1000 then (10, 1354)
    else if coarse_resolution =? 5000 then (2, if coarse_scan_width =? 0 then 271 else coarse_scan_width)
    else (0, 0) in
  let coarse_pixels_per_1km := coarse_resolution / 1000 in
  if fine_resolution =? 0 then Err ZeroDivisionError
  else
    let fine_pixels_per_1km := 1000 / fine_resolution in
    let f := fine_pixels_per_1km * coarse_pixels_per_1km in
    if coarse_pixels_per_1km =? 0 then Err ZeroDivisionError
    else Ok {| scl := len; scw := width; cpp := coarse_pixels_per_1km; ff := f; fsw := 1354 * fine_pixels_per_1km;
               fac := f / coarse_pixels_per_1km * 2 |}.

(** what np.empty finds in memory, for each work array *)
Record garbage (T : Type) := {
  g_atrack : Z -> T; g_ascan : Z -> T; g_y : Z -> T; g_a : Z -> T; g_b : Z -> T; g_c : Z -> T; g_d : Z -> T;
  g_cxyz : Z -> T * T * T; g_fxyz : Z -> T * T * T; g_lons : Z -> T; g_lats : Z -> T }.
Arguments g_atrack {T}. Arguments g_ascan {T}. Arguments g_y {T}. Arguments g_a {T}. Arguments g_b {T}. Arguments g_c {T}.
Arguments g_d {T}. Arguments g_cxyz {T}. Arguments g_fxyz {T}. Arguments g_lons {T}. Arguments g_lats {T}.

Section Modis.
Context {T : Type} {N : NumOps T}.

(** operations on values of the arrays' precision *)
Definition fadd (x y : T) : T := nst (nadd x y).
Definition fsub (x y : T) : T := nst (nsub x y).
Definition fmul (x y : T) : T := nst (nmul x y).
Definition fdiv (x y : T) : T := nst (ndiv x y).

(** _modis_interpolator.pyx:10-12 *)
Definition RK : T := ndiv (nz 6370997) (nz 1000).
Definition HK : T := nz 709.

(** _modis_interpolator.pyx:73-82 *)
Definition compute_phi (zeta : T) : T := nst (nasin (ndiv (nmul RK (nsin zeta)) (nadd RK HK))).
Definition compute_theta (zeta phi : T) : T := fsub zeta phi.
Definition compute_zeta (phi : T) : T := nst (nasin (ndiv (nmul (nadd RK HK) (nsin phi)) RK)).

(** _modis_interpolator.pyx:52-70 (one element): c_expansion and c_alignment *)
Definition exp_ali (scan_width : Z) (satz_a satz_b : T) : T * T :=
  let satz_a_rad := nst (deg2rad satz_a) in
  let satz_b_rad := nst (deg2rad satz_b) in
  let phi_a := compute_phi satz_a_rad in
  let phi_b := compute_phi satz_b_rad in
  let theta_a := compute_theta satz_a_rad phi_a in
  let theta_b := compute_theta satz_b_rad phi_b in
  let phi := fdiv (fadd phi_a phi_b) (nz 2) in
  let zeta := compute_zeta phi in
  let theta := compute_theta zeta phi in
  let denominator := if neqb theta_a theta_b then fmul theta_a (nz 2) else fsub theta_a theta_b in
  let c_expansion := fmul (nz 4) (fdiv (fsub (fdiv (fadd theta_a theta_b) (nz 2)) theta) denominator) in
  let sin_beta_2 := nst (ndiv (nz scan_width) (nmul (nz 2) HK)) in
  let d := nst (nmul (nsub (nmul (ndiv (nadd RK HK) RK) (ncos phi)) (ncos zeta)) sin_beta_2) in
  let e := nst (nsub (ncos zeta) (nsqrt (nsub (nmul (ncos zeta) (ncos zeta)) (fmul d d)))) in
  let c_alignment := nst (ndiv (nmul (fmul (nz 4) e) (nsin zeta)) denominator) in
  (c_expansion, c_alignment).

(** _modis_interpolator.pyx:41-70. Two input views, two output views. *)
Definition compute_expansion_alignment (satz : buf T) (va vb : vw) (scan_width : Z) (vo : vw) (st : buf T * buf T) : res (buf T * buf T) :=
  for_range (vrows va) (fun i st =>
    for_range (vcols va) (fun j st =>
      let '(be, ba) := st in
      let* a := rd satz va i j in
      let* b := rd satz vb i j in
      let* be := wr be vo i j (fst (exp_ali scan_width a b)) in
      let* ba := wr ba vo i j (snd (exp_ali scan_width a b)) in
      Ok (be, ba)) st) st.

(** a read-only two-dimensional input (a view of a buffer or of one component of an xyz buffer) *)
Record input := { irows : Z; icols : Z; ird : Z -> Z -> res T }.
Definition view_input (b : buf T) (v : vw) : input := {| irows := vrows v; icols := vcols v; ird := rd b v |}.
Definition comp (k : Z) (p : T * T * T) : T :=
  let '(x, y, z) := p in if k =? 0 then x else if k =? 1 then y else z.
Definition set_comp (k : Z) (p : T * T * T) (v : T) : T * T * T :=
  let '(x, y, z) := p in if k =? 0 then (v, y, z) else if k =? 1 then (x, v, z) else (x, y, v).
Definition comp_input (b : buf (T * T * T)) (v : vw) (k : Z) : input :=
  {| irows := vrows v; icols := vcols v; ird := fun i j => let* p := rd b v i j in Ok (comp k p) |}.

(** _modis_interpolator.pyx:487-500 (1km_with_repeat) and 581-593 (5km_with_repeat) *)
Definition with_repeat (length width : Z) (v : T) (vo : vw) (row_offset col_offset : Z) (b : buf T) : res (buf T) :=
  for_range length (fun l b =>
    for_range width (fun w b => wr b vo (row_offset + l) (col_offset + w) v) b) b.

Section Cfg.
Context (c : cfg).
Notation f := (ff c).

(** _modis_interpolator.pyx:414-438 *)
Definition expand_1km_main (inp : input) (vo : vw) (b : buf T) : res (buf T) :=
  let half := f / 2 in
  let* b := for_range (irows inp) (fun row_idx b =>
    let row_offset := row_idx * f + half in
    for_range (icols inp) (fun col_idx b =>
      let col_offset := col_idx * f in
      let* v := ird inp row_idx col_idx in
      with_repeat f f v vo row_offset col_offset b) b) b in
  let row_idx := 0 in
  let row_offset := row_idx * f in
  let* b := for_range (icols inp) (fun col_idx b =>
    let col_offset := col_idx * f in
    let* v := ird inp row_idx col_idx in
    with_repeat f f v vo row_offset col_offset b) b in
  let row_idx := irows inp - 1 in
  let row_offset := row_idx * f + f in
  for_range (icols inp) (fun col_idx b =>
    let col_offset := col_idx * f in
    let* v := ird inp row_idx col_idx in
    with_repeat f f v vo row_offset col_offset b) b.

(** _modis_interpolator.pyx:440-485 *)
Definition expand_1km_right_column (inp : input) (vo : vw) (b : buf T) : res (buf T) :=
  let half := f / 2 in
  let col_idx := icols inp - 1 in
  let col_offset := col_idx * f + f in
  let* b := for_range (irows inp) (fun row_idx b =>
    let row_offset := row_idx * f + half in
    let* v := ird inp row_idx col_idx in
    with_repeat f f v vo row_offset col_offset b) b in
  (* top row *)
  let* v := ird inp 0 col_idx in
  let* b := with_repeat f f v vo (0 * f) col_offset b in
  (* bottom row *)
  let row_idx := irows inp - 1 in
  let* v := ird inp row_idx col_idx in
  with_repeat f f v vo (row_idx * f + f) col_offset b.

(** _modis_interpolator.pyx:410-412 *)
Definition expand_1km (inp : input) (vo : vw) (b : buf T) : res (buf T) :=
  let* b := expand_1km_main inp vo b in
  expand_1km_right_column inp vo b.

(** _modis_interpolator.pyx:509-522 *)
Definition expand_5km_main (inp : input) (vo : vw) (b : buf T) : res (buf T) :=
  for_range (irows inp) (fun row_idx b =>
    let row_offset := row_idx * f * 2 in
    for_range (icols inp) (fun col_idx b =>
      let col_offset := col_idx * f + fac c in
      let* v := ird inp row_idx col_idx in
      with_repeat (f * 2) f v vo row_offset col_offset b) b) b.

(** _modis_interpolator.pyx:562-579 *)
Definition expand_5km_edges (inp : input) (vo : vw) (coarse_col_idx fine_col_idx : Z) (b : buf T) : res (buf T) :=
  for_range (irows inp) (fun row_idx b =>
    let row_offset := row_idx * f * 2 in
    let* v := ird inp row_idx coarse_col_idx in
    with_repeat (f * 2) (fac c) v vo row_offset fine_col_idx b) b.

(** _modis_interpolator.pyx:524-542 *)
Definition expand_5km_270 (inp : input) (vo : vw) (b : buf T) : res (buf T) :=
  let col_idx := icols inp - 1 in
  let col_offset := col_idx * f + f + fac c in
  for_range (irows inp) (fun row_idx b =>
    let row_offset := row_idx * f * 2 in
    let* v := ird inp row_idx col_idx in
    with_repeat (f * 2) f v vo row_offset col_offset b) b.

(** _modis_interpolator.pyx:502-507, 544-560 *)
Definition expand_5km (inp : input) (vo : vw) (b : buf T) : res (buf T) :=
  let* b := expand_5km_main inp vo b in
  let* b := expand_5km_edges inp vo 0 0 b in
  let* b := if scw c =? 270 then expand_5km_270 inp vo b else Ok b in
  expand_5km_edges inp vo (icols inp - 1) (vcols vo - fac c) b.

(** _modis_interpolator.pyx:400-408 *)
Definition expand (inp : input) (vo : vw) (b : buf T) : res (buf T) :=
  if scl c =? 10 then expand_1km inp vo b else expand_5km inp vo b.

Definition half : T := ndiv (nz 1) (nz 2).

(** _modis_interpolator.pyx:210-229 *)
Definition get_coords_1km (st : buf T * buf T) : res (buf T * buf T) :=
  let '(x, y) := st in
  let half_scan_length := f / 2 in
  let fine_pixels_per_scan := scl c * f in
  let* y := for_range fine_pixels_per_scan (fun fine_idx y =>
    if fine_idx <? half_scan_length
    then wro y fine_idx (nst (nsub (nadd half (nz fine_idx)) (nz half_scan_length)))
    else if fine_pixels_per_scan - half_scan_length <=? fine_idx
    then wro y fine_idx (nst (nadd (nadd (nz f) half) (nz (half_scan_length - (fine_pixels_per_scan - fine_idx)))))
    else wro y fine_idx (nst (nadd (nz ((fine_idx + half_scan_length) mod f)) half))) y in
  let* x := for_range f (fun i x => wro x (fsw c - f + i) (nst (nz (f + i)))) x in
  Ok (x, y).

(** _modis_interpolator.pyx:231-249; negative indices count from the end *)
Definition get_coords_5km : res (buf T * buf T) :=
  let y := {| bsize := f * scl c; bat := fun j => nst (nz (j - 2)) |} in
  let x := {| bsize := fsw c; bat := fun i => nst (nz ((i - 2) mod f)) |} in
  let* x := wro x 0 (nst (nz (-2))) in
  let* x := wro x 1 (nst (nz (-1))) in
  let* x :=
    if scw c =? 271 then
      let* x := wro x (fsw c - 2) (nst (nz 5)) in
      wro x (fsw c - 1) (nst (nz 6))
    else
      for_range 7 (fun i x => wro x (fsw c - 7 + i) (nst (nz (5 + i)))) x in
  Ok (x, y).

(** _modis_interpolator.pyx:196-208 *)
Definition get_coords (g : garbage T) : res (buf T * buf T) :=
  if scl c =? 10
  then get_coords_1km ({| bsize := fsw c; bat := fun i => nst (nz (i mod f)) |}, {| bsize := scl c * f; bat := g_y g |})
  else get_coords_5km.

(** _modis_interpolator.pyx:344 *)
Definition a_scan_value (s_s s_t c_exp c_ali : T) : T :=
  fadd (fadd s_s (fmul (fmul s_s (fsub (nz 1) s_s)) c_exp)) (fmul (fmul s_t (fsub (nz 1) s_t)) c_ali).

(** _modis_interpolator.pyx:328-344 *)
Definition calculate_atrack_ascan (x y : buf T) (c_exp_full c_ali_full : buf T) (vo : vw) (st : buf T * buf T) : res (buf T * buf T) :=
  for_range (bsize y) (fun j st =>
    for_range (bsize x) (fun i st =>
      let '(a_track, a_scan) := st in
      let* xi := rdo x i in
      let* yj := rdo y j in
      let s_s := fdiv xi (nz f) in
      let s_t := fdiv yj (nz f) in
      let* a_track := wr a_track vo j i s_t in
      let* ce := rd c_exp_full vo j i in
      let* ca := rd c_ali_full vo j i in
      let* a_scan := wr a_scan vo j i (a_scan_value s_s s_t ce ca) in
      Ok (a_track, a_scan)) st) st.

(** the work arrays that live through the loop over scans *)
Record work := { w_at : buf T; w_as : buf T; w_a : buf T; w_b : buf T; w_c : buf T; w_d : buf T;
                 w_cxyz : buf (T * T * T); w_fxyz : buf (T * T * T); w_lons : buf T; w_lats : buf T }.

(** full view of the fine work arrays *)
Definition fine_vw : vw := full (scl c * f) (fsw c).
Definition coarse_vw : vw := full (scl c) (scw c).

(** _modis_interpolator.pyx:295-326 (with the slices of 282-283) *)
Definition get_atrack_ascan (x y satz : buf T) (vsatz : vw) (w : work) : res work :=
  let vslice := slice fine_vw 0 (scl c - 1) 0 (scw c - 1) in
  let va := slice vsatz 0 (vrows vsatz - 1) 0 (vcols vsatz - 1) in
  let vb := slice vsatz 0 (vrows vsatz - 1) 1 (vcols vsatz) in
  let* (ta, tb) := compute_expansion_alignment satz va vb (cpp c) vslice (w_a w, w_b w) in
  let* tc := expand (view_input ta vslice) fine_vw (w_c w) in
  let* td := expand (view_input tb vslice) fine_vw (w_d w) in
  let* (at_, as_) := calculate_atrack_ascan x y tc td fine_vw (w_at w, w_as w) in
  Ok {| w_at := at_; w_as := as_; w_a := ta; w_b := tb; w_c := tc; w_d := td;
        w_cxyz := w_cxyz w; w_fxyz := w_fxyz w; w_lons := w_lons w; w_lats := w_lats w |}.

(** _modis_utils.pyx:26-40 *)
Definition lonlat2xyz_v (lons : buf T) (vlons : vw) (lats : buf T) (vlats : vw) (vo : vw) (b : buf (T * T * T)) : res (buf (T * T * T)) :=
  for_range (vrows vlons) (fun i b =>
    for_range (vcols vlons) (fun j b =>
      let* lon := rd lons vlons i j in
      let* lat := rd lats vlats i j in
      wr b vo i j (cy_lonlat2xyz lon lat)) b) b.

(** _modis_utils.pyx:43-65 *)
Definition xyz2lonlat_v (xyz : buf (T * T * T)) (vxyz vo : vw) (st : buf T * buf T) : res (buf T * buf T) :=
  for_range (vrows vxyz) (fun i st =>
    for_range (vcols vxyz) (fun j st =>
      let '(lons, lats) := st in
      let* p := rd xyz vxyz i j in
      let ll := cy_xyz2lonlat true (nst (ndiv (nz 8) (nz 10))) p in
      let* lons := wr lons vo i j (fst ll) in
      let* lats := wr lats vo i j (snd ll) in
      Ok (lons, lats)) st) st.

(** _modis_interpolator.pyx:394-398: a = upper left, b = upper right, c = lower right, d = lower left *)
Definition fine_value (atrack1 ascan1 a b c d : T) : T :=
  let scan1_tmp := fadd (fmul (fsub (nz 1) ascan1) a) (fmul ascan1 b) in
  let scan2_tmp := fadd (fmul (fsub (nz 1) ascan1) d) (fmul ascan1 c) in
  fadd (fmul (fsub (nz 1) atrack1) scan1_tmp) (fmul atrack1 scan2_tmp).

(** _modis_interpolator.pyx:379-398 *)
Definition compute_fine_xyz_component (k : Z) (at_ as_ ta tb tc td : buf T) (b : buf (T * T * T)) : res (buf (T * T * T)) :=
  for_range (vrows fine_vw) (fun i b =>
    for_range (vcols fine_vw) (fun j b =>
      let* atrack1 := rd at_ fine_vw i j in
      let* ascan1 := rd as_ fine_vw i j in
      let* da := rd ta fine_vw i j in
      let* db := rd tb fine_vw i j in
      let* dd := rd td fine_vw i j in
      let* dc := rd tc fine_vw i j in
      let* old := rd b fine_vw i j in
      wr b fine_vw i j (set_comp k old (fine_value atrack1 ascan1 da db dc dd))) b) b.

(** _modis_interpolator.pyx:359-377, body of the loop over components *)
Definition fine_xyz_body (k : Z) (w : work) : res work :=
  let v := coarse_vw in
  let rows := vrows v in
  let cols := vcols v in
  let* ta := expand (comp_input (w_cxyz w) (slice v 0 (rows - 1) 0 (cols - 1)) k) fine_vw (w_a w) in
  let* tb := expand (comp_input (w_cxyz w) (slice v 0 (rows - 1) 1 cols) k) fine_vw (w_b w) in
  let* tc := expand (comp_input (w_cxyz w) (slice v 1 rows 1 cols) k) fine_vw (w_c w) in
  let* td := expand (comp_input (w_cxyz w) (slice v 1 rows 0 (cols - 1)) k) fine_vw (w_d w) in
  let* fx := compute_fine_xyz_component k (w_at w) (w_as w) ta tb tc td (w_fxyz w) in
  Ok {| w_at := w_at w; w_as := w_as w; w_a := ta; w_b := tb; w_c := tc; w_d := td;
        w_cxyz := w_cxyz w; w_fxyz := fx; w_lons := w_lons w; w_lats := w_lats w |}.
(** _modis_interpolator.pyx:346-377 *)
Definition compute_fine_xyz (w : work) : res work := for_range 3 fine_xyz_body w.

(** _modis_interpolator.pyx:272-293, body of the loop over scans; [nrows] = rows of the result *)
Definition scan_body (nrows : Z) (lon lat satz : ndarray T) (x y : buf T) (scan_idx : Z) (w : work) : res work :=
  let r0 := scan_idx * scl c in
  let r1 := (scan_idx + 1) * scl c in
  let vlon := slice_rows (full (arows lon) (acols lon)) r0 r1 in
  let vlat := slice_rows (full (arows lat) (acols lat)) r0 r1 in
  let vsatz := slice_rows (full (arows satz) (acols satz)) r0 r1 in
  let vnew := slice_rows (full nrows (fsw c)) (scan_idx * scl c * f) ((scan_idx + 1) * scl c * f) in
  let* w := get_atrack_ascan x y (contiguous satz) vsatz w in
  let* cx := lonlat2xyz_v (contiguous lon) vlon (contiguous lat) vlat coarse_vw (w_cxyz w) in
  let* w := compute_fine_xyz {| w_at := w_at w; w_as := w_as w; w_a := w_a w; w_b := w_b w; w_c := w_c w; w_d := w_d w;
    w_cxyz := cx; w_fxyz := w_fxyz w; w_lons := w_lons w; w_lats := w_lats w |} in
  let* (lons, lats) := xyz2lonlat_v (w_fxyz w) fine_vw vnew (w_lons w, w_lats w) in
  Ok {| w_at := w_at w; w_as := w_as w; w_a := w_a w; w_b := w_b w; w_c := w_c w; w_d := w_d w;
        w_cxyz := w_cxyz w; w_fxyz := w_fxyz w; w_lons := lons; w_lats := lats |}.

(** np.empty arrays of interpolate(), _modis_interpolator.pyx:140-169 *)
Definition empty_work (g : garbage T) (nrows : Z) : work :=
  let n := scl c * f * fsw c in
  {| w_at := {| bsize := n; bat := g_atrack g |}; w_as := {| bsize := n; bat := g_ascan g |};
     w_a := {| bsize := n; bat := g_a g |}; w_b := {| bsize := n; bat := g_b g |};
     w_c := {| bsize := n; bat := g_c g |}; w_d := {| bsize := n; bat := g_d g |};
     w_cxyz := {| bsize := scl c * scw c; bat := g_cxyz g |}; w_fxyz := {| bsize := n; bat := g_fxyz g |};
     w_lons := {| bsize := nrows * fsw c; bat := g_lons g |}; w_lats := {| bsize := nrows * fsw c; bat := g_lats g |} |}.

(** _modis_interpolator.pyx:130-194. The coordinates are float32 arrays, which can not be assigned to buffers of
    double (148-149). *)
Definition interpolate_cfg (g : garbage T) (lon lat satz : ndarray T) : res (ndarray T * ndarray T) :=
  let nrows := arows satz * f in
  let* (x, y) := get_coords g in
  if dtype_eqb (adt lon) Float64 then Err ValueError
  else if scl c =? 0 then Err ZeroDivisionError
  else
    let scans := arows satz / scl c in
    let* w := for_range scans (scan_body nrows lon lat satz x y) (empty_work g nrows) in
    Ok (array_of (adt lon) nrows (fsw c) (w_lons w), array_of (adt lon) nrows (fsw c) (w_lats w)).

End Cfg.

(** _modis_interpolator.pyx:17-38, without its decorator; the three arrays must have the same floating type *)
Definition interpolate (g : garbage T) (lon lat satz : ndarray T) (coarse_resolution fine_resolution coarse_scan_width : Z)
    : res (ndarray T * ndarray T) :=
  if dtype_eqb (adt lon) OtherDtype then Err TypeError
  else if negb (dtype_eqb (adt lat) (adt lon) && dtype_eqb (adt satz) (adt lon)) then Err ValueError
  else if (coarse_resolution =? 5000) && negb (existsb (Z.eqb coarse_scan_width) [0; 270; 271]) then Err NotImplementedError
  else
    let* c := cinit coarse_resolution fine_resolution coarse_scan_width in
    interpolate_cfg c g lon lat satz.

(** modisinterpolator.py:20-62 for plain numpy arrays; [kind] selects one of the five functions *)
Inductive modis_fn := M1km_250m | M1km_500m | M5km_1km | M5km_500m | M5km_250m.
Definition coarse_of (k : modis_fn) : Z := match k with M1km_250m | M1km_500m => 1000 | _ => 5000 end.
Definition fine_of (k : modis_fn) : Z :=
  match k with M1km_250m | M5km_250m => 250 | M1km_500m | M5km_500m => 500 | M5km_1km => 1000 end.
Definition width_kwarg (k : modis_fn) (lon : ndarray T) : Z :=
  match k with M1km_250m | M1km_500m => 0 | _ => acols lon end.
Definition modis (k : modis_fn) (g : garbage T) (lon lat satz : ndarray T) : res (ndarray T * ndarray T) :=
  interpolate g lon lat satz (coarse_of k) (fine_of k) (width_kwarg k lon).

End Modis.
