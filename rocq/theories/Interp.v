(** Model of geotiepoints/interpolator.py: _linear_extrapolate and class Interpolator. *)
From Coq Require Import ZArith List Bool.
From Verif Require Import Base Num Splits.
Import ListNotations.
Open Scope Z_scope.
Open Scope res_scope.

Section Interp.
Context {T : Type} {N : NumOps T}.

Local Notation row := (list T).
Local Notation mat := (list (list T)).

Fixpoint map2 {A B C} (f : A -> B -> C) (l1 : list A) (l2 : list B) : list C :=
  match l1, l2 with a :: l1', b :: l2' => f a b :: map2 f l1' l2' | _, _ => [] end.

(** interpolator.py:51, one element *)
Definition lin_at (p0 p1 xev d0 d1 : T) : T :=
  (d1 + (((xev - p1) / (nz 1 * (p0 - p1))) * (d0 - d1)))%num.

(** interpolator.py:32-51 *)
Definition linear_extrapolate (pos : list T) (data : list row) (xev : T) : res row :=
  match pos, data with
  | [p0; p1], [d0; d1] => Ok (map2 (lin_at p0 p1 xev) d0 d1)
  | _, _ => Err ValueError
  end.

(** interpolator.py:70-83 *)
Record istate := mkI {
  row_indices : list T;
  col_indices : list T;
  hrow_indices : list T;
  hcol_indices : list T;
  chunk_size : Z;
  tie_data : list mat;
  kx_ : Z;
  ky_ : Z;
  new_data : list mat
}.

(** numpy [a[:2]], [a[-2:]], [data[:, j]], [data[:, -j]] *)
Definition first2 {A} (l : list A) : list A := firstn 2 l.
Definition last2 {A} (l : list A) : list A := skipn (length l - 2) l.
Definition get_col (data : mat) (j : Z) : res row := mapM (fun r => nth_res r j) data.
Definition get_col_end (data : mat) (j : Z) : res row :=
  mapM (fun r => nth_res r (Z.of_nat (length r) - j)) data.
Definition last_res {A} (l : list A) : res A := nth_res l (Z.of_nat (length l) - 1).

(** interpolator.py:99-123 *)
Definition extrapolate_cols (st : istate) (data : mat) (first last : bool) : res mat :=
  let* first_column :=
    (if first then
       let pos := first2 (col_indices st) in
       let* c0 := get_col data 0 in
       let* c1 := get_col data 1 in
       let* h := nth_res (hcol_indices st) 0 in
       linear_extrapolate pos [c0; c1] h
     else Ok []) in
  let* last_column :=
    (if last then
       let pos := last2 (col_indices st) in
       let* c0 := get_col_end data 2 in
       let* c1 := get_col_end data 1 in
       let* h := last_res (hcol_indices st) in
       linear_extrapolate pos [c0; c1] h
     else Ok []) in
  let data := if first then map2 (fun f r => f :: r) first_column data else data in
  let data := if last then map2 (fun r l => r ++ [l]) data last_column else data in
  Ok data.

(** interpolator.py:125-145 *)
Definition fill_col_borders (st : istate) : res istate :=
  let* c0 := nth_res (col_indices st) 0 in
  let* h0 := nth_res (hcol_indices st) 0 in
  let* c1 := last_res (col_indices st) in
  let* h1 := last_res (hcol_indices st) in
  let first := negb (neqb c0 h0) in
  let last := negb (neqb c1 h1) in
  let* td := mapM (fun data => extrapolate_cols st data first last) (tie_data st) in
  let ci := col_indices st in
  let ci := if first then h0 :: ci else ci in
  let ci := if last then ci ++ [h1] else ci in
  Ok (mkI (row_indices st) ci (hrow_indices st) (hcol_indices st) (chunk_size st) td
          (kx_ st) (ky_ st) (new_data st)).

(** interpolator.py:147-159. [data] has at least two rows here; when exactly one tie row was
    selected, numpy's squeeze has made [row_indices] 0-dimensional and [row_indices[:2]] raises IndexError. *)
Definition extrapolate_rows (data : mat) (rowidx : list T) (first_index last_index : T) : res mat :=
  match data with
  | [_] => Err IndexError
  | _ =>
    let* d0 := nth_res data 0 in
    let* d1 := nth_res data 1 in
    let* first_row := linear_extrapolate (first2 rowidx) [d0; d1] first_index in
    let* e0 := nth_res data (Z.of_nat (length data) - 2) in
    let* e1 := nth_res data (Z.of_nat (length data) - 1) in
    let* last_row := linear_extrapolate (last2 rowidx) [e0; e1] last_index in
    Ok (first_row :: data ++ [last_row])
  end.

(** interpolator.py:173-176: positions (numbers) of the tie rows in the window *)
Definition window (rowidx : list T) (lo hi : T) : list nat :=
  filter (fun i => let r := nth i rowidx (nz 0) in nleb lo r && nltb r hi) (seq 0 (length rowidx)).

(** interpolator.py:172-190, one chunk: the extrapolated block of every data array
    (empty if no tie row is in the chunk: nothing is appended) and the row positions *)
Definition fill_chunk (st : istate) (chunk : Z) (factor : T) (index : Z) : res (list mat * list T) :=
  let sel := window (row_indices st) (nz index / factor)%num (nz (index + chunk) / factor)%num in
  let tiepos := map (fun i => nth i (row_indices st) (nz 0)) sel in
  let* blocks := mapM (fun data =>
      let* to_extrapolate := mapM (fun i => nth_res data (Z.of_nat i)) sel in
      match sel with
      | [] => Ok []
      | _ =>
        let* h0 := nth_res (hrow_indices st) index in
        let* h1 := nth_res (hrow_indices st) (index + chunk - 1) in
        extrapolate_rows to_extrapolate tiepos h0 h1
      end) (tie_data st) in
  let* h0 := nth_res (hrow_indices st) index in
  let* h1 := nth_res (hrow_indices st) (index + chunk - 1) in
  Ok (blocks, h0 :: tiepos ++ [h1]).

(** numpy vstack(tmp_data[num]): nothing appended -> ValueError *)
Definition vstack_blocks (blocks : list mat) : res mat :=
  match concat blocks with [] => Err ValueError | l => Ok l end.

(** interpolator.py:161-194 *)
Definition fill_row_borders (st : istate) : res istate :=
  let lines := Z.of_nat (length (hrow_indices st)) in
  let chunk := if chunk_size st =? 0 then lines else chunk_size st in
  let* factor := (match row_indices st with
                  | [] => Err ZeroDivisionError
                  | _ => Ok (nz lines / nz (Z.of_nat (length (row_indices st))))%num
                  end) in
  let* idx := py_range 0 lines chunk in
  let* chunks := mapM (fill_chunk st chunk factor) idx in
  let* td := mapM (fun num => vstack_blocks (map (fun cb => nth num (fst cb) []) chunks))
                  (seq 0 (length (tie_data st))) in
  let ri := concat (map snd chunks) in
  Ok (mkI ri (col_indices st) (hrow_indices st) (hcol_indices st) (chunk_size st) td
          (kx_ st) (ky_ st) (new_data st)).

(** interpolator.py:85-97. Dimension names: what the caller passes. The result is the outcome
    together with the state afterwards (an exception leaves the effects made so far). *)
Inductive dim := DimY | DimX | DimOther.

Fixpoint resolve (args : list dim) : res (list dim) :=
  match args with
  | [] => Ok []
  | DimOther :: _ => Err NameError
  | d :: args' => let* l := resolve args' in Ok (d :: l)
  end.

Definition run_dim (d : dim) (st : istate) : res istate :=
  match d with DimY => fill_row_borders st | DimX => fill_col_borders st | DimOther => Err NameError end.

(** interpolator.py:133-134: the arrays after a failure of one of them (the ones before it have been assigned) *)
Fixpoint cols_until_error (st : istate) (first last : bool) (l : list mat) : list mat :=
  match l with
  | [] => []
  | data :: l' => match extrapolate_cols st data first last with Ok d => d :: cols_until_error st first last l' | Err _ => l end
  end.
(** the state when a filling raises; the rows are only assigned when nothing can fail any more *)
Definition failed_dim (d : dim) (st : istate) : istate :=
  match d, nth_res (col_indices st) 0, nth_res (hcol_indices st) 0, last_res (col_indices st), last_res (hcol_indices st) with
  | DimX, Ok c0, Ok h0, Ok c1, Ok h1 =>
      mkI (row_indices st) (col_indices st) (hrow_indices st) (hcol_indices st) (chunk_size st)
          (cols_until_error st (negb (neqb c0 h0)) (negb (neqb c1 h1)) (tie_data st)) (kx_ st) (ky_ st) (new_data st)
  | _, _, _, _, _ => st
  end.

Fixpoint run_dims (l : list dim) (st : istate) : res unit * istate :=
  match l with
  | [] => (Ok tt, st)
  | d :: l' => match run_dim d st with
               | Ok st' => run_dims l' st'
               | Err e => (Err e, failed_dim d st)
               end
  end.

Definition fill_borders (args : list dim) (st : istate) : res unit * istate :=
  match resolve args with
  | Err e => (Err e, st)
  | Ok to_run => run_dims to_run st
  end.

(** ** Splines *)

(** FITPACK, degree 1: on [k0, k1] *)
Definition seg (k0 v0 k1 v1 x : T) : T :=
  (v0 * ((k1 - x) / (k1 - k0)) + v1 * ((x - k0) / (k1 - k0)))%num.

(** the interval k_l <= x < k_{l+1}; the last one is closed *)
Fixpoint pl_find (ks vs : list T) (x : T) : T :=
  match ks, vs with
  | k0 :: ((k1 :: ks') as kt), v0 :: ((v1 :: _) as vt) =>
      match ks' with
      | [] => seg k0 v0 k1 v1 x
      | _ => if nltb x k1 then seg k0 v0 k1 v1 x else pl_find kt vt x
      end
  | _, _ => nz 0
  end.

(** bispev moves the argument into the interval of the data *)
Definition clamp (lo hi x : T) : T := if nltb x lo then lo else if nltb hi x then hi else x.
Definition pl_eval (ks vs : list T) (x : T) : T :=
  pl_find ks vs (clamp (hd (nz 0) ks) (last ks (nz 0)) x).

Fixpoint strict_inc (l : list T) : bool :=
  match l with
  | a :: ((b :: _) as l') => nltb a b && strict_inc l'
  | _ => true
  end.
Fixpoint weak_inc (l : list T) : bool :=
  match l with
  | a :: ((b :: _) as l') => nleb a b && weak_inc l'
  | _ => true
  end.

(** Spline evaluators that are not modelled: [spl1 xs ys k x] = splev(x, splrep(xs, ys, k=k, s=0)),
    [spl2 xs ys k x] = one axis of the tensor-product spline of degree k > 1 *)
Variable spl1 spl2 : list T -> list T -> Z -> T -> T.

Definition axis_spline (ks vs : list T) (k : Z) (x : T) : T :=
  if k =? 1 then pl_eval ks vs x else spl2 ks vs k x.

(** scipy RectBivariateSpline(x, y, z, s=0, kx=kx, ky=ky)(hx, hy, grid=True). The failures of f2py's checks of the
    degrees and the numbers of points (dfitpack.error) are not distinguished from ValueError. *)
Definition rect_bivariate (xs ys : list T) (z : mat) (kx ky : Z) (hx hy : list T) : res mat :=
  if negb (strict_inc xs) then Err ValueError
  else if negb (strict_inc ys) then Err ValueError
  else if negb (Nat.eqb (length xs) (length z)) then Err ValueError
  else if negb (forallb (fun r => Nat.eqb (length ys) (length r)) z) then Err ValueError
  else if negb ((1 <=? kx) && (kx <=? 5) && (1 <=? ky) && (ky <=? 5)) then Err ValueError
  else if negb ((kx <? Z.of_nat (length xs)) && (ky <? Z.of_nat (length ys))) then Err ValueError
  else if negb (weak_inc hx && weak_inc hy) then Err ValueError
  else Ok (map (fun x => map (fun y => axis_spline xs (map (fun r => axis_spline ys r ky y) z) kx x) hy) hx).

(** numpy array_equal on vectors *)
Fixpoint array_equal (l1 l2 : list T) : bool :=
  match l1, l2 with
  | [], [] => true
  | a :: l1', b :: l2' => neqb a b && array_equal l1' l2'
  | _, _ => false
  end.

(** interpolator.py:211-223, one data array. The values are stored with the dtype of the tie data: data are float64 here
    (float32 data would be rounded, integers truncated). *)
Definition interp1d_one (st : istate) (data : mat) : res mat :=
  mapM (fun cnt =>
    let* r := nth_res data cnt in
    if negb (Nat.eqb (length (col_indices st)) (length r)) then Err TypeError
    else if negb ((1 <=? ky_ st) && (ky_ st <=? 5) && (ky_ st <? Z.of_nat (length (col_indices st)))) then Err TypeError
    else if negb (weak_inc (col_indices st)) then Err ValueError
    else Ok (map (spl1 (col_indices st) r (ky_ st)) (hcol_indices st)))
  (range0 (Z.of_nat (length (hrow_indices st)))).

(** interpolator.py:201-209, one data array *)
Definition interp2d_one (st : istate) (data : mat) : res mat :=
  rect_bivariate (row_indices st) (col_indices st) data (kx_ st) (ky_ st) (hrow_indices st) (hcol_indices st).

Definition interp_one (st : istate) (data : mat) : res mat :=
  if array_equal (hrow_indices st) (row_indices st) then interp1d_one st data else interp2d_one st data.

(** [for num, data in enumerate(tie_data): new_data[num] = ...]; an exception keeps what was assigned *)
Fixpoint interp_loop (st : istate) (data : list mat) (nd : list mat) : res unit * list mat :=
  match data with
  | [] => (Ok tt, nd)
  | d :: data' => match interp_one st d with
                  | Err e => (Err e, nd)
                  | Ok r => let '(o, nd') := interp_loop st data' (tl nd) in (o, r :: nd')
                  end
  end.

Definition set_new_data (st : istate) nd :=
  mkI (row_indices st) (col_indices st) (hrow_indices st) (hcol_indices st) (chunk_size st) (tie_data st)
      (kx_ st) (ky_ st) nd.

(** interpolator.py:225-229: outcome and state afterwards *)
Definition interpolate (st : istate) : res (list mat) * istate :=
  let '(o, nd) := interp_loop st (tie_data st) (new_data st) in
  let st' := set_new_data st nd in
  (match o with Ok _ => Ok (new_data st') | Err e => Err e end, st').

(** interpolator.py:70-83 *)
Definition make (data : list mat) (tiepoint_grid final_grid : list T * list T) (kx ky chunk : Z) : istate :=
  mkI (fst tiepoint_grid) (snd tiepoint_grid) (fst final_grid) (snd final_grid) chunk data kx ky
      (map (fun _ => []) data).

End Interp.
Arguments istate : clear implicits.
Notation mat T := (list (list T)) (only parsing).
