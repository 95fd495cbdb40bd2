(** Model of the grid and spline interpolators of geotiepoints/interpolator.py (lines 232-377)
    and of the geo interpolators built on them (geointerpolator.py:78-112), eager and chunked (dask).

    Simplifications: scipy's RegularGridInterpolator / RectBivariateSpline evaluate point by point
    ([ev]; [None] = ValueError, e.g. a point out of bounds); a refusal by a constructor is ValueError (dfitpack.error of
    RectBivariateSpline, too few points for the degree, is not distinguished); RectBivariateSpline also insists on sorted
    vectors, and its [grid=False] mode is not used; [tokenize] is a function of its arguments;
    [normalize_chunks] is given explicit chunks. *)
From Coq Require Import ZArith List Bool Arith.
From Verif Require Import Base Num Geo.
Import ListNotations.
Open Scope nat_scope.

(** * interpolator.py:303-312 _enumerate_chunk_slices *)

(** np.ndindex(shape), last index fastest *)
Fixpoint ndindex (shape : list nat) : list (list nat) :=
  match shape with
  | [] => [[]]
  | n :: shape' => flat_map (fun i => map (cons i) (ndindex shape')) (seq 0 n)
  end.

Definition sum_nat (l : list nat) : nat := fold_right Nat.add 0 l.

(** lines 320-323: slice(offset, offset + chunk_size) *)
Definition chunk_slice (pos : nat) (chunk : list nat) : nat * nat :=
  let chunk_size := nth pos chunk 0 in
  let offset := sum_nat (firstn pos chunk) in
  (offset, offset + chunk_size).

Fixpoint zip_slices (position : list nat) (chunks : list (list nat)) : list (nat * nat) :=
  match position, chunks with
  | pos :: position', chunk :: chunks' => chunk_slice pos chunk :: zip_slices position' chunks'
  | _, _ => []
  end.

Definition enumerate_chunk_slices (chunks : list (list nat)) : list (list nat * list (nat * nat)) :=
  map (fun position => (position, zip_slices position chunks)) (ndindex (map (@length nat) chunks)).

(** dask's normalize_chunks for explicit chunks *)
Definition normalize_chunks (chunks : list (list nat)) (shape : list nat) : res (list (list nat)) :=
  if (length chunks =? length shape)%nat && forallb (fun p => sum_nat (fst p) =? snd p)%nat (combine chunks shape)
  then Ok chunks else Err ValueError.

(** * The interpolators *)
Inductive kind := Grid | Spline.

Section Interpolators.
Context {T : Type} {N : NumOps T}.
(** types of tie points, tie values (with dtype), results, constructor and call keyword arguments *)
Context {P D V I K : Type}.
(** scipy: class, constructor kwargs, tie points, values, call kwargs, coordinates of one point *)
Variable ev : kind -> I -> P -> D -> K -> T -> T -> option V.
(** scipy: does the constructor accept its arguments *)
Variable valid : kind -> I -> P -> D -> bool.
(** dask.base.tokenize of (chunks, points, values, fine_points, interpolator_call_kwargs) *)
Variable tokenize : list (list nat) * P * D * (list T * list T) * K -> nat.

Record single := { s_kind : kind; s_init : I; s_points : P; s_values : D }.

(** interpolator.py:235-243, 318-320, 331-335 *)
Definition make_single (k : kind) (i : I) (p : P) (d : D) : res single :=
  if valid k i p d then Ok {| s_kind := k; s_init := i; s_points := p; s_values := d |} else Err ValueError.

Fixpoint sorted_le (l : list T) : bool :=
  match l with
  | a :: (b :: _) as l' => nleb a b && sorted_le l'
  | _ => true
  end.

(** all points of the grid spanned by two vectors *)
Definition eval_grid (f : T -> T -> option V) (v h : list T) : res (list (list V)) :=
  mapM (fun y => mapM (fun x => match f y x with Some a => Ok a | None => Err ValueError end) h) v.

(** interpolator.py:322-325 and 337-339 *)
Definition interpolate_numpy (s : single) (fine : list T * list T) (kw : K) : res (list (list V)) :=
  let '(v, h) := fine in
  let f := ev (s_kind s) (s_init s) (s_points s) (s_values s) kw in
  match s_kind s with
  | Grid => eval_grid f v h
  | Spline =>
      if (0 <? length v)%nat && (0 <? length h)%nat && negb (sorted_le v && sorted_le h)
      then Err ValueError else eval_grid f v h
  end.

(** np.arange(start, stop) *)
Definition arange (s : nat * nat) : list T := map nz (zrange (Z.of_nat (fst s)) (snd s - fst s)).

(** interpolator.py:290-300 *)
Definition interpolate_slices (s : single) (slices : list (nat * nat)) (kw : K) : res (list (list V)) :=
  match slices with
  | [slice_y; slice_x] => interpolate_numpy s (arange slice_y, arange slice_x) kw
  | _ => Err ValueError
  end.

(** a task of the graph: partial(self.interpolate_slices, ...) applied to slices *)
Record task := { t_self : single; t_kw : K; t_slices : list (nat * nat) }.
Definition run_task (t : task) : res (list (list V)) := interpolate_slices (t_self t) (t_slices t) (t_kw t).

(** a dask array: name, chunks and graph *)
Definition key := (nat * list nat)%type.
Record lazy := { l_name : nat; l_chunks : list (list nat); l_graph : list (key * task) }.

(** interpolator.py:261-283 *)
Definition interpolate_dask (s : single) (fine : list T * list T) (chunks : list (list nat)) (kw : K) : res lazy :=
  let shape := [length (fst fine); length (snd fine)] in
  let* chunks := normalize_chunks chunks shape in
  let name := tokenize (chunks, s_points s, s_values s, fine, kw) in
  Ok {| l_name := name; l_chunks := chunks;
        l_graph := map (fun ps => ((name, fst ps), {| t_self := s; t_kw := kw; t_slices := snd ps |}))
                       (enumerate_chunk_slices chunks) |}.

(** * dask: merging graphs, running the tasks in some order, assembling the blocks *)
Definition key_eqb (a b : key) : bool :=
  (fst a =? fst b)%nat && (if list_eq_dec Nat.eq_dec (snd a) (snd b) then true else false).

Definition assoc {A} (k : key) (l : list (key * A)) : option A :=
  match find (fun p => key_eqb (fst p) k) l with Some p => Some (snd p) | None => None end.

(** Python's {**g1, **g2} *)
Definition dict_update {A} (g1 g2 : list (key * A)) : list (key * A) :=
  filter (fun p => match assoc (fst p) g2 with Some _ => false | None => true end) g1 ++ g2.
Definition merge_graphs (ls : list lazy) : list (key * task) :=
  fold_left (fun g l => dict_update g (l_graph l)) ls [].

(** run the tasks in the given order; the first exception is raised *)
Definition run_tasks (order : list (key * task)) : res (list (key * list (list V))) :=
  mapM (fun kt => let* b := run_task (snd kt) in Ok (fst kt, b)) order.

Definition hcat (r : nat) (blocks : list (list (list V))) : list (list V) :=
  fold_left (fun acc b => map (fun p => fst p ++ snd p) (combine acc b)) blocks (repeat [] r).

Definition get_block (store : list (key * list (list V))) (k : key) : res (list (list V)) :=
  match assoc k store with Some b => Ok b | None => Err KeyError end.

(** two-dimensional assembly of the blocks of one array *)
Definition assemble (store : list (key * list (list V))) (l : lazy) : res (list (list V)) :=
  match l_chunks l with
  | [cy; cx] =>
      let* bands := mapM (fun i =>
         let* blocks := mapM (fun j => get_block store (l_name l, [i; j])) (seq 0 (length cx)) in
         Ok (hcat (nth i cy 0%nat) blocks)) (seq 0 (length cy)) in
      Ok (concat bands)
  | _ => Err ValueError
  end.

(** dask.compute on arrays; [order] is the order in which the tasks of the merged graph are executed *)
Definition compute (order : list (key * task)) (ls : list lazy) : res (list (list (list V))) :=
  let* store := run_tasks order in mapM (assemble store) ls.

(** * Several arrays: interpolator.py:342-377 *)
Definition make_multiple (k : kind) (i : I) (p : P) (data : list D) : res (list single) :=
  mapM (make_single k i p) data.
(** the generator, consumed from first to last; without / with chunks *)
Definition interpolate_multiple (ss : list single) (fine : list T * list T) (kw : K) : res (list (list (list V))) :=
  mapM (fun s => interpolate_numpy s fine kw) ss.
Definition interpolate_multiple_dask (ss : list single) (fine : list T * list T) (chunks : list (list nat)) (kw : K)
  : res (list lazy) :=
  mapM (fun s => interpolate_dask s fine chunks kw) ss.
(** interpolate_to_shape: interpolator.py:358-361 *)
Definition to_shape_points (rows cols : nat) : list T * list T := (arange (0, rows), arange (0, cols)).

(** * Geo interpolators: geointerpolator.py:78-93 *)
Variable conv : D -> D -> D * D * D.     (* lonlat2xyz on whole arrays *)
Variable back : V -> V -> V -> V * V.    (* xyz2lonlat on one element *)

Definition make_geo (k : kind) (i : I) (p : P) (data : list (geo_arg D)) : res (list single) :=
  let* xyz := to_xyz conv data in
  let '(x, y, z) := xyz in make_multiple k i p [x; y; z].

Definition zip3 (f : V -> V -> V -> V * V) (x y z : list (list V)) : list (list V) * list (list V) :=
  let m := map (fun r => map (fun e => f (fst (fst e)) (snd (fst e)) (snd e))
                         (combine (combine (fst (fst r)) (snd (fst r))) (snd r)))
               (combine (combine x y) z) in
  (map (map fst) m, map (map snd) m).

(** [x, y, z = super().interpolate(...)]: ValueError unless three arrays *)
Definition to_lonlat (xyz : list (list (list V))) : res (list (list V) * list (list V)) :=
  match xyz with [x; y; z] => Ok (zip3 back x y z) | _ => Err ValueError end.

Definition geo_interpolate (ss : list single) (fine : list T * list T) (kw : K) :=
  let* xyz := interpolate_multiple ss fine kw in to_lonlat xyz.
(** lazy x, y, z (xyz2lonlat is then applied block by block, element-wise), computed together *)
Definition geo_interpolate_computed (order : list (key * task)) (ls : list lazy) :=
  let* xyz := compute order ls in to_lonlat xyz.

End Interpolators.
Arguments single : clear implicits.
Arguments lazy : clear implicits.
Arguments task : clear implicits.
