(** Concrete cases of the theorems about the MODIS interpolators: C42, C44 to C47, C49, C51, C54, C55, C57. *)
From Coq Require Import ZArith List Bool Lia Permutation Reals Lra.
From Verif Require Import Base Num Geo Mem Modis ModisProofs ModisOob SimpleModis SimpleModisProofs Mapblocks MapblocksProofs PropsModis PropsSimple PropsMapblocks.
Import ListNotations.
Open Scope Z_scope.

Section Any.
Context {T : Type} {N : NumOps T} (v : T).
Notation dlon := (const_dask Float32 [12; 8; 10] [1000; 354] v).
Notation dlat := (const_dask Float32 [30] [1354] v).
Notation dsatz := (const_dask Float32 [1; 29] [1354] v).
Lemma ex_dask3 : dask3 30 1354 (Arr (DA dlon)) (XArr (DA dlat)) (Arr (DA dsatz)) dlon dlat dsatz.
Proof. split; [|split]; (split; [auto|repeat split]). Qed.
Lemma ex_dask2 : dask2 Float32 30 1354 (Arr (DA dlon)) (XArr (DA dlat)) dlon dlat.
Proof. split; (split; [auto|repeat split]). Qed.
Lemma ex_first : first_holds 10 dlon. Proof. unfold first_holds; cbn; lia. Qed.

(** three blocks of 12, 8 and 10 rows, the tasks executed in reverse *)
Example C42_case : forall g g0 gs olon olat, modis M1km_500m g0 (as_plain dlon) (as_plain dlat) (as_plain dsatz) = Ok (olon, olat) ->
  exists l, modis_any M1km_500m g (Arr (DA dlon)) (XArr (DA dlat)) (Arr (DA dsatz)) = Ok (Lazy l false) /\
    exists olon' olat', computed gs (rev (seq 0 (length (z_tasks l)))) l = Ok (olon', olat') /\ same_array olon olon' /\ same_array olat olat'.
Proof.
  intros g g0 gs olon olat O.
  destruct (C42_modis M1km_500m g g0 30 1354 _ _ _ dlon dlat dsatz olon olat ltac:(reflexivity) ltac:(lia) eq_refl (or_intror ex_first) ex_dask3 O) as (l & E & H).
  exists l. split; [exact E|]. apply H. symmetry. apply Permutation_rev.
Qed.
Example C44_case : forall g, exists l, modis_any M1km_500m g (Arr (DA dlon)) (XArr (DA dlat)) (Arr (DA dsatz)) = Ok (Lazy l false) /\
  announced l /\ zsum (z_rows l) = 60 /\ z_cols l = 2708.
Proof.
  intros g. apply (C44_modis M1km_500m g 30 1354 _ _ _ dlon dlat dsatz ltac:(reflexivity) ltac:(lia) eq_refl (or_intror ex_first) ex_dask3).
Qed.
Example C44_simple_case : forall g, exists l, simple_any (fine_px To250m) g (Arr (DA dlon)) (XArr (DA dlat)) = Ok (Lazy l false) /\
  announced l /\ zsum (z_rows l) = 120 /\ z_cols l = 5416.
Proof.
  intros g. apply (C44_simple_partial To250m g Float32 30 _ _ dlon dlat ltac:(discriminate) ltac:(lia) eq_refl (or_intror ex_first) ex_dask2).
Qed.
(** no resolution given; a one-dimensional array after something that is no array *)
Example C45_case : forall (func : Z -> Z -> unit -> list (barg T) -> res (ndarray T * ndarray T)),
  wrapper func tt (Some 1000) None [Arr (DA dlon)] = Err ValueError /\ wrapper func tt (Some 1000) (Some 500) [NotArray; NotTwoD 1 true] = Err ValueError.
Proof.
  intros func. split; [apply (C45_keywords func); auto|]. apply (C45_dimensions func tt (Some 1000) (Some 500) [NotArray] 1 true []); [repeat constructor|discriminate].
Qed.
Example C46_case : forall g, exists l, modis_any M1km_500m g (XArr (DA dlon)) (XArr (DA dlat)) (Arr (DA dsatz)) = Ok (Lazy l true) /\
  modis_any M1km_500m g (Arr (DA dlon)) (XArr (DA dlat)) (Arr (DA dsatz)) = Ok (Lazy l false).
Proof.
  intros g. apply (C46_chunked_partial M1km_500m g 30 1354 _ _ _ dlon dlat dsatz ltac:(reflexivity) ltac:(lia) eq_refl (or_intror ex_first) ex_dask3).
Qed.

(** the second scan of three against the first of two, constant arrays *)
Notation arr n w := (const_array Float32 n w v).
Lemma ex_shaped dt n w : shaped dt n w (const_array dt n w v) (const_array dt n w v) (const_array dt n w v). Proof. repeat split. Qed.
Example C47_case : forall g g' olon olat olon' olat',
  modis M1km_250m g (arr 30 1354) (arr 30 1354) (arr 30 1354) = Ok (olon, olat) -> modis M1km_250m g' (arr 20 1354) (arr 20 1354) (arr 20 1354) = Ok (olon', olat') ->
  aat olon 45 100 = aat olon' 5 100 /\ aat olat 45 100 = aat olat' 5 100.
Proof.
  intros g g' olon olat olon' olat' O O'.
  apply (C47_scanwise M1km_250m g g' 30 20 1354 1 0 _ _ _ _ _ _ olon olat olon' olat' ltac:(reflexivity) (ex_shaped _ _ _) (ex_shaped _ _ _)
    ltac:(lia) ltac:(cbn; lia) ltac:(lia) ltac:(cbn; lia) (fun _ _ _ _ => eq_refl) (fun _ _ _ _ => eq_refl) (fun _ _ _ _ => eq_refl) O O' 5 100); cbn; lia.
Qed.
Example C49_case : forall g, modis M1km_500m g (arr 20 1355) (arr 20 1355) (arr 20 1355) = Err OutOfBounds.
Proof. intros g. apply (C49_wide M1km_500m g 20 1355); [reflexivity|lia|lia|apply ex_shaped]. Qed.
Example C54_case : forall g, modis M5km_1km g (arr 4 300) (arr 4 300) (arr 4 300) = Err NotImplementedError.
Proof. intros g. apply (C54_refused M5km_1km g Float32 4 300); [reflexivity|discriminate|apply ex_shaped|lia|cbn; lia]. Qed.
Example C55_case : forall g, let a := const_array Float64 20 1354 v in modis M1km_500m g a a a = Err ValueError.
Proof. intros g a. apply (C55_float64 M1km_500m g 20 1354); [reflexivity|apply ex_shaped]. Qed.
Example C57_case : forall g g' olon olat olon' olat',
  simple To500m g (arr 30 7) (arr 30 7) = Ok (olon, olat) -> simple To500m g' (arr 20 7) (arr 20 7) = Ok (olon', olat') ->
  aat olon 45 3 = aat olon' 5 3 /\ aat olat 45 3 = aat olat' 5 3.
Proof.
  intros g g' olon olat olon' olat' O O'.
  apply (C57_scanwise To500m g g' Float32 30 20 7 2 0 (arr 30 7) (arr 30 7) (arr 20 7) (arr 20 7) olon olat olon' olat' ltac:(discriminate) ltac:(lia) ltac:(repeat split) ltac:(repeat split)
    ltac:(lia) ltac:(lia) ltac:(lia) ltac:(lia) (fun _ _ _ _ => eq_refl) (fun _ _ _ _ => eq_refl) O O' 5 3); cbn; lia.
Qed.
End Any.
(** a column less than the standard width, and memory that happens to hold missing values *)
Example C49_narrow_case : forall g, (forall a, g_cxyz g a = (None, None, None)) -> exists olon olat,
  let a := const_array Float32 10 1353 (Some 1%R) in @modis _ RN M1km_500m g a a a = Ok (olon, olat) /\ aat olon 3 2707 = None /\ aat olat 3 2707 = None.
Proof.
  intros g G. destruct (C49_narrow M1km_500m g 10 1353 (const_array Float32 10 1353 (Some 1%R)) (const_array Float32 10 1353 (Some 1%R)) (const_array Float32 10 1353 (Some 1%R)))
    as (olon & olat & E & H); [cbn; lia|cbn; lia|repeat split|exact G|]. exists olon, olat. split; [exact E|]. apply (H 3). cbn. lia.
Qed.
(** the fine column 7 of 500 m pixels is in the coarse column 3 *)
Example C51_case : forall g, exists c col row x y, cinit (coarse_of M1km_500m) (fine_of M1km_500m) 0 = Ok c /\ @places _ RT c g col row x y /\
  (2 * IZR (col 7%Z) + bat x 7%Z = 7 /\ 2 * IZR (row 7%Z) + bat y 7%Z = 6.5)%R.
Proof.
  intros g. assert (EG : even_grid M1km_500m) by (right; left; reflexivity). destruct (C51_positions_partial M1km_500m 1354 g EG eq_refl) as (c & col & row & x & y & E & P & X & Y).
  exists c, col, row, x, y. split; [exact E|]. split; [exact P|]. destruct (X 7 ltac:(cbn; lia)) as [_ X7]. destruct (Y 7 ltac:(cbn; lia)) as [_ Y7].
  cbn [factor is_1km] in *. lra.
Qed.
