(** Concrete cases of the theorems about chunked interpolation: C24, C25, C61. *)
From Coq Require Import ZArith List Bool Arith Lia Permutation QArith.
From Verif Require Import Spec Base Num Geo GeoProofs Chunks ChunksProofs PropsChunks.
Import ListNotations.
Open Scope nat_scope.
#[local] Existing Instance QT.

Lemma q_ordered : ints_ordered (T := Q).
Proof. intros a b H. cbn [nleb nz QT]. apply Qle_bool_iff. now rewrite <- Zle_Qle. Qed.

(** the points 1, 3 are computed as 0, 1, chunked or not *)
Example C24_case : forall l, interpolate_dask tok_ex (s_ex true) ([1; 3], [1; 3])%Q [[1; 1]; [2]] tt = Ok l ->
  compute rgi_ex (rev (l_graph l)) [l] = Ok [[[0; 2]; [4; 6]]]%Q.
Proof.
  intros l H. rewrite (C24_index_points_partial q_ordered rgi_ex tok_ex _ _ _ _ l _ H) by (symmetry; apply Permutation_rev).
  vm_compute. reflexivity.
Qed.
Example lazy_results : exists l1 l2, interpolate_dask tok_ex (s_ex true) (@to_shape_points Q QT 2 2) [[1; 1]; [2]] tt = Ok l1 /\
  interpolate_dask tok_ex (s_ex true) (@to_shape_points Q QT 3 1) [[3]; [1]] tt = Ok l2.
Proof. eexists. eexists. split; reflexivity. Qed.
(** two chunkings computed together *)
Example C25_case : forall l1 l2,
  interpolate_dask tok_ex (s_ex true) (@to_shape_points Q QT 2 2) [[1; 1]; [2]] tt = Ok l1 ->
  interpolate_dask tok_ex (s_ex true) (@to_shape_points Q QT 3 1) [[3]; [1]] tt = Ok l2 ->
  compute rgi_ex (merge_graphs [l1; l2]) [l1; l2] = Ok [[[0; 2]; [4; 6]]; [[0]; [4]; [8]]]%Q.
Proof.
  intros l1 l2 H1 H2.
  rewrite (C25_together_partial q_ordered rgi_ex tok_ex tokenize_exists Grid true
    [(s_ex true, @to_shape_points Q QT 2 2, [[1; 1]; [2]], tt); (s_ex true, @to_shape_points Q QT 3 1, [[3]; [1]], tt)] [l1; l2] _
    ltac:(constructor; [auto|constructor; [auto|constructor]]) (Permutation_refl _)).
  cbn [mapM]. rewrite (C24_index_points_partial q_ordered rgi_ex tok_ex _ _ _ _ l1 _ H1 (Permutation_refl _)).
  rewrite (C24_index_points_partial q_ordered rgi_ex tok_ex _ _ _ _ l2 _ H2 (Permutation_refl _)). vm_compute. reflexivity.
Qed.
(** longitudes and latitudes; positions are (lon, lat, 0) here *)
Example C61_case : forall ls ss, let conv (lon lat : list (list Q)) := (lon, lat, [[0; 0]; [0; 0]]%Q) in
  make_geo (fun _ _ _ _ => true) conv Grid true (4, 4)%Q [ArrayArg d_ex; ArrayArg [[1; 1]; [5; 5]]%Q] = Ok ss ->
  interpolate_multiple_dask tok_ex ss (@to_shape_points Q QT 2 3) [[1; 1]; [2; 1]] tt = Ok ls ->
  geo_interpolate_computed rgi_ex (fun x y _ => (x, y)) (rev (merge_graphs ls)) ls = Ok ([[0; 2; 4]; [4; 6; 8]], [[1; 1; 1]; [2; 2; 2]])%Q.
Proof.
  intros ls ss conv E L.
  rewrite (C61_geo_chunked q_ordered rgi_ex _ tok_ex tokenize_exists conv (fun x y _ => (x, y)) Grid true _ _ ss 2 3 _ tt ls _ E L) by (symmetry; apply Permutation_rev).
  injection E as <-. vm_compute. reflexivity.
Qed.
