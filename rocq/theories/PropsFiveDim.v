(** C159: the routine for five dimensions, which multilinear_interpolation never calls (C32). *)
From Coq Require Import ZArith List Bool Lia Reals Lra.
From Verif Require Import Base Num Multilinear MultilinearProofs PropsMultilinear.
Import ListNotations.
#[local] Existing Instance RT.
Open Scope R_scope.

Lemma five_spec smin smax orders V s i p :
  length smin = 5%nat -> length smax = 5%nat -> length orders = 5%nat -> length s = 5%nat -> Forall2 (fun r x => rd1 r i = Ok x) s p ->
  ml_5d smin smax orders V s i = ml (dims_of smin smax (map cint orders) p) V 0.
Proof.
  intros H1 H2 H3 H4 H5.
  repeat (match goal with H : length ?l = _ |- _ => is_var l; destruct l as [|? l]; cbn [length] in H; try discriminate H; try apply Nat.succ_inj in H end).
  repeat match goal with H : Forall2 _ (_ :: _) _ |- _ => inversion H; clear H; subst end.
  match goal with H : Forall2 _ [] _ |- _ => inversion H; clear H; subst end. cbn [map]. now apply ml_5d_spec.
Qed.

(** functions that are affine in each variable are reproduced, inside and outside of the grid *)
Theorem C159_multi_affine : forall smin smax ns f s n i, length ns = 5%nat -> grid_ok smin smax ns -> points_ok 5 n s -> (i < n)%nat -> multi_affine f ->
  ml_5d smin smax (map Z.of_nat ns) (map f (grid_points smin smax ns)) s (Z.of_nat i) = Ok (f (column s i)).
Proof.
  intros smin smax ns f s n i L (G1 & G2 & G3 & G4 & G5) [P1 P2] Hi Hf.
  rewrite (five_spec _ _ _ _ _ _ (column s i)) by (rewrite ?map_length; try congruence; apply (column_reads n); auto).
  assert (E : map cint (map Z.of_nat ns) = map Z.of_nat ns).
  { pose proof (F_I ns G3) as Ho. clear -Ho. induction Ho as [|o l H Ho IH]; cbn [map]; [reflexivity|]. now rewrite IH, cint_id. }
  rewrite E. apply (ml_affine smin smax ns); auto using F_2, F2_neq.
  - unfold column. rewrite map_length. congruence.
  - intros j Hj. cbn [Z.add]. rewrite (rdi_ok _ _ 0) by (rewrite ?map_length, ?grid_points_length; auto; lia).
    rewrite Nat2Z.id. rewrite (nth_map' _ _ _ []) by (now rewrite grid_points_length). reflexivity.
Qed.
Print Assumptions C159_multi_affine.

Lemma five_real smin smax ns V s n i : length ns = 5%nat -> grid_ok smin smax ns -> points_ok 5 n s -> (i < n)%nat ->
  ml_5d smin smax (map Z.of_nat ns) V s (Z.of_nat i) = ml (dims_of smin smax (map Z.of_nat ns) (column s i)) V 0.
Proof.
  intros L (G1 & G2 & G3 & G4 & G5) [P1 P2] Hi.
  rewrite (five_spec _ _ _ _ _ _ (column s i)) by (rewrite ?map_length; try congruence; apply (column_reads n); auto). do 2 f_equal.
  pose proof (F_I ns G3) as Ho. clear -Ho. induction Ho as [|o l H Ho IH]; cbn [map]; [reflexivity|]. now rewrite IH, cint_id.
Qed.
(** at a node, the value of the node *)
Theorem C159_nodes : forall smin smax ns V s n i ks, length ns = 5%nat -> grid_ok smin smax ns -> points_ok 5 n s -> (i < n)%nat -> length V = prodn ns ->
  Forall2 (fun k m => (k < m)%nat) ks ns -> column s i = nodes_of smin smax ns ks ->
  ml_5d smin smax (map Z.of_nat ns) V s (Z.of_nat i) = Ok (nth (flat ns ks) V 0).
Proof.
  intros smin smax ns V s n i ks L G P Hi LV K E. rewrite (five_real _ _ _ _ _ n) by assumption. destruct G as (G1 & G2 & G3 & G4 & G5).
  rewrite E, ml_node; auto using F2_neq; [|lia|lia|lia].
  assert (FL : (flat ns ks < prodn ns)%nat).
  { clear -K. induction K as [|k m ks ms Hkm K IH]; cbn [flat prodn fold_right]; [lia|]. fold (prodn ms). nia. }
  rewrite (rdi_ok _ _ 0) by lia. cbn [Z.add]. now rewrite Nat2Z.id.
Qed.
Print Assumptions C159_nodes.
(** at every point all reads are inside of the arrays; in the grid the result is between the least and the greatest value *)
Theorem C159_between : forall smin smax ns V s n i lo hi, length ns = 5%nat -> grid_ok smin smax ns -> points_ok 5 n s -> (i < n)%nat -> length V = prodn ns ->
  exists v, ml_5d smin smax (map Z.of_nat ns) V s (Z.of_nat i) = Ok v /\
    (inside smin smax (column s i) -> Forall (fun w => lo <= w <= hi) V -> lo <= v <= hi).
Proof.
  intros smin smax ns V s n i lo hi L G P Hi LV. rewrite (five_real _ _ _ _ _ n) by assumption. destruct G as (G1 & G2 & G3 & G4 & G5).
  assert (PZ : prodZ (map Z.of_nat ns) = Z.of_nat (prodn ns)).
  { clear. induction ns as [|m ns IH]; [reflexivity|]. cbn [map prodZ prodn fold_right]. fold (prodZ (map Z.of_nat ns)). fold (prodn ns). rewrite IH. lia. }
  destruct (ml_safe smin smax (map Z.of_nat ns) (column s i) V 0) as [v E]; rewrite ?map_length, ?PZ; auto using F_Z, F_2; try lia.
  { unfold column. rewrite map_length. destruct P. congruence. }
  exists v. split; [exact E|]. intros Hin HV. exact (ml_bounds smin smax ns (column s i) V 0 lo hi v G1 G2 G3 G4 Hin HV E).
Qed.
Print Assumptions C159_between.

(** two nodes in every dimension, a point inside, a function *)
Example C159_case : grid_ok [0; 0; 0; 0; 0] [1; 1; 1; 1; 1] [2; 2; 2; 2; 2]%nat /\ points_ok 5 1 [[1 / 2]; [0]; [1]; [1 / 3]; [1 / 4]] /\
  multi_affine (fun p => match p with [a; b; c; d; e] => a * b - 2 * c * d * e | _ => 0 end).
Proof.
  split; [|split].
  - repeat split; try reflexivity; repeat constructor; try lra; unfold int_max; cbn; lia.
  - split; [reflexivity|repeat constructor].
  - intros pre x post. destruct pre as [|p0 [|p1 [|p2 [|p3 [|p4 [|p5 pre]]]]]]; destruct post as [|q0 [|q1 [|q2 [|q3 [|q4 post]]]]]; cbn [app]; ring.
Qed.
