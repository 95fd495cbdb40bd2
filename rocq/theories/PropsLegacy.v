(** C03, C10 - C13: the functions of geotiepoints/__init__.py. *)
From Coq Require Import ZArith List Lia Bool Reals Lra Permutation.
From Verif Require Import Spec Base Num Splits Interp Legacy LegacyProofs LegacyInst LegacyTie PropsInterp.
Import ListNotations.
#[local] Existing Instance RT.
Open Scope R_scope.

(** C03. [order] is the order in which the workers finish: any permutation of the tasks. *)
Theorem C03_modis500m_cores : forall spl1 spl2 n lons lats cores order,
  (1 <= cores)%Z -> shaped n 1354 lons -> shaped n 1354 lats ->
  (forall splits, get_scene_splits (Z.of_nat n) 10 cores = Ok splits -> Permutation order (seq 0 (S (length splits)))) ->
  modis1kmto500m spl1 spl2 lons lats cores order = modis1kmto500m spl1 spl2 lons lats 1 [].
Proof. exact modis500m_cores. Qed.
Print Assumptions C03_modis500m_cores.
Theorem C03_modis250m_cores : forall spl1 spl2 n lons lats cores order,
  (1 <= cores)%Z -> shaped n 1354 lons -> shaped n 1354 lats ->
  (forall splits, get_scene_splits (Z.of_nat n) 10 cores = Ok splits -> Permutation order (seq 0 (S (length splits)))) ->
  modis1kmto250m spl1 spl2 lons lats cores order = modis1kmto250m spl1 spl2 lons lats 1 [].
Proof. exact modis250m_cores. Qed.
Print Assumptions C03_modis250m_cores.
Example C03_nonvacuous : shaped 30 1354 (repeat (repeat 1 1354) 30) /\
  (forall splits, get_scene_splits (Z.of_nat 30) 10 2 = Ok splits -> Permutation [2; 0; 1]%nat (seq 0 (S (length splits)))).
Proof.
  split; [apply shaped_repeat|]. intros splits E. vm_compute in E. injection E as <-. cbn.
  apply perm_trans with [0; 2; 1]%nat; [apply perm_swap|]. apply perm_skip, perm_swap.
Qed.

(** C10: the result for a swath of scans is the concatenation of the results for the scans. *)
Theorem C10_modis5km_scanwise : forall spl1 spl2 (scans : list (mat R * mat R)),
  scans <> [] -> Forall (fun s => shaped 2 271 (fst s) /\ shaped 2 271 (snd s)) scans ->
  exists rs, Forall2 (fun s r => modis5kmto1km spl1 spl2 (fst s) (snd s) = Ok r) scans rs /\
    modis5kmto1km spl1 spl2 (concat (map fst scans)) (concat (map snd scans)) =
    Ok (concat (map fst rs), concat (map snd rs)).
Proof. exact modis5km_scanwise. Qed.
Print Assumptions C10_modis5km_scanwise.
Theorem C10_modis500m_scanwise : forall spl1 spl2 (scans : list (mat R * mat R)),
  scans <> [] -> Forall (fun s => shaped 10 1354 (fst s) /\ shaped 10 1354 (snd s)) scans ->
  exists rs, Forall2 (fun s r => modis1kmto500m spl1 spl2 (fst s) (snd s) 1 [] = Ok r) scans rs /\
    modis1kmto500m spl1 spl2 (concat (map fst scans)) (concat (map snd scans)) 1 [] =
    Ok (concat (map fst rs), concat (map snd rs)).
Proof. exact modis500m_scanwise. Qed.
Print Assumptions C10_modis500m_scanwise.
Theorem C10_modis250m_scanwise : forall spl1 spl2 (scans : list (mat R * mat R)),
  scans <> [] -> Forall (fun s => shaped 10 1354 (fst s) /\ shaped 10 1354 (snd s)) scans ->
  exists rs, Forall2 (fun s r => modis1kmto250m spl1 spl2 (fst s) (snd s) 1 [] = Ok r) scans rs /\
    modis1kmto250m spl1 spl2 (concat (map fst scans)) (concat (map snd scans)) 1 [] =
    Ok (concat (map fst rs), concat (map snd rs)).
Proof. exact modis250m_scanwise. Qed.
Print Assumptions C10_modis250m_scanwise.
Example C10_nonvacuous : Forall (fun s => shaped 2 271 (fst s) /\ shaped 2 271 (snd s))
  [(repeat (repeat 10 271) 2, repeat (repeat 60 271) 2); (repeat (repeat 11 271) 2, repeat (repeat 61 271) 2)].
Proof. repeat constructor; cbn [fst snd]; apply shaped_repeat. Qed.

(** C11 *)
Theorem C11_modis5km : forall spl1 spl2 n lons lats, shaped n 271 lons -> shaped n 271 lats ->
  ((1 <= n)%nat /\ (n mod 2 = 0)%nat ->
     exists lo la, modis5kmto1km spl1 spl2 lons lats = Ok (lo, la) /\ shaped (5 * n) 1354 lo /\ shaped (5 * n) 1354 la) /\
  (~ ((1 <= n)%nat /\ (n mod 2 = 0)%nat) -> exists e, modis5kmto1km spl1 spl2 lons lats = Err e).
Proof.
  intros spl1 spl2 n lons lats S1 S2. split.
  - intros [H1 H2]. pose proof (Nat.div_mod n 2 ltac:(lia)) as E. rewrite H2, Nat.add_0_r in E.
    rewrite E in *. apply modis5km_ok; auto. lia.
  - intros H. destruct n as [|n].
    + destruct S1 as [L1 _], S2 as [L2 _]. destruct lons, lats; try discriminate. exists ZeroDivisionError.
      rewrite modis5km_layout. apply layout_empty.
    + exists IndexError. apply (modis5km_err spl1 spl2 (S n)); auto. lia.
Qed.
Print Assumptions C11_modis5km.
Theorem C11_modis500m : forall spl1 spl2 n lons lats, shaped n 1354 lons -> shaped n 1354 lats ->
  ((1 <= n)%nat /\ (n mod 10 = 0)%nat ->
     exists lo la, modis1kmto500m spl1 spl2 lons lats 1 [] = Ok (lo, la) /\ shaped (2 * n) 2708 lo /\ shaped (2 * n) 2708 la) /\
  (~ ((1 <= n)%nat /\ (n mod 10 = 0)%nat) -> exists e, modis1kmto500m spl1 spl2 lons lats 1 [] = Err e).
Proof.
  intros spl1 spl2 n lons lats S1 S2. change (modis1kmto500m spl1 spl2 lons lats 1 []) with (modis1kmto500m_1 spl1 spl2 lons lats). split.
  - intros [H1 H2]. pose proof (Nat.div_mod n 10 ltac:(lia)) as E. rewrite H2, Nat.add_0_r in E.
    rewrite E in *. apply modis500m_ok; auto. lia.
  - intros H. destruct n as [|n].
    + destruct S1 as [L1 _], S2 as [L2 _]. destruct lons, lats; try discriminate. exists ZeroDivisionError.
      rewrite modis500m_layout. apply layout_empty.
    + exists IndexError. apply (modis500m_err spl1 spl2 (S n)); auto. lia.
Qed.
Print Assumptions C11_modis500m.
Theorem C11_modis250m : forall spl1 spl2 n lons lats, shaped n 1354 lons -> shaped n 1354 lats ->
  ((1 <= n)%nat /\ (n mod 10 = 0)%nat ->
     exists lo la, modis1kmto250m spl1 spl2 lons lats 1 [] = Ok (lo, la) /\ shaped (4 * n) (4 * 1354) lo /\ shaped (4 * n) (4 * 1354) la) /\
  (~ ((1 <= n)%nat /\ (n mod 10 = 0)%nat) -> exists e, modis1kmto250m spl1 spl2 lons lats 1 [] = Err e).
Proof.
  intros spl1 spl2 n lons lats S1 S2. change (modis1kmto250m spl1 spl2 lons lats 1 []) with (modis1kmto250m_1 spl1 spl2 lons lats). split.
  - intros [H1 H2]. pose proof (Nat.div_mod n 10 ltac:(lia)) as E. rewrite H2, Nat.add_0_r in E.
    rewrite E in *. apply modis250m_ok; auto. lia.
  - intros H. destruct n as [|n].
    + destruct S1 as [L1 _], S2 as [L2 _]. destruct lons, lats; try discriminate. exists ZeroDivisionError.
      rewrite modis250m_layout. apply layout_empty.
    + exists IndexError. apply (modis250m_err spl1 spl2 (S n)); auto. lia.
Qed.
Print Assumptions C11_modis250m.
Example C11_nonvacuous : shaped 4 271 (repeat (repeat 5 271) 4) /\ (1 <= 4 /\ 4 mod 2 = 0)%nat /\
  shaped 5 271 (repeat (repeat 5 271) 5) /\ ~ (1 <= 5 /\ 5 mod 2 = 0)%nat.
Proof. split; [apply shaped_repeat|]. split; [split; [lia|reflexivity]|]. split; [apply shaped_repeat|]. cbn. lia. Qed.

(** C12 *)
Theorem C12_modis5km_tie_points : forall spl1 spl2 k lons lats lo la r c,
  interpolates spl2 ->
  shaped (2 * k) 271 lons -> shaped (2 * k) 271 lats ->
  modis5kmto1km spl1 spl2 lons lats = Ok (lo, la) ->
  (r < 2 * k)%nat -> (c < 271)%nat ->
  -180 < at2 0 lons r c < 180 -> -90 < at2 0 lats r c < 90 ->
  at2 None lo (5 * r + 2) (5 * c + 2) = Some (at2 0 lons r c) /\
  at2 None la (5 * r + 2) (5 * c + 2) = Some (at2 0 lats r c).
Proof. exact modis5km_tie. Qed.
Print Assumptions C12_modis5km_tie_points.

(** [metop_cols] = 0, 4, 24, ..., 2044, 2047 *)
Theorem C12_metop_tie_points : forall spl1 spl2 n lons lats lo la r c,
  interpolates spl1 -> shaped n 105 lons -> shaped n 105 lats ->
  metop20kmto1km spl1 spl2 lons lats = Ok (lo, la) ->
  (r < n)%nat -> (c < 105)%nat ->
  -180 < at2 0 lons r c < 180 -> -90 < at2 0 lats r c < 90 ->
  at2 None lo r (Z.to_nat (nth c metop_cols 0%Z)) = Some (at2 0 lons r c) /\
  at2 None la r (Z.to_nat (nth c metop_cols 0%Z)) = Some (at2 0 lats r c).
Proof. exact metop_tie. Qed.
Print Assumptions C12_metop_tie_points.
Theorem C12_metop_shape : forall spl1 spl2 n lons lats, shaped n 105 lons -> shaped n 105 lats ->
  exists lo la, metop20kmto1km spl1 spl2 lons lats = Ok (lo, la) /\ shaped n 2048 lo /\ shaped n 2048 la.
Proof. exact metop_shape. Qed.
Print Assumptions C12_metop_shape.
Example metop_cols_values : nth 0 metop_cols 0%Z = 0%Z /\ (forall i, (i < 103)%nat -> nth (S i) metop_cols 0%Z = (4 + 20 * Z.of_nat i)%Z) /\
  nth 104 metop_cols 0%Z = 2047%Z.
Proof.
  split; [reflexivity|]. split; [|reflexivity]. intros i Hi.
  do 103 (destruct i as [|i]; [reflexivity|]). lia.
Qed.

(** an interpolating evaluator exists: look the argument up among the knots *)
Fixpoint lookup (ks vs : list R) (x : R) : R :=
  match ks, vs with k :: ks', v :: vs' => if Req_EM_T x k then v else lookup ks' vs' x | _, _ => 0 end.
Lemma lookup_interpolates : interpolates (fun ks vs _ x => lookup ks vs x).
Proof.
  intros ks vs k i Hinc L _ _ Hi. revert vs i L Hi Hinc.
  induction ks as [|a ks IH]; intros vs i L Hi Hinc; [simpl in Hi; lia|].
  destruct vs as [|v vs]; [discriminate|]. destruct i as [|i]; cbn [nth lookup].
  - destruct (Req_EM_T a a); [reflexivity|congruence].
  - destruct (Req_EM_T (nth i ks 0) a) as [E|E].
    + exfalso. pose proof (Hinc 0%nat (S i) ltac:(simpl in *; lia)) as H. cbn [nth] in H. lra.
    + apply IH; simpl in *; try lia. intros x y Hxy. apply (Hinc (S x) (S y)). simpl. lia.
Qed.
Example C12_nonvacuous : interpolates (fun ks vs _ x => lookup ks vs x) /\
  (exists lo la, modis5kmto1km (fun ks vs _ x => lookup ks vs x) (fun ks vs _ x => lookup ks vs x)
     (repeat (repeat 10 271) (2 * 1)) (repeat (repeat 60 271) (2 * 1)) = Ok (lo, la)).
Proof.
  split; [exact lookup_interpolates|].
  destruct (modis5km_ok (fun ks vs _ x => lookup ks vs x) (fun ks vs _ x => lookup ks vs x) 1
     (repeat (repeat 10 271) (2 * 1)) (repeat (repeat 60 271) (2 * 1))) as (lo & la & E & _).
  - lia.
  - apply shaped_repeat.
  - apply shaped_repeat.
  - exists lo, la. exact E.
Qed.

(** C13 is false: generic_modis5kmto1km always raises an exception. *)
Theorem C13_generic_always_raises : forall spl1 spl2 n (data : list (mat R)),
  data <> [] -> Forall (fun d => length d = n) data ->
  exists e, generic_modis5kmto1km spl1 spl2 data = Err e.
Proof. exact generic_modis_raises. Qed.
Print Assumptions C13_generic_always_raises.
Theorem C13_generic_refuted : exists n (data : list (mat R)),
  (n mod 2 = 0)%nat /\ (2 <= n)%nat /\ Forall (shaped n 271) data /\ length data = 2%nat /\
  forall spl1 spl2, ~ exists r, generic_modis5kmto1km spl1 spl2 data = Ok r.
Proof.
  exists 4%nat, [repeat (repeat 10 271) 4; repeat (repeat 20 271) 4].
  split; [reflexivity|]. split; [lia|]. split; [repeat constructor; apply shaped_repeat|]. split; [reflexivity|].
  intros spl1 spl2 [r E].
  destruct (generic_modis_raises spl1 spl2 4 [repeat (repeat 10 271) 4; repeat (repeat 20 271) 4]) as [e E'].
  - discriminate.
  - repeat constructor.
  - congruence.
Qed.
Print Assumptions C13_generic_refuted.
