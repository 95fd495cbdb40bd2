(** The functions of geotiepoints/__init__.py as instances of the scan layouts. *)
From Coq Require Import ZArith List Lia Bool Reals Lra Permutation.
From Verif Require Import Spec Base Num Splits SplitsProofs Geo GeoProofs Interp PlProofs InterpProofs Legacy LegacyProofs.
Import ListNotations.
#[local] Existing Instance RT.
Open Scope R_scope.

Lemma Forall2_impl {A B} (P Q : A -> B -> Prop) l1 l2 :
  (forall a b, P a b -> Q a b) -> Forall2 P l1 l2 -> Forall2 Q l1 l2.
Proof. intros H F. induction F; constructor; auto. Qed.

Lemma multi_ext {A B} (f g : list (list A) * list (list A) -> res (list (list B) * list (list B))) lons lats c k order :
  (forall p, f p = g p) -> multi f lons lats c k order = multi g lons lats c k order.
Proof.
  intros H. unfold multi. destruct (get_scene_splits _ _ _) as [sp|e]; cbn [bind]; [|reflexivity].
  set (tasks := combine _ _).
  assert (E : pool_get (pool_run f tasks order) (length tasks) = pool_get (pool_run g tasks order) (length tasks)).
  { unfold pool_get. apply mapM_ext. intros i _. unfold pool_run. rewrite !pool_run_slots.
    destruct (in_dec Nat.eq_dec i order); [|reflexivity]. destruct (nth_error tasks i); [|reflexivity].
    now rewrite H. }
  now rewrite E.
Qed.

(** ** grids *)
Lemma np_arange_seq n : np_arange 0 (Z.of_nat n) 1 = map Z.of_nat (seq 0 n).
Proof.
  unfold np_arange. replace ((Z.of_nat n - 0 + 1 - 1) / 1)%Z with (Z.of_nat n) by (rewrite Z.div_1_r; lia).
  rewrite range0_map_of_nat, map_map. apply map_ext. intros; lia.
Qed.

Lemma np_arange_from start stop step n :
  ((stop - start + step - 1) / step = Z.of_nat n)%Z ->
  np_arange start stop step = map (fun i => (start + step * Z.of_nat i)%Z) (seq 0 n).
Proof.
  intros H. unfold np_arange. rewrite H, range0_map_of_nat, map_map. reflexivity.
Qed.

Lemma grid_2_5 stop n : ((stop + 2) / 5 = Z.of_nat n)%Z -> grid_div 5 (np_arange 2 stop 5) = Pn (2 / 5) n.
Proof.
  intros H. unfold grid_div. rewrite (np_arange_from 2 stop 5 n).
  - rewrite map_map. unfold Pn. apply map_ext. intros i. rt. unfold posn.
    rewrite plus_IZR, mult_IZR. field.
  - rewrite <- H. f_equal. lia.
Qed.

Lemma grid_div_Hn g n : (1 <= g)%nat -> grid_div (Z.of_nat g) (np_arange 0 (Z.of_nat n) 1) = Hn g 0 n.
Proof.
  intros Hg. unfold grid_div. rewrite np_arange_seq, map_map. unfold Hn. apply map_ext. intros i. rt.
  unfold hposn. f_equal. ring.
Qed.

Lemma grid_of_Pn n : grid_of (np_arange 0 (Z.of_nat n) 1) = Pn 0 n.
Proof.
  unfold grid_of. rewrite np_arange_seq, map_map. unfold Pn. apply map_ext. intros i. rt. unfold posn. ring.
Qed.

Lemma grid_shift_Hn g a b o n : IZR a / IZR b = o ->
  grid_shift_div a b (Z.of_nat g) (np_arange 0 (Z.of_nat n) 1) = Hn g o n.
Proof.
  intros Ho. unfold grid_shift_div. rewrite np_arange_seq, map_map. unfold Hn. apply map_ext. intros i. rt.
  unfold hposn. now rewrite Ho.
Qed.

Lemma Hn_ne g o n : (1 <= n)%nat -> Hn g o n <> [].
Proof. intros H E. apply (f_equal (@length R)) in E. rewrite Hn_length in E. simpl in E. lia. Qed.

Lemma ext_cols_inc g delta W L : (1 <= g)%nat -> (1 <= W)%nat -> (1 <= L)%nat ->
  hposn g 0 0 <= posn delta 0 -> posn delta (W - 1) < hposn g 0 (L - 1) ->
  strict_inc (ext_cols (Pn delta W) (Hn g 0 L)) = true.
Proof.
  intros Hg HW HL H0 H1. unfold ext_cols, need_first, need_last.
  rewrite !hd_nth, !last_nth, Pn_length, Hn_length, !nth_Pn, !nth_Hn by lia.
  assert (E : Reqb (posn delta (W - 1)) (hposn g 0 (L - 1)) = false) by (apply Reqb_false; lra).
  rewrite E. cbn [negb].
  assert (A : strict_inc (Pn delta W ++ [hposn g 0 (L - 1)]) = true).
  { apply strict_inc_app; [apply (strict_inc_Pn 1 2); lia|reflexivity|]. intros _ _.
    rewrite last_nth, Pn_length, nth_Pn by lia. exact H1. }
  destruct (Reqb (posn delta 0) (hposn g 0 0)) eqn:E0; cbn [negb app]; [exact A|].
  apply Reqb_false in E0. change (hposn g 0 0 :: Pn delta W ++ [hposn g 0 (L - 1)]) with ([hposn g 0 0] ++ (Pn delta W ++ [hposn g 0 (L - 1)])).
  apply strict_inc_app; [reflexivity|exact A|]. intros _ _. cbn [last].
  rewrite hd_nth, app_nth1 by (rewrite Pn_length; lia). rewrite nth_Pn by lia. lra.
Qed.

(** ** the three functions *)
Definition cols5 := Pn (2 / 5) 271.
Definition hcols5 := Hn 5 0 1354.
Definition cols1 := Pn 0 1354.
Definition hcols500 := Hn 2 0 2708.
Definition hcols250 := Hn 4 0 (4 * 1354).

Ltac posn_num := unfold posn, hposn; cbn [Nat.sub Nat.mul Nat.add]; simpl Z.of_nat;
  repeat (rewrite <- ?INR_IZR_INZ); simpl.

Lemma c5_first : hposn 5 0 0 < posn (2 / 5) 0. Proof. unfold hposn, posn; simpl; lra. Qed.
Lemma c5_last : posn (2 / 5) (2 - 1) < hposn 5 0 (5 * 2 - 1). Proof. unfold hposn, posn; simpl; lra. Qed.
Lemma c5_cols : strict_inc (ext_cols cols5 hcols5) = true.
Proof.
  apply ext_cols_inc; try lia; unfold hposn, posn; [simpl; lra|].
  replace (Z.of_nat (271 - 1)) with 270%Z by reflexivity. replace (Z.of_nat (1354 - 1)) with 1353%Z by (now vm_compute).
  simpl Z.of_nat. lra.
Qed.
Lemma c500_first : hposn 2 (1 / 2) 0 < posn 0 0. Proof. unfold hposn, posn; simpl; lra. Qed.
Lemma c500_last : posn 0 (10 - 1) < hposn 2 (1 / 2) (2 * 10 - 1). Proof. unfold hposn, posn; simpl; lra. Qed.
Lemma c500_cols : strict_inc (ext_cols cols1 hcols500) = true.
Proof.
  apply ext_cols_inc; try lia; unfold hposn, posn; [simpl; lra|].
  replace (Z.of_nat (1354 - 1)) with 1353%Z by (now vm_compute). replace (Z.of_nat (2708 - 1)) with 2707%Z by (now vm_compute).
  simpl Z.of_nat. lra.
Qed.
Lemma c250_first : hposn 4 (3 / 2) 0 < posn 0 0. Proof. unfold hposn, posn; simpl; lra. Qed.
Lemma c250_last : posn 0 (10 - 1) < hposn 4 (3 / 2) (4 * 10 - 1). Proof. unfold hposn, posn; simpl; lra. Qed.
Lemma c250_cols : strict_inc (ext_cols cols1 hcols250) = true.
Proof.
  apply ext_cols_inc; try lia; unfold hposn, posn; [simpl; lra|].
  replace (Z.of_nat (1354 - 1)) with 1353%Z by (now vm_compute). replace (Z.of_nat (4 * 1354 - 1)) with 5415%Z by (now vm_compute).
  simpl Z.of_nat. lra.
Qed.

Section S.
Variables spl1 spl2 : list R -> list R -> Z -> R -> R.

Lemma modis5km_layout lons lats :
  modis5kmto1km spl1 spl2 lons lats = layout_run 5 2 (2 / 5) 0 cols5 hcols5 spl1 spl2 lons lats.
Proof.
  unfold modis5kmto1km, layout_run. f_equal. unfold modis5km_grid, layout_state, st0, make, nrows.
  rewrite (grid_2_5 1354 271) by (now vm_compute).
  change 1354%Z with (Z.of_nat 1354). change (grid_div 5) with (grid_div (T := R) (Z.of_nat 5)).
  rewrite (grid_div_Hn 5 1354) by lia.
  rewrite (grid_2_5 _ (length lons)) by (symmetry; apply Z.div_unique with (r := 2%Z); lia).
  replace (Z.of_nat (length lons) * 5)%Z with (Z.of_nat (5 * length lons)) by lia.
  rewrite (grid_div_Hn 5) by lia. reflexivity.
Qed.

Lemma modis500m_layout lons lats :
  modis1kmto500m_1 spl1 spl2 lons lats = layout_run 2 10 0 (1 / 2) cols1 hcols500 spl1 spl2 lons lats.
Proof.
  unfold modis1kmto500m_1, layout_run. f_equal. unfold modis500m_grid, layout_state, st0, make, nrows.
  change (1354 * 2)%Z with (Z.of_nat 2708). change 1354%Z with (Z.of_nat 1354). rewrite grid_of_Pn.
  change (grid_div 2) with (grid_div (T := R) (Z.of_nat 2)). rewrite (grid_div_Hn 2 2708) by lia.
  rewrite grid_of_Pn. replace (Z.of_nat (length lons) * 2)%Z with (Z.of_nat (2 * length lons)) by lia.
  change (grid_shift_div 1 2 2) with (grid_shift_div (T := R) 1 2 (Z.of_nat 2)).
  rewrite (grid_shift_Hn 2 1 2 (1 / 2)) by reflexivity. reflexivity.
Qed.

Lemma modis250m_layout lons lats :
  modis1kmto250m_1 spl1 spl2 lons lats = layout_run 4 10 0 (3 / 2) cols1 hcols250 spl1 spl2 lons lats.
Proof.
  unfold modis1kmto250m_1, layout_run. f_equal. unfold modis250m_grid, layout_state, st0, make, nrows.
  change (1354 * 4)%Z with (Z.of_nat (4 * 1354)). change 1354%Z with (Z.of_nat 1354). rewrite grid_of_Pn.
  change (grid_div 4) with (grid_div (T := R) (Z.of_nat 4)). rewrite (grid_div_Hn 4 (4 * 1354)) by lia.
  rewrite grid_of_Pn. replace (Z.of_nat (length lons) * 4)%Z with (Z.of_nat (4 * length lons)) by lia.
  change (grid_shift_div 3 2 4) with (grid_shift_div (T := R) 3 2 (Z.of_nat 4)).
  rewrite (grid_shift_Hn 4 3 2 (3 / 2)) by reflexivity. reflexivity.
Qed.

Lemma len_cols5 : length cols5 = 271%nat. Proof. apply Pn_length. Qed.
Lemma len_cols1 : length cols1 = 1354%nat. Proof. apply Pn_length. Qed.
Lemma len_hcols5 : length hcols5 = 1354%nat. Proof. apply Hn_length. Qed.
Lemma len_hcols500 : length hcols500 = 2708%nat. Proof. apply Hn_length. Qed.
Lemma len_hcols250 : length hcols250 = (4 * 1354)%nat. Proof. apply Hn_length. Qed.

Lemma weak_Hn g o n : (1 <= g)%nat -> weak_inc (Hn g o n) = true.
Proof. intros. apply strict_inc_weak. apply (strict_inc_Hn g 2); lia. Qed.

(** scan-wise *)
Theorem modis5km_scanwise scans :
  scans <> [] -> Forall (fun s => shaped 2 271 (fst s) /\ shaped 2 271 (snd s)) scans ->
  exists rs, Forall2 (fun s r => modis5kmto1km spl1 spl2 (fst s) (snd s) = Ok r) scans rs /\
    modis5kmto1km spl1 spl2 (concat (map fst scans)) (concat (map snd scans)) =
    Ok (concat (map fst rs), concat (map snd rs)).
Proof.
  intros Hne Hs.
  destruct (layout_scanwise 5 2 (2 / 5) 0 cols5 hcols5 ltac:(lia) ltac:(lia) ltac:(lra) c5_first c5_last
     ltac:(lia) ltac:(rewrite len_cols5; lia) ltac:(apply Hn_ne; lia) c5_cols ltac:(apply weak_Hn; lia)
     spl1 spl2 scans Hne) as (rs & F & E).
  - unfold scan_shaped. rewrite len_cols5. exact Hs.
  - exists rs. split.
    + eapply Forall2_impl; [|exact F]. intros s r H. cbv beta. now rewrite modis5km_layout.
    + now rewrite modis5km_layout.
Qed.

Theorem modis500m_scanwise scans :
  scans <> [] -> Forall (fun s => shaped 10 1354 (fst s) /\ shaped 10 1354 (snd s)) scans ->
  exists rs, Forall2 (fun s r => modis1kmto500m_1 spl1 spl2 (fst s) (snd s) = Ok r) scans rs /\
    modis1kmto500m_1 spl1 spl2 (concat (map fst scans)) (concat (map snd scans)) =
    Ok (concat (map fst rs), concat (map snd rs)).
Proof.
  intros Hne Hs.
  destruct (layout_scanwise 2 10 0 (1 / 2) cols1 hcols500 ltac:(lia) ltac:(lia) ltac:(lra) c500_first c500_last
     ltac:(lia) ltac:(rewrite len_cols1; lia) ltac:(apply Hn_ne; lia) c500_cols ltac:(apply weak_Hn; lia)
     spl1 spl2 scans Hne) as (rs & F & E).
  - unfold scan_shaped. rewrite len_cols1. exact Hs.
  - exists rs. split.
    + eapply Forall2_impl; [|exact F]. intros s r H. cbv beta. now rewrite modis500m_layout.
    + now rewrite modis500m_layout.
Qed.

Theorem modis250m_scanwise scans :
  scans <> [] -> Forall (fun s => shaped 10 1354 (fst s) /\ shaped 10 1354 (snd s)) scans ->
  exists rs, Forall2 (fun s r => modis1kmto250m_1 spl1 spl2 (fst s) (snd s) = Ok r) scans rs /\
    modis1kmto250m_1 spl1 spl2 (concat (map fst scans)) (concat (map snd scans)) =
    Ok (concat (map fst rs), concat (map snd rs)).
Proof.
  intros Hne Hs.
  destruct (layout_scanwise 4 10 0 (3 / 2) cols1 hcols250 ltac:(lia) ltac:(lia) ltac:(lra) c250_first c250_last
     ltac:(lia) ltac:(rewrite len_cols1; lia) ltac:(apply Hn_ne; lia) c250_cols ltac:(apply weak_Hn; lia)
     spl1 spl2 scans Hne) as (rs & F & E).
  - unfold scan_shaped. rewrite len_cols1. exact Hs.
  - exists rs. split.
    + eapply Forall2_impl; [|exact F]. intros s r H. cbv beta. now rewrite modis250m_layout.
    + now rewrite modis250m_layout.
Qed.

(** shapes and errors *)
Theorem modis5km_ok k lons lats : (1 <= k)%nat -> shaped (2 * k) 271 lons -> shaped (2 * k) 271 lats ->
  exists lo la, modis5kmto1km spl1 spl2 lons lats = Ok (lo, la) /\
    shaped (5 * (2 * k)) 1354 lo /\ shaped (5 * (2 * k)) 1354 la.
Proof.
  intros Hk Sl Sa. rewrite modis5km_layout.
  replace (2 * k)%nat with (k * 2)%nat in * by lia. rewrite <- len_cols5 in Sl, Sa. rewrite <- len_hcols5.
  apply layout_ok; auto using c5_first, c5_last, c5_cols, weak_Hn; try lia; try lra.
  - rewrite len_cols5; lia.
  - apply Hn_ne; lia.
  - apply weak_Hn. lia.
Qed.
Theorem modis5km_err n lons lats : shaped n 271 lons -> shaped n 271 lats -> (n mod 2 <> 0)%nat ->
  modis5kmto1km spl1 spl2 lons lats = Err IndexError.
Proof.
  intros Sl Sa Hn. rewrite modis5km_layout. rewrite <- len_cols5 in Sl, Sa.
  eapply layout_not_whole; eauto; try lia; try lra; try apply c5_first; try apply c5_last; try apply c5_cols; try (apply weak_Hn; lia).
  - rewrite len_cols5; lia.
Qed.

Theorem modis500m_ok k lons lats : (1 <= k)%nat -> shaped (10 * k) 1354 lons -> shaped (10 * k) 1354 lats ->
  exists lo la, modis1kmto500m_1 spl1 spl2 lons lats = Ok (lo, la) /\
    shaped (2 * (10 * k)) 2708 lo /\ shaped (2 * (10 * k)) 2708 la.
Proof.
  intros Hk Sl Sa. rewrite modis500m_layout.
  replace (10 * k)%nat with (k * 10)%nat in * by lia. rewrite <- len_cols1 in Sl, Sa. rewrite <- len_hcols500.
  apply layout_ok; auto using c500_first, c500_last, c500_cols, weak_Hn; try lia; try lra.
  - rewrite len_cols1; lia.
  - apply Hn_ne; lia.
  - apply weak_Hn. lia.
Qed.
Theorem modis500m_err n lons lats : shaped n 1354 lons -> shaped n 1354 lats -> (n mod 10 <> 0)%nat ->
  modis1kmto500m_1 spl1 spl2 lons lats = Err IndexError.
Proof.
  intros Sl Sa Hn. rewrite modis500m_layout. rewrite <- len_cols1 in Sl, Sa.
  eapply layout_not_whole; eauto; try lia; try lra; try apply c500_first; try apply c500_last; try apply c500_cols; try (apply weak_Hn; lia).
  - rewrite len_cols1; lia.
Qed.
Theorem modis250m_ok k lons lats : (1 <= k)%nat -> shaped (10 * k) 1354 lons -> shaped (10 * k) 1354 lats ->
  exists lo la, modis1kmto250m_1 spl1 spl2 lons lats = Ok (lo, la) /\
    shaped (4 * (10 * k)) (4 * 1354) lo /\ shaped (4 * (10 * k)) (4 * 1354) la.
Proof.
  intros Hk Sl Sa. rewrite modis250m_layout.
  replace (10 * k)%nat with (k * 10)%nat in * by lia. rewrite <- len_cols1 in Sl, Sa. rewrite <- len_hcols250.
  apply layout_ok; auto using c250_first, c250_last, c250_cols, weak_Hn; try lia; try lra.
  - rewrite len_cols1; lia.
  - apply Hn_ne; lia.
  - apply weak_Hn. lia.
Qed.
Theorem modis250m_err n lons lats : shaped n 1354 lons -> shaped n 1354 lats -> (n mod 10 <> 0)%nat ->
  modis1kmto250m_1 spl1 spl2 lons lats = Err IndexError.
Proof.
  intros Sl Sa Hn. rewrite modis250m_layout. rewrite <- len_cols1 in Sl, Sa.
  eapply layout_not_whole; eauto; try lia; try lra; try apply c250_first; try apply c250_last; try apply c250_cols; try (apply weak_Hn; lia).
  - rewrite len_cols1; lia.
Qed.

(** several workers *)
Theorem modis500m_cores n lons lats cores order :
  (1 <= cores)%Z -> shaped n 1354 lons -> shaped n 1354 lats ->
  (forall splits, get_scene_splits (Z.of_nat n) 10 cores = Ok splits -> Permutation order (seq 0 (S (length splits)))) ->
  modis1kmto500m spl1 spl2 lons lats cores order = modis1kmto500m_1 spl1 spl2 lons lats.
Proof.
  intros Hc Sl Sa Hord. unfold modis1kmto500m. destruct (1 <? cores)%Z; [|reflexivity].
  rewrite <- len_cols1 in Sl, Sa.
  transitivity (multi (fun p => layout_run 2 10 0 (1 / 2) cols1 hcols500 spl1 spl2 (fst p) (snd p)) lons lats 10 cores order).
  - apply multi_ext. intros p. apply modis500m_layout.
  - rewrite modis500m_layout. change 10%Z with (Z.of_nat 10).
    apply (layout_multi 2 10 0 (1 / 2) cols1 hcols500) with (n := n);
      auto using c500_first, c500_last, c500_cols; try lia; try lra.
    + rewrite len_cols1; lia.
    + apply Hn_ne; lia.
    + apply weak_Hn. lia.
Qed.

Theorem modis250m_cores n lons lats cores order :
  (1 <= cores)%Z -> shaped n 1354 lons -> shaped n 1354 lats ->
  (forall splits, get_scene_splits (Z.of_nat n) 10 cores = Ok splits -> Permutation order (seq 0 (S (length splits)))) ->
  modis1kmto250m spl1 spl2 lons lats cores order = modis1kmto250m_1 spl1 spl2 lons lats.
Proof.
  intros Hc Sl Sa Hord. unfold modis1kmto250m. destruct (1 <? cores)%Z; [|reflexivity].
  rewrite <- len_cols1 in Sl, Sa.
  transitivity (multi (fun p => layout_run 4 10 0 (3 / 2) cols1 hcols250 spl1 spl2 (fst p) (snd p)) lons lats 10 cores order).
  - apply multi_ext. intros p. apply modis250m_layout.
  - rewrite modis250m_layout. change 10%Z with (Z.of_nat 10).
    apply (layout_multi 4 10 0 (3 / 2) cols1 hcols250) with (n := n);
      auto using c250_first, c250_last, c250_cols; try lia; try lra.
    + rewrite len_cols1; lia.
    + apply Hn_ne; lia.
    + apply weak_Hn. lia.
Qed.
End S.
