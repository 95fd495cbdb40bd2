(** C70: rows between the tie rows in modis5kmto1km, modis1kmto500m and modis1kmto250m. *)
From Coq Require Import ZArith List Lia Bool Reals Lra Permutation.
From Verif Require Import Spec Base Num Splits SplitsProofs Geo GeoProofs Interp PlProofs InterpProofs Legacy LegacyProofs LegacyInst LegacyTie SimpleModisReal LegacyRows.
From Verif Require Import PropsInterp PropsLegacy PropsSimple.
Import ListNotations.
#[local] Existing Instance RT.
Open Scope R_scope.

Inductive legacy_fn := L5km | L500m | L250m.
Definition legacy (f : legacy_fn) spl1 spl2 (lons lats : mat R) : res (list (list (option R)) * list (list (option R))) :=
  match f with
  | L5km => modis5kmto1km spl1 spl2 lons lats
  | L500m => modis1kmto500m spl1 spl2 lons lats 1 []
  | L250m => modis1kmto250m spl1 spl2 lons lats 1 []
  end.

(** ** Specification *)
(** tie rows per scan, tie columns, fine pixels per tie-point distance, fine columns *)
Definition tie_rows (f : legacy_fn) : nat := match f with L5km => 2 | _ => 10 end.
Definition tie_cols (f : legacy_fn) : nat := match f with L5km => 271 | _ => 1354 end.
Definition zoom (f : legacy_fn) : nat := match f with L5km => 5 | L500m => 2 | L250m => 4 end.
Definition fine_cols (f : legacy_fn) : nat := match f with L5km => 1354 | L500m => 2708 | L250m => 4 * 1354 end.
(** the fine column of the first tie column; the tie rows are in the middle of their rows of fine pixels *)
Definition tie_col0 (f : legacy_fn) : nat := match f with L5km => 2 | _ => 0 end.
Definition y_of (f : legacy_fn) (j : nat) : R := (INR j - (INR (zoom f) - 1) / 2) / INR (zoom f).
Definition x_of (f : legacy_fn) (J : nat) : R := (INR J - INR (tie_col0 f)) / INR (zoom f).
(** tie columns and the two ends of the lines *)
Definition fixed_col (f : legacy_fn) (J : nat) : Prop :=
  (exists c, (c < tie_cols f)%nat /\ J = (zoom f * c + tie_col0 f)%nat) \/ J = 0%nat \/ J = (fine_cols f - 1)%nat.

(** ** Proof *)
Lemma legacy_place (lo la : R) : @lonlat2xyz _ RT lo la = (at_x lo la, at_y lo la, at_z lo la).
Proof. reflexivity. Qed.

Section Run.
Variables (g m W L : nat) (delta dc o : R).
Hypothesis (Hg : (1 <= g)%nat) (Hm : (2 <= m)%nat) (Hdelta : 0 <= delta < 1) (HW : (4 <= W)%nat) (HL : (1 <= L)%nat).
Hypothesis Hfirst : hposn g o 0 < posn delta 0.
Hypothesis Hlast : posn delta (m - 1) < hposn g o (g * m - 1).
Hypothesis Hgm : (g * m <> m + 2)%nat.
Hypothesis H0 : hposn g 0 0 <= posn dc 0.
Hypothesis H1 : posn dc (W - 1) < hposn g 0 (L - 1).
Variables spl1 spl2 : list R -> list R -> Z -> R -> R.
Hypothesis Hspl : interpolates spl2.
Notation cols := (Pn dc W).
Notation hcols := (Hn g 0 L).

Lemma sr_bilinear b j J : shaped m W b -> (j < g * m)%nat -> (J < L)%nat ->
  (exists c, (c < W)%nat /\ hposn g 0 J = posn dc c) \/ J = 0%nat \/ J = (L - 1)%nat ->
  at2 0 (sr g m delta o cols hcols spl2 b) j J =
  bilinear (Z.of_nat m) (Z.of_nat W) (fun a c => at2 0 b (Z.to_nat a) (Z.to_nat c)) (hposn g o j - delta) (hposn g 0 J - dc).
Proof.
  intros Sb Hj HJ C. destruct (knot_column g W L dc Hg HW HL H0 H1 J HJ C) as (k & Hk & E & V).
  rewrite (sr_at_knot g m delta o Hg Hm Hfirst Hlast cols hcols) with (k := k); auto; rewrite ?Pn_length, ?Hn_length; auto.
  - unfold bilinear. apply pwl_ext; [lia|]. intros i Hi. apply V. now apply (shaped_row m W) with (a := b); [|lia].
  - apply ext_cols_inc; auto; lia.
Qed.

Lemma layout_pixel K lons lats lo la q j J (eval : (Z -> Z -> R) -> R) :
  shaped (K * m) W lons -> shaped (K * m) W lats ->
  layout_run g m delta o cols hcols spl1 spl2 lons lats = Ok (lo, la) ->
  (q < K)%nat -> (j < g * m)%nat -> (J < L)%nat ->
  (forall b, shaped m W b -> at2 0 (sr g m delta o cols hcols spl2 b) j J = eval (fun a c => at2 0 b (Z.to_nat a) (Z.to_nat c))) ->
  (forall u v, (forall a c, (0 <= a < Z.of_nat m)%Z -> (0 <= c < Z.of_nat W)%Z -> u a c = v a c) -> eval u = eval v) ->
  let position (coordinate : R -> R -> R) :=
    eval (fun a c => coordinate (at2 0 lons (q * m + Z.to_nat a) (Z.to_nat c)) (at2 0 lats (q * m + Z.to_nat a) (Z.to_nat c))) in
  (at2 None lo (q * (g * m) + j) J, at2 None la (q * (g * m) + j) J) =
  @xyz2lonlat _ RN (Some (position at_x), Some (position at_y), Some (position at_z)).
Proof.
  intros Sl Sa Hrun Hq Hj HJ C X position.
  assert (LC : length cols = W) by apply Pn_length. assert (LH : length hcols = L) by apply Hn_length.
  assert (Sl' : shaped (K * m) (length cols) lons) by now rewrite LC. assert (Sa' : shaped (K * m) (length cols) lats) by now rewrite LC.
  destruct (as_scans g m cols Hg Hm Hgm ltac:(lia) K lons lats Sl' Sa') as (scans & LS & F & El & Ea).
  rewrite El, Ea in Hrun.
  rewrite (layout_whole g m delta o cols hcols) in Hrun; auto;
    [|lia|apply Hn_ne; lia|apply ext_cols_inc; auto; lia|apply weak_Hn; lia|destruct scans; simpl in LS; [lia|discriminate]].
  apply Ok_pair_inj in Hrun; destruct Hrun as [<- <-].
  assert (Hs : nth_error scans q <> None) by (apply nth_error_Some; lia).
  destruct (nth_error scans q) as [s|] eqn:Es; [clear Hs|congruence].
  assert (Hin : In s scans) by (eapply nth_error_In; eauto).
  assert (Nth : forall {B} (f : mat R * mat R -> list (list B)), nth q (map f scans) [] = f s).
  { intros B f. now apply nth_map_in. }
  assert (Al : forall (f : mat R * mat R -> mat R) i, (i < m)%nat -> (forall s, In s scans -> length (f s) = m) ->
     nth (q * m + i) (concat (map f scans)) [] = nth i (f s) []).
  { intros f i Hi Hf. rewrite (nth_concat_const _ m) by (try apply Forall_map, Forall_forall; try rewrite map_length; auto; lia).
    now rewrite Nth. }
  rewrite Forall_forall in F.
  assert (Elon : forall i c, (i < m)%nat -> at2 0 lons (q * m + i) c = at2 0 (fst s) i c).
  { intros i c Hi. unfold at2. rewrite El, Al; [reflexivity|exact Hi|]. intros s' H'. apply (F s' H'). }
  assert (Elat : forall i c, (i < m)%nat -> at2 0 lats (q * m + i) c = at2 0 (snd s) i c).
  { intros i c Hi. unfold at2. rewrite Ea, Al; [reflexivity|exact Hi|]. intros s' H'. apply (F s' H'). }
  assert (G : (at2 None (fst (geo_scan g m delta o cols hcols spl2 s)) j J, at2 None (snd (geo_scan g m delta o cols hcols spl2 s)) j J) =
     @xyz2lonlat _ RN (Some (position at_x), Some (position at_y), Some (position at_z))).
  { destruct (F s Hin) as [S1 S2]. destruct s as [slon slat]. cbn [fst snd] in *.
    destruct (c_shaped _ _ slon slat S1 S2) as (Cx & Cy & Cz). rewrite LC in *.
    unfold geo_scan. rewrite (geo3_at (g * m) (length hcols)); try apply sr_shaped; auto; [|lia].
    rewrite !C by auto.
    assert (P : forall i c, (0 <= i < Z.of_nat m)%Z -> (0 <= c < Z.of_nat W)%Z ->
       (at2 0 (cx (slon, slat)) (Z.to_nat i) (Z.to_nat c), at2 0 (cy (slon, slat)) (Z.to_nat i) (Z.to_nat c), at2 0 (cz (slon, slat)) (Z.to_nat i) (Z.to_nat c)) =
       (at_x (at2 0 lons (q * m + Z.to_nat i) (Z.to_nat c)) (at2 0 lats (q * m + Z.to_nat i) (Z.to_nat c)),
        at_y (at2 0 lons (q * m + Z.to_nat i) (Z.to_nat c)) (at2 0 lats (q * m + Z.to_nat i) (Z.to_nat c)),
        at_z (at2 0 lons (q * m + Z.to_nat i) (Z.to_nat c)) (at2 0 lats (q * m + Z.to_nat i) (Z.to_nat c)))).
    { intros i c Hi Hc. rewrite (c_at m W slon slat) by (auto; lia). rewrite Elon, Elat by lia. apply legacy_place. }
    unfold position.
    f_equal. f_equal; [f_equal|]; f_equal; apply X; intros i c Hi Hc; specialize (P i c Hi Hc); congruence. }
  rewrite <- G. unfold at2.
  rewrite !(nth_concat_const _ (g * m)).
  - rewrite !Nth. reflexivity.
  - apply Forall_map, Forall_forall. intros s' _. apply geo_scan_shaped.
  - lia.
  - rewrite map_length. lia.
  - apply Forall_map, Forall_forall. intros s' _. apply geo_scan_shaped.
  - lia.
  - rewrite map_length. lia.
Qed.

Lemma layout_bilinear K lons lats lo la q j J :
  shaped (K * m) W lons -> shaped (K * m) W lats ->
  layout_run g m delta o cols hcols spl1 spl2 lons lats = Ok (lo, la) ->
  (q < K)%nat -> (j < g * m)%nat -> (J < L)%nat ->
  (exists c, (c < W)%nat /\ hposn g 0 J = posn dc c) \/ J = 0%nat \/ J = (L - 1)%nat ->
  let position (coordinate : R -> R -> R) :=
    bilinear (Z.of_nat m) (Z.of_nat W)
      (fun a c => coordinate (at2 0 lons (q * m + Z.to_nat a) (Z.to_nat c)) (at2 0 lats (q * m + Z.to_nat a) (Z.to_nat c)))
      (hposn g o j - delta) (hposn g 0 J - dc) in
  (at2 None lo (q * (g * m) + j) J, at2 None la (q * (g * m) + j) J) =
  @xyz2lonlat _ RN (Some (position at_x), Some (position at_y), Some (position at_z)).
Proof.
  intros Sl Sa Hrun Hq Hj HJ C position.
  apply (layout_pixel K lons lats lo la q j J (fun u => bilinear (Z.of_nat m) (Z.of_nat W) u (hposn g o j - delta) (hposn g 0 J - dc))); auto.
  - intros b Hb. now apply sr_bilinear.
  - intros u v H. unfold bilinear. apply pwl_ext; [lia|]. intros a Ha. apply pwl_ext; [lia|]. intros c Hc. now apply H.
Qed.
End Run.

(** At the tie columns and at both ends every fine row of scan q is the direction of the bilinear position between the tie points
    of that scan (continued linearly at the edges), whatever the spline makes of the other columns *)
Theorem C70_rows : forall f spl1 spl2 K lons lats lo la q j J,
  interpolates spl2 -> shaped (K * tie_rows f) (tie_cols f) lons -> shaped (K * tie_rows f) (tie_cols f) lats ->
  legacy f spl1 spl2 lons lats = Ok (lo, la) ->
  (q < K)%nat -> (j < zoom f * tie_rows f)%nat -> (J < fine_cols f)%nat -> fixed_col f J ->
  let position (coordinate : R -> R -> R) :=
    bilinear (Z.of_nat (tie_rows f)) (Z.of_nat (tie_cols f))
      (fun a c => coordinate (at2 0 lons (q * tie_rows f + Z.to_nat a) (Z.to_nat c)) (at2 0 lats (q * tie_rows f + Z.to_nat a) (Z.to_nat c)))
      (y_of f j) (x_of f J) in
  (at2 None lo (q * (zoom f * tie_rows f) + j) J, at2 None la (q * (zoom f * tie_rows f) + j) J) =
  @xyz2lonlat _ RN (Some (position at_x), Some (position at_y), Some (position at_z)).
Proof.
  intros f spl1 spl2 K lons lats lo la q j J Hspl Sl Sa Hrun Hq Hj HJ C.
  assert (EY : forall d oo, ((INR (zoom f) - 1) / 2 = oo + INR (zoom f) * d)%R -> y_of f j = hposn (zoom f) oo j - d).
  { intros d oo E. unfold y_of, hposn. rewrite <- !INR_IZR_INZ. rewrite E. field. destruct f; cbn; lra. }
  assert (EX : forall d, INR (tie_col0 f) = INR (zoom f) * d -> x_of f J = hposn (zoom f) 0 J - d).
  { intros d E. unfold x_of, hposn. rewrite <- !INR_IZR_INZ. rewrite E. field. destruct f; cbn; lra. }
  assert (FC : forall d, INR (tie_col0 f) = INR (zoom f) * d ->
    (exists c, (c < tie_cols f)%nat /\ hposn (zoom f) 0 J = posn d c) \/ J = 0%nat \/ J = (fine_cols f - 1)%nat).
  { intros d E. destruct C as [(c & Hc & ->)|C]; [left|right; exact C]. exists c. split; [exact Hc|].
    unfold hposn, posn. rewrite <- !INR_IZR_INZ, plus_INR, mult_INR, E. field. destruct f; cbn; lra. }
  destruct f.
  - cbv zeta. rewrite (EY (2 / 5) 0), (EX (2 / 5)) by (cbn; lra).
    unfold legacy in Hrun. rewrite modis5km_layout in Hrun.
    eapply (layout_bilinear 5 2 271 1354 (2 / 5) (2 / 5) 0); eauto using c5_first, c5_last; try lia; try lra; try exact (FC (2 / 5) ltac:(cbn; lra)).
    + left. exact c5_first.
    + unfold hposn, posn. replace (Z.of_nat (271 - 1)) with 270%Z by reflexivity. replace (Z.of_nat (1354 - 1)) with 1353%Z by (now vm_compute). simpl Z.of_nat. lra.
  - cbv zeta. rewrite (EY 0 (1 / 2)), (EX 0) by (cbn; lra).
    unfold legacy in Hrun. change (modis1kmto500m spl1 spl2 lons lats 1 []) with (modis1kmto500m_1 spl1 spl2 lons lats) in Hrun. rewrite modis500m_layout in Hrun.
    eapply (layout_bilinear 2 10 1354 2708 0 0 (1 / 2)); eauto using c500_first, c500_last; try lia; try lra; try exact (FC 0 ltac:(cbn; lra)).
    + unfold hposn, posn. simpl. lra.
    + unfold hposn, posn. replace (Z.of_nat (1354 - 1)) with 1353%Z by (now vm_compute). replace (Z.of_nat (2708 - 1)) with 2707%Z by (now vm_compute). simpl Z.of_nat. lra.
  - cbv zeta. rewrite (EY 0 (3 / 2)), (EX 0) by (cbn; lra).
    unfold legacy in Hrun. change (modis1kmto250m spl1 spl2 lons lats 1 []) with (modis1kmto250m_1 spl1 spl2 lons lats) in Hrun. rewrite modis250m_layout in Hrun.
    eapply (layout_bilinear 4 10 1354 (4 * 1354) 0 0 (3 / 2)); eauto using c250_first, c250_last; try lia; try lra; try exact (FC 0 ltac:(cbn; lra)).
    + unfold hposn, posn. simpl. lra.
    + unfold hposn, posn. replace (Z.of_nat (1354 - 1)) with 1353%Z by (now vm_compute). replace (Z.of_nat (4 * 1354 - 1)) with 5415%Z by (now vm_compute). simpl Z.of_nat. lra.
Qed.
Print Assumptions C70_rows.
(** not vacuous *)
Example C70_case : interpolates (fun ks vs _ x => lookup ks vs x) /\ fixed_col L500m 2707 /\ ~ fixed_col L500m 1 /\
  exists lo la, legacy L500m (fun ks vs _ x => lookup ks vs x) (fun ks vs _ x => lookup ks vs x)
    (repeat (repeat 10 1354) (2 * tie_rows L500m)) (repeat (repeat 60 1354) (2 * tie_rows L500m)) = Ok (lo, la).
Proof.
  split; [exact lookup_interpolates|]. split; [right; right; reflexivity|]. split.
  { intros [(c & _ & E)|[E|E]]; cbn [zoom tie_col0] in E; [lia|discriminate|]. apply (f_equal Z.of_nat) in E. vm_compute in E. discriminate. }
  destruct (C11_modis500m (fun ks vs _ x => lookup ks vs x) (fun ks vs _ x => lookup ks vs x) (2 * tie_rows L500m)
    (repeat (repeat 10 1354) (2 * tie_rows L500m)) (repeat (repeat 60 1354) (2 * tie_rows L500m)) (shaped_repeat _ _ _) (shaped_repeat _ _ _)) as [H _].
  destruct H as (lo & la & E & _); [cbn; split; [lia|reflexivity]|]. exists lo, la. exact E.
Qed.
(** the first row of a scan lies a quarter of a tie-point distance before the first tie row *)
Example C70_positions : y_of L500m 0 = -1 / 4 /\ y_of L250m 0 = -3 / 8 /\ y_of L5km 2 = 0 /\ y_of L5km 9 = 7 / 5.
Proof. unfold y_of. cbn. lra. Qed.
