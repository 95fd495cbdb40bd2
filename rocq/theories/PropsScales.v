(** C150: results of different resolutions belong together. *)
From Coq Require Import ZArith List Bool Arith Lia Reals Lra.
From Verif Require Import Base Num Geo Vii ViiProofs PropsVii Mem Modis SimpleModis SimpleModisReal PropsSimple.
Import ListNotations.

(** ** VII: every g-th pixel of factor f g is a pixel of factor f *)
Section ViiScales.
Open Scope nat_scope.
Variable nan : option R.
#[local] Existing Instance RN.

Lemma split_index y a b n : 0 < b -> y < n * a * b -> exists j r t, y = j * a * b + r * b + t /\ j < n /\ r < a /\ t < b.
Proof.
  intros Hb Hy. assert (Ha : 0 < a) by (destruct a; [rewrite Nat.mul_0_r in Hy; cbn in Hy; lia|lia]).
  exists (y / b / a), (y / b mod a), (y mod b).
  pose proof (Nat.div_mod y b ltac:(lia)) as E1. pose proof (Nat.div_mod (y / b) a ltac:(lia)) as E2.
  pose proof (Nat.mod_upper_bound y b ltac:(lia)). pose proof (Nat.mod_upper_bound (y / b) a ltac:(lia)).
  repeat split; try assumption; [nia|]. apply Nat.div_lt_upper_bound; [lia|]. apply Nat.div_lt_upper_bound; [lia|]. nia.
Qed.
Lemma scale_pixel datas datas' s f g n_scans data data' out out' v : 1 <= g ->
  produced nan datas s f n_scans data out -> produced nan datas' s (f * g) n_scans data' out' ->
  finite_da data v -> finite_da data' v -> ncols data = ncols data' ->
  forall y x, y < n_scans * (s - 1) * f -> x < (ncols data - 1) * f -> at_ out y x = at_ out' (y * g) (x * g).
Proof.
  intros Hg P P' F F' Hc y x Hy Hx. destruct (produced_pixels _ _ _ _ _ _ _ P) as (_ & _ & _ & Hf & _).
  destruct (split_index y (s - 1) f n_scans ltac:(lia) Hy) as (j & r & a & -> & Hj & Hr & Ha).
  destruct (split_index x 1 f (ncols data - 1) ltac:(lia) ltac:(nia)) as (c & r' & b & -> & Hcc & Hr' & Hb). assert (r' = 0) as -> by lia.
  replace (c * 1 * f + 0 * f + b) with (c * f + b) by lia.
  rewrite (C37_bilinear nan _ _ _ _ _ _ v j r a c b P F Hj Hr Ha Hcc Hb).
  replace ((j * (s - 1) * f + r * f + a) * g) with (j * (s - 1) * (f * g) + r * (f * g) + a * g) by ring.
  replace ((c * f + b) * g) with (c * (f * g) + b * g) by ring.
  rewrite (C37_bilinear nan _ _ _ _ _ _ v j r (a * g) c (b * g) P' F' Hj Hr ltac:(nia) ltac:(lia) ltac:(nia)).
  assert (Q : forall t, (INR (t * g) / INR (f * g) = INR t / INR f)%R) by (intros; rewrite !mult_INR; field; split; apply not_0_INR; lia).
  rewrite !Q. reflexivity.
Qed.
End ViiScales.

(** tie_points_interpolation *)
Theorem C150_vii : forall nan datas s f g n_scans data out out' v, (1 <= g)%nat ->
  produced nan datas s f n_scans data out -> produced nan datas s (f * g) n_scans data out' -> finite_da data v ->
  nrows out' = (nrows out * g)%nat /\ ncols out' = (ncols out * g)%nat /\
  forall y x, (y < nrows out)%nat -> (x < ncols out)%nat -> at_ out y x = at_ out' (y * g) (x * g).
Proof.
  intros nan datas s f g n_scans data out out' v Hg P P' F.
  destruct (produced_pixels _ _ _ _ _ _ _ P) as ((D1 & D2 & D3 & _) & _). destruct (produced_pixels _ _ _ _ _ _ _ P') as ((D1' & D2' & D3' & _) & _).
  rewrite D2, D2', D3, D3'. split; [ring|]. split; [ring|]. intros y x Hy Hx. eapply scale_pixel; eauto.
Qed.
Print Assumptions C150_vii.

(** tie_points_geo_interpolation, in both modes *)
Theorem C150_vii_geo : forall nan lon lat vlon vlat s f g n_scans thr zt, (1 <= g)%nat ->
  finite_da lon vlon -> finite_da lat vlat -> args_ok [lon; lat] s f n_scans ->
  exists olon olat olon' olat',
    @tie_points_geo_interpolation _ RN nan lon lat s f (Some thr) zt = Ok (olon, olat) /\
    @tie_points_geo_interpolation _ RN nan lon lat s (f * g) (Some thr) zt = Ok (olon', olat') /\
    nrows olon = (n_scans * (s - 1) * f)%nat /\ ncols olon = ((ncols lon - 1) * f)%nat /\
    forall y x, (y < nrows olon)%nat -> (x < ncols olon)%nat -> at_ olon y x = at_ olon' (y * g) (x * g) /\ at_ olat y x = at_ olat' (y * g) (x * g).
Proof.
  intros nan lon lat vlon vlat s f g n_scans thr zt Hg F1 F2 Ha.
  assert (Ha' : args_ok [lon; lat] s (f * g) n_scans).
  { destruct Ha as (first & rest & E & H1 & H2 & H3 & H4). exists first, rest. split; [exact E|]. split; [exact H1|]. split; [nia|]. split; assumption. }
  assert (D : nrows lat = nrows lon /\ ncols lat = ncols lon).
  { destruct Ha as (first & rest & [= <- <-] & _ & _ & _ & _ & _ & Hd). rewrite Forall_forall in Hd. destruct (Hd lat ltac:(right; now left)) as (D & _).
    now apply shape_eqb_eq in D. }
  destruct D as (D1 & D2).
  assert (R1 : (1 <= nrows lon)%nat /\ (1 <= ncols lon)%nat).
  { destruct Ha as (first & rest & [= <- <-] & H1 & _ & H3 & H4 & H5 & _). rewrite H4. split; nia. }
  destruct R1 as (R1 & R2).
  destruct (@to_cart _ RN lon lat (Some thr)) eqn:TC.
  - assert (Hs : ~ safe_lonlat lon vlon vlat thr).
    { intros Hs. pose proof (proj2 (unsafe_cart lon lat vlon vlat thr F1 F2 (eq_sym D1) (eq_sym D2) R1 R2) Hs) as E. congruence. }
    destruct (C39_cartesian_when_unsafe nan lon lat vlon vlat s f n_scans thr zt F1 F2 Ha Hs)
      as (x & y & z & ox & oy & oz & olon & olat & Exyz & X1 & X2 & Y1 & Y2 & Z1 & Z2 & Px & Py & Pz & E & N1 & N2 & O).
    destruct (C39_cartesian_when_unsafe nan lon lat vlon vlat s (f * g) n_scans thr zt F1 F2 Ha' Hs)
      as (x' & y' & z' & ox' & oy' & oz' & olon' & olat' & Exyz' & X1' & X2' & Y1' & Y2' & Z1' & Z2' & Px' & Py' & Pz' & E' & _ & _ & O').
    exists olon, olat, olon', olat'. split; [exact E|]. split; [exact E'|].
    destruct (produced_pixels _ _ _ _ _ _ _ Px) as ((_ & M1 & M2 & _) & _). rewrite N1, N2, M1, M2, X2.
    split; [reflexivity|]. split; [reflexivity|]. intros i k Hi Hk.
    set (cx i k := fst (fst (@vii_lonlat2xyz _ RT (vlon i k) (vlat i k)))). set (cy i k := snd (fst (@vii_lonlat2xyz _ RT (vlon i k) (vlat i k)))).
    set (cz i k := snd (@vii_lonlat2xyz _ RT (vlon i k) (vlat i k))).
    assert (G : forall a b c : darray (option R), (forall i k, (i < nrows lon)%nat -> (k < ncols lon)%nat -> (at_ a i k, at_ b i k, at_ c i k) = @vii_lonlat2xyz _ RN (Some (vlon i k)) (Some (vlat i k))) ->
      nrows a = nrows lon -> ncols a = ncols lon -> nrows b = nrows lon -> ncols b = ncols lon -> nrows c = nrows lon -> ncols c = ncols lon ->
      finite_da a cx /\ finite_da b cy /\ finite_da c cz).
    { intros a b c H A1 A2 B1 B2 C1 C2.
      assert (K : forall i k, (i < nrows lon)%nat -> (k < ncols lon)%nat -> at_ a i k = Some (cx i k) /\ at_ b i k = Some (cy i k) /\ at_ c i k = Some (cz i k)).
      { intros p q Hp Hq. specialize (H p q Hp Hq). rewrite vii_lonlat2xyz_RN in H. unfold cx, cy, cz.
        injection H as -> -> ->. auto. }
      split; [|split]; intros p q Hp Hq; apply K; congruence. }
    destruct (G x y z Exyz X1 X2 Y1 Y2 Z1 Z2) as (Gx & Gy & Gz). destruct (G x' y' z' Exyz' X1' X2' Y1' Y2' Z1' Z2') as (Gx' & Gy' & Gz').
    pose proof (O i k) as Q. pose proof (O' (i * g) (k * g))%nat as Q'.
    rewrite <- (scale_pixel nan _ _ s f g n_scans x x' ox ox' cx Hg Px Px' Gx Gx' ltac:(congruence) i k Hi ltac:(now rewrite X2)) in Q'.
    rewrite <- (scale_pixel nan _ _ s f g n_scans y y' oy oy' cy Hg Py Py' Gy Gy' ltac:(congruence) i k Hi ltac:(now rewrite Y2)) in Q'.
    rewrite <- (scale_pixel nan _ _ s f g n_scans z z' oz oz' cz Hg Pz Pz' Gz Gz' ltac:(congruence) i k Hi ltac:(now rewrite Z2)) in Q'.
    rewrite <- Q' in Q. injection Q as -> ->. auto.
  - pose proof (proj1 (unsafe_cart lon lat vlon vlat thr F1 F2 (eq_sym D1) (eq_sym D2) R1 R2) TC) as Hs.
    destruct (C39_geodetic_when_safe nan lon lat vlon vlat s f n_scans thr zt F1 F2 Ha Hs) as (olon & olat & E & P1 & P2 & _).
    destruct (C39_geodetic_when_safe nan lon lat vlon vlat s (f * g) n_scans thr zt F1 F2 Ha' Hs) as (olon' & olat' & E' & P1' & P2' & _).
    exists olon, olat, olon', olat'. split; [exact E|]. split; [exact E'|].
    destruct (produced_pixels _ _ _ _ _ _ _ P1) as ((_ & M1 & M2 & _) & _). rewrite M1, M2.
    split; [reflexivity|]. split; [reflexivity|]. intros i k Hi Hk.
    split; [eapply scale_pixel; eauto|eapply scale_pixel; eauto; now rewrite D2].
Qed.
Print Assumptions C150_vii_geo.

(** ** simple MODIS: a 500m row lies in the middle of two 250m rows; a 500m column is every second 250m column *)
Open Scope Z_scope.
Lemma middle_rows v r : 0 <= r < 20 ->
  pwl 10 v (row_pos To500m r) = ((pwl 10 v (row_pos To250m (2 * r)) + pwl 10 v (row_pos To250m (2 * r + 1))) / 2)%R.
Proof.
  intros Hr. set (c := Z.max 0 (Z.min ((r - 1) / 2) 8)).
  assert (D : r = 2 * ((r - 1) / 2) + 1 \/ r = 2 * ((r - 1) / 2) + 2) by (pose proof (Z.div_mod (r - 1) 2 ltac:(lia)); pose proof (Z.mod_pos_bound (r - 1) 2 ltac:(lia)); lia).
  set (m := (r - 1) / 2) in *. assert (Hm : -1 <= m <= 9) by lia.
  assert (B : forall y, (IZR m <= y <= IZR m + 1)%R -> (c = 0 \/ (IZR c <= y)%R) /\ (c = 10 - 2 \/ (y <= IZR c + 1)%R)).
  { intros y Hy. subst c. split.
    - destruct (Z_le_gt_dec m 0); [left; lia|right]. assert (IZR (Z.max 0 (Z.min m 8)) <= IZR m)%R by (apply IZR_le; lia). lra.
    - destruct (Z_le_gt_dec 8 m); [left; lia|right]. assert (IZR m <= IZR (Z.max 0 (Z.min m 8)))%R by (apply IZR_le; lia). lra. }
  assert (P : forall y, (IZR m <= y <= IZR m + 1)%R -> pwl 10 v y = (v c + (y - IZR c) * (v (c + 1)%Z - v c))%R).
  { intros y Hy. destruct (B y Hy). apply pwl_piece; [lia|assumption|assumption]. }
  unfold row_pos. rewrite !plus_IZR, !mult_IZR.
  destruct D as [D|D]; apply (f_equal IZR) in D; rewrite plus_IZR, mult_IZR in D; rewrite !P by lra; field.
Qed.
Lemma middle_pixel w v r i : 0 <= r < 20 ->
  bilinear 10 w v (row_pos To500m r) (col_pos To500m i) =
  ((bilinear 10 w v (row_pos To250m (2 * r)) (col_pos To250m (2 * i)) + bilinear 10 w v (row_pos To250m (2 * r + 1)) (col_pos To250m (2 * i))) / 2)%R.
Proof.
  intros Hr. unfold bilinear. replace (col_pos To250m (2 * i)) with (col_pos To500m i) by (unfold col_pos; cbn [fac2]; rewrite mult_IZR; field).
  now apply middle_rows.
Qed.

Theorem C150_simple : forall g g' dt n w (lon lat olon olat olon' olat' : ndarray (option R)) (lo la : Z -> Z -> R),
  dt <> OtherDtype -> 2 <= w -> shaped2 dt n w lon lat ->
  (forall a b, 0 <= a < n -> 0 <= b < w -> aat lon a b = Some (lo a b) /\ aat lat a b = Some (la a b)) ->
  @simple _ RN To500m g lon lat = Ok (olon, olat) -> @simple _ RN To250m g' lon lat = Ok (olon', olat') ->
  exists px py pz : Z -> Z -> R,
    (forall y x, 0 <= y < n / 10 * 40 -> 0 <= x < 4 * w ->
       (aat olon' y x, aat olat' y x) = @cy_xyz2lonlat _ RN true (Some (8 / 10)%R) (Some (px y x), Some (py y x), Some (pz y x))) /\
    (forall y x, 0 <= y < n / 10 * 20 -> 0 <= x < 2 * w ->
       let middle (p : Z -> Z -> R) := ((p (2 * y)%Z (2 * x)%Z + p (2 * y + 1)%Z (2 * x)%Z) / 2)%R in
       (aat olon y x, aat olat y x) = @cy_xyz2lonlat _ RN true (Some (8 / 10)%R) (Some (middle px), Some (middle py), Some (middle pz))) /\
    (forall y x, 0 <= y < n / 10 * 40 -> 0 <= x < 4 * w ->
       let position (coordinate : R -> R -> R) :=
         bilinear 10 w (fun a b => coordinate (lo (y / 40 * 10 + a)%Z b) (la (y / 40 * 10 + a)%Z b)) (row_pos To250m (y mod 40)) (col_pos To250m x) in
       px y x = position at_x /\ py y x = position at_y /\ pz y x = position at_z).
Proof.
  intros g g' dt n w lon lat olon olat olon' olat' lo la Hdt Hw S F O O'.
  set (position (coordinate : R -> R -> R) (y x : Z) :=
    bilinear 10 w (fun a b => coordinate (lo (y / 40 * 10 + a)%Z b) (la (y / 40 * 10 + a)%Z b)) (row_pos To250m (y mod 40)) (col_pos To250m x)).
  exists (position at_x), (position at_y), (position at_z). split; [|split; [|intros; unfold position; auto]].
  - intros y x Hy Hx. pose proof (Z.div_mod y 40 ltac:(lia)) as DM. pose proof (Z.mod_pos_bound y 40 ltac:(lia)) as MB.
    assert (0 <= y / 40) by (apply Z.div_pos; lia). assert (y / 40 < n / 10) by (apply Z.div_lt_upper_bound; lia). pose proof (Z.mul_div_le n 10 ltac:(lia)).
    pose proof (C56_bilinear To250m g' dt n w lon lat olon' olat' lo la Hdt Hw S F O' (y / 40) (y mod 40) x ltac:(lia) ltac:(lia) ltac:(cbn [fac2]; lia) ltac:(cbn [fac2]; lia)) as P.
    cbv zeta in P. cbn [fac2] in P. replace (y / 40 * (4 * 10) + y mod 40) with y in P by lia. exact P.
  - intros y x Hy Hx middle. pose proof (Z.div_mod y 20 ltac:(lia)) as DM. pose proof (Z.mod_pos_bound y 20 ltac:(lia)) as MB.
    assert (0 <= y / 20) by (apply Z.div_pos; lia). assert (y / 20 < n / 10) by (apply Z.div_lt_upper_bound; lia). pose proof (Z.mul_div_le n 10 ltac:(lia)).
    pose proof (C56_bilinear To500m g dt n w lon lat olon olat lo la Hdt Hw S F O (y / 20) (y mod 20) x ltac:(lia) ltac:(lia) ltac:(cbn [fac2]; lia) ltac:(cbn [fac2]; lia)) as P.
    cbv zeta in P. cbn [fac2] in P. replace (y / 20 * (2 * 10) + y mod 20) with y in P by lia. rewrite P.
    assert (Q1 : 2 * y / 40 = y / 20) by (symmetry; apply (Z.div_unique _ _ _ (2 * (y mod 20))); lia).
    assert (Q2 : (2 * y) mod 40 = 2 * (y mod 20)) by (symmetry; apply (Z.mod_unique _ _ (y / 20)); lia).
    assert (Q3 : (2 * y + 1) / 40 = y / 20) by (symmetry; apply (Z.div_unique _ _ _ (2 * (y mod 20) + 1)); lia).
    assert (Q4 : (2 * y + 1) mod 40 = 2 * (y mod 20) + 1) by (symmetry; apply (Z.mod_unique _ _ (y / 20)); lia).
    assert (M : forall coordinate, bilinear 10 w (fun a b => coordinate (lo (y / 20 * 10 + a)%Z b) (la (y / 20 * 10 + a)%Z b)) (row_pos To500m (y mod 20)) (col_pos To500m x) = middle (position coordinate)).
    { intros coordinate. unfold middle, position. rewrite Q1, Q2, Q3, Q4. now apply middle_pixel. }
    rewrite !M. reflexivity.
Qed.
Print Assumptions C150_simple.
(** the hypotheses of C150_vii_geo for two tie rows and two tie columns (those of C150_simple: C56_case), and of C150_vii for factors 2 and 6 *)
Example C150_case : forall nan, exists (lon lat : darray (option R)) (vlon vlat : nat -> nat -> R) (out out' : darray (option R)),
  finite_da lon vlon /\ finite_da lat vlat /\ args_ok [lon; lat] 2 2 1 /\
  produced nan [lon; lat] 2 2 1 lon out /\ produced nan [lon; lat] 2 (2 * 3) 1 lon out' /\ at_ out 1%nat 1%nat = at_ out' 3%nat 3%nat.
Proof.
  intros nan. set (v := fun i k : nat => (INR i + 10 * INR k)%R).
  set (lon := {| dims := dims (am_lon 0); nrows := 2; ncols := 2; at_ := fun i k => Some (v i k) |} : darray (option R)).
  assert (F : finite_da lon v) by (intros i k _ _; reflexivity).
  assert (A : forall f, (1 <= f)%nat -> args_ok [lon; lon] 2 f 1).
  { intros f Hf. exists lon, [lon]. split; [reflexivity|]. split; [lia|]. split; [exact Hf|]. split; [lia|]. split; [reflexivity|]. split; [cbn; lia|].
    repeat constructor; try (apply shape_eqb_eq; auto); apply dims_eqb_eq; reflexivity. }
  assert (P : forall f, (1 <= f)%nat -> exists out, produced nan [lon; lon] 2 f 1 lon out).
  { intros f Hf. destruct (interpolation_ok (N := RN) nan _ _ _ _ (A f Hf)) as (outs & E & Q). inversion Q as [|? o ? ? Q1 Q2]; subst.
    exists o. split; [exact (A f Hf)|]. eexists. exists 0%nat. split; [exact E|]. split; reflexivity. }
  destruct (P 2%nat ltac:(lia)) as (out & P1). destruct (P (2 * 3)%nat ltac:(lia)) as (out' & P2).
  exists lon, lon, v, v, out, out'. split; [exact F|]. split; [exact F|]. split; [apply A; lia|]. split; [exact P1|]. split; [exact P2|].
  destruct (C150_vii nan _ 2 2 3 1 lon out out' v ltac:(lia) P1 P2 F) as (_ & _ & Q).
  destruct (produced_pixels _ _ _ _ _ _ _ P1) as ((_ & M1 & M2 & _) & _). apply Q; [rewrite M1|rewrite M2]; cbn; lia.
Qed.
