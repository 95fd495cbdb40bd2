(** C131: GeoGridInterpolator on double arrays, from longitudes and latitudes to longitudes and latitudes. *)
From Coq Require Import ZArith List Bool Arith Lia Reals Lra.
From Flocq.Core Require Import Core.
From Verif Require Import Spec Base Num Geo GeoProofs Chunks ChunksProofs GridLinear PropsGeo PropsChunks PropsGridLinear.
From Verif Require Import PropsFloat Float FloatGeo FloatAcc PropsFloatAcc FloatTrip PropsFloatTrip FloatNear FloatGrid FloatVii PropsFloatGrid PropsFloatVii.
Import ListNotations.
Open Scope R_scope.

(** the interpolator of C91 on doubles: geointerpolator.py:78-111, 52-75 *)
Definition conv64 (m : libm) (lons lats : tie_values (option R)) :=
  let xyz := map2d (@lonlat2xyz (option R) (F64 m)) (v_data lons) (v_data lats) in
  (floats (map (map (fun p => fst (fst p))) xyz), floats (map (map (fun p => snd (fst p))) xyz), floats (map (map snd) xyz)).
Definition elem64 (m : libm) (x y z : option R) : option R * option R := @xyz2lonlat _ (F64 m) (x, y, z).
Definition geo_grid64 (m : libm) (i : grid_init (option R)) (ys xs : list R) (lons lats : list (list R)) (fy fx : list R) :=
  let* ss := make_geo (@rgi_valid _ (F64 m)) (conv64 m) Grid i (points_of ys xs) [ArrayArg (finite lons); ArrayArg (finite lats)] in
  geo_interpolate (N := F64 m) (@rgi _ (F64 m)) (elem64 m) ss (points_of fy fx) tt.

(** positions on the sphere of geointerpolator.py *)
Definition Re : R := 6370997.
Definition geo_x (lon lat : R) : R := Re * cos (lat * (PI / 180)) * cos (lon * (PI / 180)).
Definition geo_y (lon lat : R) : R := Re * cos (lat * (PI / 180)) * sin (lon * (PI / 180)).
Definition geo_z (lon lat : R) : R := Re * sin (lat * (PI / 180)).

Lemma geo_sphere lo la : geo_x lo la * geo_x lo la + geo_y lo la * geo_y lo la + geo_z lo la * geo_z lo la = Re * Re.
Proof.
  unfold geo_x, geo_y, geo_z. pose proof (sin2_cos2 (la * (PI / 180))) as A. pose proof (sin2_cos2 (lo * (PI / 180))) as B. unfold Rsqr in A, B.
  set (cp := cos (la * (PI / 180))) in *. set (sp := sin (la * (PI / 180))) in *. set (cl := cos (lo * (PI / 180))) in *. set (sl := sin (lo * (PI / 180))) in *.
  replace (Re * cp * cl * (Re * cp * cl) + Re * cp * sl * (Re * cp * sl) + Re * sp * (Re * sp)) with (Re * Re * (cp * cp * (sl * sl + cl * cl) + sp * sp)) by ring.
  rewrite B. replace (cp * cp * 1 + sp * sp) with 1 by lra. ring.
Qed.
Lemma geo_bound lo la : Rabs (geo_x lo la) <= Re /\ Rabs (geo_y lo la) <= Re /\ Rabs (geo_z lo la) <= Re.
Proof.
  pose proof (geo_sphere lo la) as S. assert (R0 : 0 <= Re) by (unfold Re; lra).
  assert (K : forall a b c, a * a + b * b + c * c = Re * Re -> Rabs a <= Re) by (intros a b c H; apply Rabs_le; split; nra).
  split; [apply (K _ (geo_y lo la) (geo_z lo la)); lra|]. split; [apply (K _ (geo_x lo la) (geo_z lo la)); lra|]. apply (K _ (geo_x lo la) (geo_y lo la)); lra.
Qed.

Section Corner.
Variable m : libm.
Hypothesis HA : accurate b64 m.
(** position of a tie point *)
Lemma corner_64 lon lat : Rabs lon <= 180 -> Rabs lat <= 90 ->
  exists x y z, @lonlat2xyz _ (F64 m) (Some lon) (Some lat) = (x, y, z) /\ near b64 x (geo_x lon lat) (30 / 1000000000) /\ near b64 y (geo_y lon lat) (30 / 1000000000) /\ near b64 z (geo_z lon lat) (30 / 1000000000).
Proof.
  intros Hlon Hlat. destruct (near_angle m lon Hlon) as [Nl Bl]. destruct (near_angle m lat ltac:(lra)) as [Np Bp]. pose proof eps_64 as E.
  assert (Ac : forall x, Rabs (cos x) <= 1) by (intros; apply Rabs_le, COS_bound).
  assert (As : forall x, Rabs (sin x) <= 1) by (intros; apply Rabs_le, SIN_bound).
  assert (Nr : near b64 (@EARTH_RADIUS _ (F64 m)) Re 0) by (apply (near_nz b64 b64 pi64 m fine_64 6370997); lia).
  unfold lonlat2xyz, lonlat2xyz_at. do 3 eexists. split; [reflexivity|].
  set (lr := @deg2rad _ (F64 m) (Some lon)) in *. set (pr := @deg2rad _ (F64 m) (Some lat)) in *.
  set (l := lon * (PI / 180)) in *. set (p := lat * (PI / 180)) in *.
  set (e1 := 20 / 10000000000000000).
  assert (Cp : near b64 (@ncos _ (F64 m) pr) (cos p) e1) by (eapply FloatNear.near_weaken; [|apply (near_cos b64 b64 pi64 m fine_64 HA _ _ _ Np)]; unfold e1; lra).
  assert (Sp : near b64 (@nsin _ (F64 m) pr) (sin p) e1) by (eapply FloatNear.near_weaken; [|apply (near_sin b64 b64 pi64 m fine_64 HA _ _ _ Np)]; unfold e1; lra).
  assert (Cl : near b64 (@ncos _ (F64 m) lr) (cos l) e1) by (eapply FloatNear.near_weaken; [|apply (near_cos b64 b64 pi64 m fine_64 HA _ _ _ Nl)]; unfold e1; lra).
  assert (Sl : near b64 (@nsin _ (F64 m) lr) (sin l) e1) by (eapply FloatNear.near_weaken; [|apply (near_sin b64 b64 pi64 m fine_64 HA _ _ _ Nl)]; unfold e1; lra).
  assert (R1 : Rabs Re <= Re) by (unfold Re; rewrite Rabs_pos_eq; lra).
  set (e2 := 150 / 10000000000).
  assert (RC : near b64 (@nmul _ (F64 m) (@EARTH_RADIUS _ (F64 m)) (@ncos _ (F64 m) pr)) (Re * cos p) e2).
  { eapply FloatNear.near_weaken; [|apply (near_mul b64 b64 pi64 m fine_64 _ _ _ _ _ _ Re 1 6371010 Nr Cp R1 (Ac p))]; unfold e1, e2, Re, big; lra. }
  assert (RS : near b64 (@nmul _ (F64 m) (@EARTH_RADIUS _ (F64 m)) (@nsin _ (F64 m) pr)) (Re * sin p) e2).
  { eapply FloatNear.near_weaken; [|apply (near_mul b64 b64 pi64 m fine_64 _ _ _ _ _ _ Re 1 6371010 Nr Sp R1 (As p))]; unfold e1, e2, Re, big; lra. }
  assert (B1 : Rabs (Re * cos p) <= Re).
  { rewrite Rabs_mult, (Rabs_pos_eq Re) by (unfold Re; lra). specialize (Ac p). unfold Re. lra. }
  split; [|split].
  - eapply FloatNear.near_weaken; [|apply (near_mul b64 b64 pi64 m fine_64 _ _ _ _ _ _ Re 1 6371010 RC Cl B1 (Ac l))]; unfold e1, e2, Re, big; lra.
  - eapply FloatNear.near_weaken; [|apply (near_mul b64 b64 pi64 m fine_64 _ _ _ _ _ _ Re 1 6371010 RC Sl B1 (As l))]; unfold e1, e2, Re, big; lra.
  - eapply FloatNear.near_weaken; [|exact RS]; unfold e2; lra.
Qed.

(** the computed coordinates *)
Definition value (v : option R) : R := match v with Some v => v | None => 0 end.
Definition cx (lon lat : R) : R := value (fst (fst (@lonlat2xyz _ (F64 m) (Some lon) (Some lat)))).
Definition cy (lon lat : R) : R := value (snd (fst (@lonlat2xyz _ (F64 m) (Some lon) (Some lat)))).
Definition cz (lon lat : R) : R := value (snd (@lonlat2xyz _ (F64 m) (Some lon) (Some lat))).
Lemma computed_corner lon lat : Rabs lon <= 180 -> Rabs lat <= 90 ->
  @lonlat2xyz _ (F64 m) (Some lon) (Some lat) = (Some (cx lon lat), Some (cy lon lat), Some (cz lon lat)) /\
  (fl b64 (cx lon lat) /\ Rabs (cx lon lat - geo_x lon lat) <= 30 / 1000000000) /\
  (fl b64 (cy lon lat) /\ Rabs (cy lon lat - geo_y lon lat) <= 30 / 1000000000) /\
  (fl b64 (cz lon lat) /\ Rabs (cz lon lat - geo_z lon lat) <= 30 / 1000000000).
Proof.
  intros H1 H2. destruct (corner_64 lon lat H1 H2) as (x & y & z & E & (vx & -> & Fx & Dx) & (vy & -> & Fy & Dy) & (vz & -> & Fz & Dz)).
  unfold cx, cy, cz. rewrite E. cbn [fst snd value]. auto.
Qed.
Definition on_globe (lons lats : list (list R)) (ny nx : nat) : Prop :=
  shaped ny nx lons /\ shaped ny nx lats /\ forall r c, (r < ny)%nat -> (c < nx)%nat -> Rabs (at2 0 lons r c) <= 180 /\ Rabs (at2 0 lats r c) <= 90.
(** a matrix of finite values *)
Lemma all_finite (f : option R * option R * option R -> option R) (g : R -> R -> R) ny nx lons lats : on_globe lons lats ny nx ->
  (forall a b, Rabs a <= 180 -> Rabs b <= 90 -> f (@lonlat2xyz _ (F64 m) (Some a) (Some b)) = Some (g a b)) ->
  map (map f) (map2d (@lonlat2xyz (option R) (F64 m)) (map (map Some) lons) (map (map Some) lats)) = map (map Some) (map2d g lons lats).
Proof.
  intros (S1 & S2 & B) Hf.
  assert (SS : forall w : list (list R), shaped ny nx w -> shaped ny nx (map (map Some) w)) by (intros; now apply shaped_map).
  apply (at2_ext None ny nx).
  - apply shaped_map. apply shaped_map2d; now apply SS.
  - apply shaped_map. now apply shaped_map2d.
  - intros r c Hr Hc.
    assert (G : forall A C (h : A -> C) w d e, shaped ny nx w -> at2 e (map (map h) w) r c = h (at2 d w r c)).
    { intros A C h w d e Sw. destruct Sw as [L F]. unfold at2. rewrite (nth_indep _ [] (map h [])) by (rewrite map_length; lia). rewrite map_nth.
      rewrite Forall_forall in F. assert (K := F (nth r w []) ltac:(apply nth_In; lia)).
      rewrite (nth_indep _ e (h d)) by (rewrite map_length; lia). apply map_nth. }
    rewrite (G _ _ f _ (None, None, None)) by (apply shaped_map2d; now apply SS).
    rewrite (at2_map2d _ ny nx _ _ None None) by auto.
    rewrite !(G _ _ Some _ 0) by auto.
    rewrite (G _ _ Some _ 0) by now apply shaped_map2d. rewrite (at2_map2d g ny nx _ _ 0 0) by auto.
    destruct (B r c Hr Hc). now apply Hf.
Qed.
End Corner.

Section Pixel.
Variable m : libm.
Hypothesis HA : accurate b64 m.
Variable i : grid_init (option R).
Variable ys xs : list R.
Hypothesis Ha : axes ys xs.

(** the computed value of one coordinate *)
Definition pix (w : list (list R)) (y x : R) : R :=
  match grid64 m i (points_of ys xs) (finite w) tt (Some y) (Some x) with Some (Some v) => v | _ => 0 end.
Definition proper (w : list (list R)) (fy fx : list R) : Prop :=
  forall y x, In y fy -> In x fx -> grid64 m i (points_of ys xs) (finite w) tt (Some y) (Some x) = Some (Some (pix w y x)).

Lemma eval_64 w fy fx : proper w fy fx ->
  interpolate_numpy (N := F64 m) (@rgi _ (F64 m)) {| s_kind := Grid; s_init := i; s_points := points_of ys xs; s_values := finite w |} (points_of fy fx) tt =
  Ok (map (map (fun p => Some (pix w (fst p) (snd p)))) (map (fun y => map (fun x => (y, x)) fx) fy)).
Proof.
  intros P. change (points_of fy fx) with (map Some fy, map Some fx).
  unfold interpolate_numpy. cbn [s_kind s_init s_points s_values]. unfold eval_grid. rewrite map_map.
  assert (H : forall fy', (forall y, In y fy' -> In y fy) ->
    mapM (fun y => mapM (fun x => match @rgi _ (F64 m) Grid i (points_of ys xs) (finite w) tt y x with Some a => Ok a | None => Err ValueError end) (map Some fx)) (map Some fy') =
    Ok (map (fun y => map (fun p => Some (pix w (fst p) (snd p))) (map (fun x => (y, x)) fx)) fy')).
  { induction fy' as [|y fy' IH]; intros Hin; [reflexivity|]. cbn [map mapM].
    assert (E : forall fx', (forall x, In x fx' -> In x fx) ->
      mapM (fun x => match @rgi _ (F64 m) Grid i (points_of ys xs) (finite w) tt (Some y) x with Some a => Ok a | None => Err ValueError end) (map Some fx') =
      Ok (map (fun p => Some (pix w (fst p) (snd p))) (map (fun x => (y, x)) fx'))).
    { induction fx' as [|x fx' IHx]; intros Hx; [reflexivity|]. cbn [map mapM].
      change (@rgi _ (F64 m) Grid i) with (grid64 m i). rewrite (P y x (Hin y (or_introl eq_refl)) (Hx x (or_introl eq_refl))).
      cbn [bind fst snd]. unfold grid64 in *. rewrite IHx by (intros x' Hx'; apply Hx; now right). reflexivity. }
    rewrite (E fx) by auto. cbn [bind]. rewrite IH by (intros y' Hy'; apply Hin; now right). reflexivity. }
  apply H. auto.
Qed.

Variable lons lats : list (list R).
Hypothesis G : on_globe lons lats (length ys) (length xs).
Definition WX := map2d (cx m) lons lats.
Definition WY := map2d (cy m) lons lats.
Definition WZ := map2d (cz m) lons lats.

(** every pixel is the conversion of the computed position *)
Lemma pixels_64 fy fx : proper WX fy fx -> proper WY fy fx -> proper WZ fy fx ->
  exists olon olat, geo_grid64 m i ys xs lons lats fy fx = Ok (olon, olat) /\
    shaped (length fy) (length fx) olon /\ shaped (length fy) (length fx) olat /\
    forall p q, (p < length fy)%nat -> (q < length fx)%nat -> let y := nth p fy 0 in let x := nth q fx 0 in
      (at2 None olon p q, at2 None olat p q) = @xyz2lonlat _ (F64 m) (Some (pix WX y x), Some (pix WY y x), Some (pix WZ y x)).
Proof.
  intros PX PY PZ. pose proof G as (S1 & S2 & B). unfold geo_grid64, make_geo, to_xyz. cbn [bind]. unfold conv64. cbn [v_data finite floats].
  rewrite (all_finite m (fun p => fst (fst p)) (cx m) (length ys) (length xs)), (all_finite m (fun p => snd (fst p)) (cy m) (length ys) (length xs)),
    (all_finite m snd (cz m) (length ys) (length xs)); try exact G;
    try (intros a b H1 H2; destruct (computed_corner m HA a b H1 H2) as (-> & _); reflexivity).
  assert (V : forall g, make_single (@rgi_valid _ (F64 m)) Grid i (points_of ys xs) (floats (map (map Some) (map2d g lons lats))) =
    Ok {| s_kind := Grid; s_init := i; s_points := points_of ys xs; s_values := finite (map2d g lons lats) |}).
  { intros g. unfold make_single. change (floats (map (map Some) (map2d g lons lats))) with (finite (map2d g lons lats)).
    assert (E : @rgi_valid _ (F64 m) Grid i (points_of ys xs) (finite (map2d g lons lats)) = true); [|now rewrite E].
    change (grid_ok i (points_of ys xs) (finite (map2d g lons lats)) = true).
    apply C90_accepted. destruct Ha as (Iy & Ix & _). split; [now left|]. split; [now left|]. apply shaped_map. now apply shaped_map2d. }
  unfold make_multiple. cbn [mapM]. rewrite !V. cbn [bind]. fold WX WY WZ.
  unfold geo_interpolate, interpolate_multiple. cbn [mapM]. rewrite !eval_64 by assumption. cbn [bind to_lonlat].
  rewrite (zip3_components (fun p : R * R => (Some (pix WX (fst p) (snd p)), Some (pix WY (fst p) (snd p)), Some (pix WZ (fst p) (snd p))))).
  cbn [fst snd]. rewrite !map_map. eexists. eexists. split; [reflexivity|].
  rewrite !(map_ext (fun y => map _ (map (fun x : R => (y, x)) fx)) (fun y => map (fun x => _ (y, x)) fx) (fun y => map_map _ _ fx)).
  split; [apply shaped_grid|]. split; [apply shaped_grid|]. intros p q Hp Hq. cbv zeta.
  rewrite !(at2_grid _ fy fx 0 0) by assumption. unfold elem64. cbn [fst snd]. rewrite <- surjective_pairing. reflexivity.
Qed.

(** tie data of one coordinate *)
Lemma wide (g : R -> R -> R) (e : R -> R -> R) :
  (forall a b, Rabs a <= 180 -> Rabs b <= 90 -> fl b64 (g a b) /\ Rabs (g a b - e a b) <= 30 / 1000000000 /\ Rabs (e a b) <= Re) ->
  shaped (length ys) (length xs) (map2d g lons lats) /\ all2 (fun v => fl b64 v /\ Rabs v <= Re + 1) (map2d g lons lats) /\
  forall r c, (r < length ys)%nat -> (c < length xs)%nat ->
    at2 0 (map2d g lons lats) r c = g (at2 0 lons r c) (at2 0 lats r c) /\ Rabs (g (at2 0 lons r c) (at2 0 lats r c) - e (at2 0 lons r c) (at2 0 lats r c)) <= 30 / 1000000000.
Proof.
  intros H. pose proof G as (S1 & S2 & B). assert (Sw : shaped (length ys) (length xs) (map2d g lons lats)) by now apply shaped_map2d.
  assert (K : forall r c, (r < length ys)%nat -> (c < length xs)%nat -> at2 0 (map2d g lons lats) r c = g (at2 0 lons r c) (at2 0 lats r c)).
  { intros r c Hr Hc. now apply (at2_map2d g (length ys) (length xs)). }
  split; [exact Sw|]. split.
  - unfold all2. apply Forall_forall. intros row Hrow. apply Forall_forall. intros v Hv.
    apply (In_nth _ _ []) in Hrow as (r & Hr & <-). destruct Sw as [L F]. rewrite Forall_forall in F.
    assert (Lr := F (nth r (map2d g lons lats) []) ltac:(now apply nth_In)).
    apply (In_nth _ _ 0) in Hv as (c & Hc & <-). change (nth c (nth r (map2d g lons lats) []) 0) with (at2 0 (map2d g lons lats) r c).
    rewrite K by lia. destruct (B r c ltac:(lia) ltac:(lia)) as [B1 B2]. destruct (H _ _ B1 B2) as (F1 & D & E1). split; [exact F1|].
    replace (g (at2 0 lons r c) (at2 0 lats r c)) with ((g (at2 0 lons r c) (at2 0 lats r c) - e (at2 0 lons r c) (at2 0 lats r c)) + e (at2 0 lons r c) (at2 0 lats r c)) by ring.
    eapply Rle_trans; [apply Rabs_triang|]. lra.
  - intros r c Hr Hc. split; [now apply K|]. destruct (B r c Hr Hc) as [B1 B2]. apply (H _ _ B1 B2).
Qed.
Lemma cx_ok a b : Rabs a <= 180 -> Rabs b <= 90 -> fl b64 (cx m a b) /\ Rabs (cx m a b - geo_x a b) <= 30 / 1000000000 /\ Rabs (geo_x a b) <= Re.
Proof. intros H1 H2. destruct (computed_corner m HA a b H1 H2) as (_ & (? & ?) & _). split; [assumption|]. split; [assumption|apply geo_bound]. Qed.
Lemma cy_ok a b : Rabs a <= 180 -> Rabs b <= 90 -> fl b64 (cy m a b) /\ Rabs (cy m a b - geo_y a b) <= 30 / 1000000000 /\ Rabs (geo_y a b) <= Re.
Proof. intros H1 H2. destruct (computed_corner m HA a b H1 H2) as (_ & _ & (? & ?) & _). split; [assumption|]. split; [assumption|apply geo_bound]. Qed.
Lemma cz_ok a b : Rabs a <= 180 -> Rabs b <= 90 -> fl b64 (cz m a b) /\ Rabs (cz m a b - geo_z a b) <= 30 / 1000000000 /\ Rabs (geo_z a b) <= Re.
Proof. intros H1 H2. destruct (computed_corner m HA a b H1 H2) as (_ & _ & _ & (? & ?)). split; [assumption|]. split; [assumption|apply geo_bound]. Qed.

(** one coordinate of one pixel *)
Hypothesis Py : spaced ys.
Hypothesis Px : spaced xs.
Hypothesis Dy : PropsFloatGrid.doubles ys.
Hypothesis Dx : PropsFloatGrid.doubles xs.
Definition target (l : list R) (v : R) : Prop := fl b64 v /\ inside l v.
Lemma pix_near g e r c y x : (forall a b, Rabs a <= 180 -> Rabs b <= 90 -> fl b64 (g a b) /\ Rabs (g a b - e a b) <= 30 / 1000000000 /\ Rabs (e a b) <= Re) ->
  target ys y -> target xs x -> in_cell ys r y -> in_cell xs c x ->
  let w := map2d g lons lats in
  grid64 m i (points_of ys xs) (finite w) tt (Some y) (Some x) = Some (Some (pix w y x)) /\ fl b64 (pix w y x) /\
  Rabs (pix w y x - bilinear ys xs (fun a b => e (at2 0 lons a b) (at2 0 lats a b)) r c y x) <= 50 / 1000000000.
Proof.
  intros H (Fy & Iy) (Fx & Ix) Cy Cx w. destruct (wide g e H) as (Sw & Aw & K). fold w in Sw, Aw, K.
  destruct (C97_double m i ys xs w y x r c (Re + 1) Ha Py Px Dy Dx Fy Fx Sw Aw ltac:(unfold Re; lra) Iy Ix Cy Cx) as (o & E & Fo & Do).
  assert (Po : pix w y x = o) by (unfold pix; rewrite E; reflexivity). rewrite Po, E. split; [reflexivity|]. split; [exact Fo|].
  assert (N : Rabs (bilinear ys xs (at2 0 w) r c y x - bilinear ys xs (fun a b => e (at2 0 lons a b) (at2 0 lats a b)) r c y x) <= 30 / 1000000000).
  { pose proof Ha as (Uy & Ux & Ly & Lx). pose proof (inside_cell _ _ _ Iy Cy) as By. pose proof (inside_cell _ _ _ Ix Cx) as Bx.
    destruct Cy as (Lr & _), Cx as (Lc & _). pose proof (step_pos ys r Uy Lr) as Sy. pose proof (step_pos xs c Ux Lc) as Sx.
    rewrite !bilinear_weights by assumption. cbv zeta.
    pose proof (weight_range _ _ _ Sy By) as Ty. pose proof (weight_range _ _ _ Sx Bx) as Tx.
    set (t := (y - nth r ys 0) / (nth (S r) ys 0 - nth r ys 0)) in *. set (u := (x - nth c xs 0) / (nth (S c) xs 0 - nth c xs 0)) in *.
    destruct (K r c ltac:(lia) ltac:(lia)) as [-> K1]. destruct (K r (S c) ltac:(lia) ltac:(lia)) as [-> K2].
    destruct (K (S r) c ltac:(lia) ltac:(lia)) as [-> K3]. destruct (K (S r) (S c) ltac:(lia) ltac:(lia)) as [-> K4].
    apply Rabs_le_inv in K1, K2, K3, K4.
    set (d1 := g _ _ - e _ _) in K1. set (d2 := g _ _ - e _ _) in K2. set (d3 := g _ _ - e _ _) in K3. set (d4 := g _ _ - e _ _) in K4.
    match goal with |- Rabs ?v <= _ => replace v with (d1 * ((1 - t) * (1 - u)) + d2 * ((1 - t) * u) + d3 * (t * (1 - u)) + d4 * (t * u)) by (unfold d1, d2, d3, d4; ring) end.
    clearbody d1 d2 d3 d4. set (E0 := 30 / 1000000000) in *.
    assert (W1 : 0 <= (1 - t) * (1 - u)) by (apply Rmult_le_pos; lra). assert (W2 : 0 <= (1 - t) * u) by (apply Rmult_le_pos; lra).
    assert (W3 : 0 <= t * (1 - u)) by (apply Rmult_le_pos; lra). assert (W4 : 0 <= t * u) by (apply Rmult_le_pos; lra).
    assert (WS : (1 - t) * (1 - u) + (1 - t) * u + t * (1 - u) + t * u = 1) by ring.
    assert (Q : forall d w0, 0 <= w0 -> - E0 <= d <= E0 -> - E0 * w0 <= d * w0 <= E0 * w0) by (intros d w0 Hw Hd; split; apply Rmult_le_compat_r; lra).
    pose proof (Q d1 _ W1 K1). pose proof (Q d2 _ W2 K2). pose proof (Q d3 _ W3 K3). pose proof (Q d4 _ W4 K4).
    set (w1 := (1 - t) * (1 - u)) in *. set (w2 := (1 - t) * u) in *. set (w3 := t * (1 - u)) in *. set (w4 := t * u) in *. clearbody w1 w2 w3 w4.
    assert (E0 * (w1 + w2 + w3 + w4) = E0) by (rewrite WS; ring). apply Rabs_le. lra. }
  replace (o - bilinear ys xs (fun a b => e (at2 0 lons a b) (at2 0 lats a b)) r c y x) with
    ((o - bilinear ys xs (at2 0 w) r c y x) + (bilinear ys xs (at2 0 w) r c y x - bilinear ys xs (fun a b => e (at2 0 lons a b) (at2 0 lats a b)) r c y x)) by ring.
  eapply Rle_trans; [apply Rabs_triang|]. assert (P53 : bpow radix2 (-53) <= / 9000000000000000) by (bp; change (2 ^ (- -53))%Z with 9007199254740992%Z; lra).
  assert (0 < Re + 1 <= 6370998) by (unfold Re; lra). pose proof (bpow_ge_0 radix2 (-53)). nra.
Qed.

(** the position lies inside the sphere *)
Lemma place_ball r c y x : inside ys y -> inside xs x -> in_cell ys r y -> in_cell xs c x ->
  let place (p : R -> R -> R) := bilinear ys xs (fun a b => p (at2 0 lons a b) (at2 0 lats a b)) r c y x in
  place geo_x * place geo_x + place geo_y * place geo_y + place geo_z * place geo_z <= Re * Re.
Proof.
  intros Iy Ix Cy Cx place. pose proof Ha as (Uy & Ux & Ly & Lx). pose proof (inside_cell _ _ _ Iy Cy) as By. pose proof (inside_cell _ _ _ Ix Cx) as Bx.
  destruct Cy as (Lr & _), Cx as (Lc & _). pose proof (step_pos ys r Uy Lr) as Sy. pose proof (step_pos xs c Ux Lc) as Sx.
  pose proof (weight_range _ _ _ Sy By) as Ty. pose proof (weight_range _ _ _ Sx Bx) as Tx.
  unfold place. rewrite !bilinear_weights by assumption. cbv zeta.
  set (t := (y - nth r ys 0) / (nth (S r) ys 0 - nth r ys 0)) in *. set (u := (x - nth c xs 0) / (nth (S c) xs 0 - nth c xs 0)) in *. clearbody t u.
  assert (Q : forall a1 a2 a3 a4, (a1 * (1 - t) * (1 - u) + a2 * (1 - t) * u + a3 * t * (1 - u) + a4 * t * u) * (a1 * (1 - t) * (1 - u) + a2 * (1 - t) * u + a3 * t * (1 - u) + a4 * t * u) <=
      a1 * a1 * ((1 - t) * (1 - u)) + a2 * a2 * ((1 - t) * u) + a3 * a3 * (t * (1 - u)) + a4 * a4 * (t * u)).
  { intros a1 a2 a3 a4.
    pose proof (lin_sq (ViiProofs.lin a1 a2 u) (ViiProofs.lin a3 a4 u) t Ty) as L1. pose proof (lin_sq a1 a2 u Tx) as L2. pose proof (lin_sq a3 a4 u Tx) as L3.
    pose proof (lin_le _ _ _ _ t Ty L2 L3) as L4. unfold ViiProofs.lin in *.
    match type of L1 with ?a * ?a <= _ => replace (a1 * (1 - t) * (1 - u) + a2 * (1 - t) * u + a3 * t * (1 - u) + a4 * t * u) with a by ring end.
    eapply Rle_trans; [exact L1|]. eapply Rle_trans; [exact L4|]. apply Req_le. ring. }
  eapply Rle_trans; [apply Rplus_le_compat; [apply Rplus_le_compat; apply Q|apply Q]|]. apply Req_le.
  pose proof (geo_sphere (at2 0 lons r c) (at2 0 lats r c)) as S1. pose proof (geo_sphere (at2 0 lons r (S c)) (at2 0 lats r (S c))) as S2.
  pose proof (geo_sphere (at2 0 lons (S r) c) (at2 0 lats (S r) c)) as S3. pose proof (geo_sphere (at2 0 lons (S r) (S c)) (at2 0 lats (S r) (S c))) as S4.
  set (s1 := Re * Re) in *.
  transitivity (s1 * ((1 - t) * (1 - u)) + s1 * ((1 - t) * u) + s1 * (t * (1 - u)) + s1 * (t * u)); [|ring].
  rewrite <- S1 at 1. rewrite <- S2 at 1. rewrite <- S3 at 1. rewrite <- S4 at 1. ring.
Qed.
End Pixel.

(** Every pixel: its computed position is within 50 nm, in each coordinate, of the bilinear interpolation of the positions of the tie
    points (C91); its longitude and latitude are those of the computed position up to 0.000005 degrees, more than 1 micrometre
    away from the axis of the Earth. *)
Theorem C131_pixels : forall m i ys xs lons lats fy fx,
  in_range b64 pi64 m -> accurate b64 m -> axes ys xs -> spaced ys -> spaced xs -> PropsFloatGrid.doubles ys -> PropsFloatGrid.doubles xs ->
  on_globe lons lats (length ys) (length xs) -> Forall (target ys) fy -> Forall (target xs) fx ->
  exists olon olat, geo_grid64 m i ys xs lons lats fy fx = Ok (olon, olat) /\
    shaped (length fy) (length fx) olon /\ shaped (length fy) (length fx) olat /\
    forall p q r c, (p < length fy)%nat -> (q < length fx)%nat -> in_cell ys r (nth p fy 0) -> in_cell xs c (nth q fx 0) ->
      let place (f : R -> R -> R) := bilinear ys xs (fun a b => f (at2 0 lons a b) (at2 0 lats a b)) r c (nth p fy 0) (nth q fx 0) in
      let ll := (at2 None olon p q, at2 None olat p q) in let d := 50 / 1000000000 in
      exists x y z, Rabs (x - place geo_x) <= d /\ Rabs (y - place geo_y) <= d /\ Rabs (z - place geo_z) <= d /\
        ll = @xyz2lonlat _ (F64 m) (Some x, Some y, Some z) /\
        (/ 1000000 <= Rabs (place geo_x) \/ / 1000000 <= Rabs (place geo_y) -> near_exact 6370997 (8 / 10) (5 / 1000000) x y z ll).
Proof.
  intros m i ys xs lons lats fy fx HR HA Ha Py Px Dy Dx G Ty Tx. rewrite Forall_forall in Ty, Tx. pose proof Ha as (Uy & Ux & Ly & Lx).
  pose proof (fun g e r c y x => pix_near m i ys xs Ha lons lats G Py Px Dy Dx g e r c y x) as N. cbv zeta in N.
  assert (P : forall g e, (forall a b, Rabs a <= 180 -> Rabs b <= 90 -> fl b64 (g a b) /\ Rabs (g a b - e a b) <= 30 / 1000000000 /\ Rabs (e a b) <= Re) ->
    proper m i ys xs (map2d g lons lats) fy fx).
  { intros g e H y x Hy Hx. apply (N g e _ _ y x H (Ty y Hy) (Tx x Hx) (located_in_cell ys y Uy Ly) (located_in_cell xs x Ux Lx)). }
  destruct (pixels_64 m HA i ys xs Ha lons lats G fy fx (P _ _ (cx_ok m HA)) (P _ _ (cy_ok m HA)) (P _ _ (cz_ok m HA))) as (olon & olat & E & S1 & S2 & V).
  exists olon, olat. split; [exact E|]. split; [exact S1|]. split; [exact S2|]. intros p q r c Hp Hq Cy Cx place ll d.
  pose proof (Ty _ (nth_In fy 0 Hp)) as Ty0. pose proof (Tx _ (nth_In fx 0 Hq)) as Tx0.
  destruct (N _ _ r c _ _ (cx_ok m HA) Ty0 Tx0 Cy Cx) as (_ & Fx & X). destruct (N _ _ r c _ _ (cy_ok m HA) Ty0 Tx0 Cy Cx) as (_ & Fy & Y).
  destruct (N _ _ r c _ _ (cz_ok m HA) Ty0 Tx0 Cy Cx) as (_ & Fz & Z).
  eexists. eexists. eexists. split; [exact X|]. split; [exact Y|]. split; [exact Z|].
  pose proof (V p q Hp Hq) as EL. cbv zeta in EL. unfold WX, WY, WZ in EL. split; [exact EL|]. intros AX. unfold ll. rewrite EL.
  apply (proj1 (C72_numpy m _ _ _)); auto.
  pose proof (place_ball ys xs Ha lons lats r c _ _ (proj2 Ty0) (proj2 Tx0) Cy Cx) as Ball.
  change (place geo_x * place geo_x + place geo_y * place geo_y + place geo_z * place geo_z <= Re * Re) in Ball.
  change (Rabs (pix m i ys xs (map2d (cx m) lons lats) (nth p fy 0) (nth q fx 0) - place geo_x) <= d) in X.
  change (Rabs (pix m i ys xs (map2d (cy m) lons lats) (nth p fy 0) (nth q fx 0) - place geo_y) <= d) in Y.
  change (Rabs (pix m i ys xs (map2d (cz m) lons lats) (nth p fy 0) (nth q fx 0) - place geo_z) <= d) in Z.
  set (x := pix m i ys xs (map2d (cx m) lons lats) (nth p fy 0) (nth q fx 0)) in *. set (y := pix m i ys xs (map2d (cy m) lons lats) (nth p fy 0) (nth q fx 0)) in *.
  set (z := pix m i ys xs (map2d (cz m) lons lats) (nth p fy 0) (nth q fx 0)) in *.
  clearbody x y z. set (px := place geo_x) in *. set (py := place geo_y) in *. set (pz := place geo_z) in *. clearbody px py pz.
  split; [exact Fx|]. split; [exact Fy|]. split; [exact Fz|]. split.
  - assert (Q : forall a b, Rabs (a - b) <= d -> a * a <= 11 / 10 * (b * b) + 11 * (d * d)).
    { intros a b H. apply Rabs_le_inv in H. pose proof (Rle_0_sqr ((a - b) - b / 10)) as K. unfold Rsqr in K.
      assert ((a - b) * (a - b) <= d * d) by nra. lra. }
    pose proof (Q _ _ X). pose proof (Q _ _ Y). pose proof (Q _ _ Z). assert (d * d <= 1) by (unfold d; lra). unfold Re in Ball. lra.
  - assert (T : bpow radix2 (-60) <= / 2000000) by (bp; change (2 ^ (- -60))%Z with 1152921504606846976%Z; lra).
    assert (Q : forall a b, Rabs (a - b) <= d -> / 1000000 <= Rabs b -> bpow radix2 (-60) <= Rabs a).
    { intros a b H H2. pose proof (Rabs_triang_inv b a) as K. rewrite Rabs_minus_sym in K. unfold d in H. lra. }
    destruct AX as [AX|AX]; [left|right]; eapply Q; eauto.
Qed.
Print Assumptions C131_pixels.

(** At the tie points their longitudes and latitudes come back, up to 0.000006 degrees; also on the poles and on the antimeridian,
    whatever the distances of the tie points *)
Theorem C131_tie_points : forall m i ys xs lons lats,
  in_range b64 pi64 m -> accurate b64 m -> axes ys xs -> PropsFloatGrid.doubles ys -> PropsFloatGrid.doubles xs -> not_huge ys -> not_huge xs ->
  on_globe lons lats (length ys) (length xs) ->
  exists olon olat, geo_grid64 m i ys xs lons lats ys xs = Ok (olon, olat) /\
    shaped (length ys) (length xs) olon /\ shaped (length ys) (length xs) olat /\
    forall r c, (r < length ys)%nat -> (c < length xs)%nat -> comes_back (6 / 1000000) (at2 0 lons r c) (at2 0 lats r c) (at2 None olon r c, at2 None olat r c).
Proof.
  intros m i ys xs lons lats HR HA Ha Dy Dx Hy Hx G. pose proof G as (S1 & S2 & B).
  assert (N : forall g e, (forall a b, Rabs a <= 180 -> Rabs b <= 90 -> fl b64 (g a b) /\ Rabs (g a b - e a b) <= 30 / 1000000000 /\ Rabs (e a b) <= Re) ->
    forall r c, (r < length ys)%nat -> (c < length xs)%nat ->
      grid64 m i (points_of ys xs) (finite (map2d g lons lats)) tt (Some (nth r ys 0)) (Some (nth c xs 0)) = Some (Some (g (at2 0 lons r c) (at2 0 lats r c)))).
  { intros g e H r c Hr Hc. destruct (wide ys xs lons lats G g e H) as (Sw & Aw & K). destruct (K r c Hr Hc) as [<- _].
    apply C97_tie_points; auto. unfold all2 in *. eapply Forall_impl; [|exact Aw]. intros row F. eapply Forall_impl; [|exact F]. cbv beta. tauto. }
  assert (P : forall g e, (forall a b, Rabs a <= 180 -> Rabs b <= 90 -> fl b64 (g a b) /\ Rabs (g a b - e a b) <= 30 / 1000000000 /\ Rabs (e a b) <= Re) ->
    proper m i ys xs (map2d g lons lats) ys xs).
  { intros g e H y x Iy Ix. apply (In_nth _ _ 0) in Iy as (r & Hr & <-). apply (In_nth _ _ 0) in Ix as (c & Hc & <-). unfold pix. rewrite (N g e H r c Hr Hc). reflexivity. }
  destruct (pixels_64 m HA i ys xs Ha lons lats G ys xs (P _ _ (cx_ok m HA)) (P _ _ (cy_ok m HA)) (P _ _ (cz_ok m HA))) as (olon & olat & E & T1 & T2 & V).
  exists olon, olat. split; [exact E|]. split; [exact T1|]. split; [exact T2|]. intros r c Hr Hc. rewrite (V r c Hr Hc). cbv zeta.
  unfold pix, WX, WY, WZ. rewrite (N _ _ (cx_ok m HA) r c Hr Hc), (N _ _ (cy_ok m HA) r c Hr Hc), (N _ _ (cz_ok m HA) r c Hr Hc).
  destruct (B r c Hr Hc) as [B1 B2]. destruct (computed_corner m HA _ _ B1 B2) as (EC & _). rewrite <- EC. apply (C73_double m (8 / 10) _ _ HR HA B1 B2).
Qed.
Print Assumptions C131_tie_points.

(** The case: 2 x 2 tie points, the two poles and the antimeridian among them; a pixel inside the cell and one on its border *)
Example C131_case : let ys := [0; 8] in let xs := [0; 4] in let lons := [[180; -90]; [0; 90]] in let lats := [[90; 80]; [-90; 70]] in
  axes ys xs /\ spaced ys /\ spaced xs /\ PropsFloatGrid.doubles ys /\ PropsFloatGrid.doubles xs /\ not_huge ys /\ not_huge xs /\
  on_globe lons lats (length ys) (length xs) /\ Forall (target ys) [0; 4] /\ Forall (target xs) [1].
Proof.
  cbv zeta.
  split; [repeat split; try (cbn; lia); intros a b H; destruct a as [|[|a]]; destruct b as [|[|b]]; cbn in *; try lia; lra|].
  split; [intros k H; destruct k; cbn in *; [lra|lia]|]. split; [intros k H; destruct k; cbn in *; [lra|lia]|].
  assert (Z : forall z, (Z.abs z < 2 ^ 53)%Z -> fl b64 (IZR z)) by (intros z H; pose proof (fix_fl z 0 H ltac:(lia)) as K; cbn [Z.opp bpow] in K; now rewrite Rmult_1_r in K).
  assert (Hg : forall z, (0 <= z < 2 ^ 53)%Z -> Rabs (IZR z) <= bpow radix2 1000).
  { intros z H. rewrite Rabs_pos_eq by (apply IZR_le; lia). apply Rle_trans with (bpow radix2 53); [|apply bpow_le; lia].
    rewrite <- (IZR_Zpower radix2 53) by lia. apply IZR_le. cbn. lia. }
  split; [repeat (apply Forall_cons; [apply Z; lia|]); apply Forall_nil|]. split; [repeat (apply Forall_cons; [apply Z; lia|]); apply Forall_nil|].
  split; [repeat (apply Forall_cons; [apply Hg; lia|]); apply Forall_nil|]. split; [repeat (apply Forall_cons; [apply Hg; lia|]); apply Forall_nil|].
  split.
  - split; [split; [reflexivity|repeat constructor]|]. split; [split; [reflexivity|repeat constructor]|].
    intros r c Hr Hc. destruct r as [|[|r]]; [| |cbn in Hr; lia]; (destruct c as [|[|c]]; [| |cbn in Hc; lia]); unfold at2; cbn; split; apply Rabs_le; lra.
  - split; repeat (apply Forall_cons; [split; [apply Z; lia|unfold inside; cbn; lra]|]); apply Forall_nil.
Qed.
