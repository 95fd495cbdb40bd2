(** C15 - C21: conversions between longitude/latitude and cartesian coordinates. *)
From Coq Require Import ZArith List Lia Bool Reals Lra.
From Verif Require Import Spec Base Num Geo GeoProofs GeoAgree.
Import ListNotations.
Open Scope R_scope.

(** ** Specification *)
(** the point (x, y, z) exists and lies on the sphere *)
Definition on_sphere (radius : R) (p : option R * option R * option R) : Prop :=
  exists x y z, p = (Some x, Some y, Some z) /\ x * x + y * y + z * z = radius * radius.
(** the angle [lon] (degrees) is the direction from the polar axis to (x, y) *)
Definition points_to (lon x y : R) : Prop :=
  let r := sqrt (x * x + y * y) in
  x = r * cos (lon * (PI / 180)) /\ y = r * sin (lon * (PI / 180)).

(** C15 *)
Theorem C15_sphere : forall radius lon lat,
  on_sphere radius (@lonlat2xyz_at _ RN (Some radius) (Some lon) (Some lat)).
Proof.
  intros. rewrite lonlat2xyz_RN. pose proof (sphere_norm radius lon lat) as H.
  destruct (@lonlat2xyz_at _ RT radius lon lat) as [[x y] z]. exists x, y, z. auto.
Qed.
Print Assumptions C15_sphere.
Theorem C15_sphere_cython : forall lon lat,
  on_sphere 6370997 (@cy_lonlat2xyz _ RN (Some lon) (Some lat)).
Proof. intros. exact (C15_sphere 6370997 lon lat). Qed.
Print Assumptions C15_sphere_cython.
Theorem C15_sphere_vii : forall lon lat,
  on_sphere (63710087714 / 10000) (@vii_lonlat2xyz _ RN (Some lon) (Some lat)).
Proof. intros. unfold vii_lonlat2xyz. rewrite mean_radius_RN. exact (C15_sphere _ lon lat). Qed.
Print Assumptions C15_sphere_vii.
Example C15_case : @lonlat2xyz_at _ RN (Some 2) (Some 90) (Some 0) = (Some 0, Some 2, Some 0).
Proof.
  rewrite lonlat2xyz_RN. cbn [lonlat2xyz_at nmul ncos nsin RT]. unfold deg2rad. cbn [nmul ndiv npi nz RT].
  replace (90 * (PI / 180)) with (PI / 2) by field. replace (0 * (PI / 180)) with 0 by field.
  rewrite cos_PI2, sin_PI2, cos_0, sin_0. f_equal; [f_equal|]; f_equal; ring.
Qed.

(** C16 *)
Theorem C16_round_trip : forall radius thr low lon lat,
  0 < radius -> -180 < lon < 180 -> -90 < lat < 90 ->
  @xyz2lonlat_at _ RN (Some radius) (Some thr) low
     (@lonlat2xyz_at _ RN (Some radius) (Some lon) (Some lat)) = (Some lon, Some lat).
Proof. exact round_trip. Qed.
Print Assumptions C16_round_trip.
Example C16_nonvacuous : 0 < 6370997 /\ -180 < -179.9 < 180 /\ -90 < 89.9 < 90.
Proof. lra. Qed.

(** C17 *)
Theorem C17_normalise : forall radius thr low lon lat,
  0 < radius -> -90 < lat < 90 -> (forall k, lon <> 180 + 360 * IZR k) ->
  exists lon0 k, lon = lon0 + 360 * IZR k /\ -180 < lon0 < 180 /\
    @xyz2lonlat_at _ RN (Some radius) (Some thr) low
      (@lonlat2xyz_at _ RN (Some radius) (Some lon) (Some lat)) = (Some lon0, Some lat).
Proof.
  intros radius thr low lon lat HR Hlat Hne. destruct (lon_representative lon) as (lon0 & k & E & B).
  assert (lon0 <> -180).
  { intros ->. apply (Hne (k - 1)%Z). rewrite minus_IZR. lra. }
  exists lon0, k. split; [exact E|]. split; [lra|]. rewrite E. apply round_trip_normalise; auto; lra.
Qed.
Print Assumptions C17_normalise.
Example C17_nonvacuous : forall k, 190 <> 180 + 360 * IZR k.
Proof.
  intros k H. assert (E : IZR 10 = IZR (360 * k)) by (rewrite mult_IZR; lra). apply eq_IZR in E. lia.
Qed.

(** C18. The full statement would read: for every point off the axis
      exists lon, fst (xyz2lonlat p) = Some lon /\ -180 <= lon <= 180 /\ points_to lon x y.
    It is false where y = 0 and x < 0; it is proved for all other points, for the three versions. *)
Theorem C18_direction_partial : forall radius thr low x y z,
  x * x + y * y <> 0 -> ~ (y = 0 /\ x < 0) ->
  exists lon, -180 <= lon <= 180 /\ points_to lon x y /\
    fst (@xyz2lonlat_at _ RN radius thr low (Some x, Some y, z)) = Some lon /\
    fst (@cy_xyz2lonlat _ RN low thr (Some x, Some y, z)) = Some lon /\
    fst (@vii_xyz2lonlat _ RN thr (Some x, Some y, z)) = Some lon.
Proof.
  intros radius thr low x y z H Hd. exists (rlon x y). split; [apply rlon_bound|]. split.
  { destruct (rlon_direction x y H) as [A B].
    - destruct (Req_EM_T y 0) as [->|Hy]; [right|now left].
      destruct (Rtotal_order x 0) as [C|[C|C]]; [exfalso; auto|exfalso; apply H; subst; ring|exact C].
    - unfold points_to. fold (rho x y). split; symmetry; assumption. }
  split; [now apply np_lon|]. split; [now apply cy_lon|now apply vii_lon].
Qed.
Print Assumptions C18_direction_partial.
(** on the antimeridian half-plane the longitude is 0 instead of 180, whatever the other arguments *)
Theorem C18_antimeridian_refuted : forall radius thr low z,
  exists x y, x * x + y * y <> 0 /\
    (forall lon, fst (@xyz2lonlat_at _ RN radius thr low (Some x, Some y, z)) = Some lon -> ~ points_to lon x y) /\
    (forall lon, fst (@cy_xyz2lonlat _ RN low thr (Some x, Some y, z)) = Some lon -> ~ points_to lon x y) /\
    (forall lon, fst (@vii_xyz2lonlat _ RN thr (Some x, Some y, z)) = Some lon -> ~ points_to lon x y).
Proof.
  intros radius thr low z. exists (-1), 0. assert (H : -1 * -1 + 0 * 0 <> 0) by lra.
  assert (G : forall lon, Some (rlon (-1) 0) = Some lon -> ~ points_to lon (-1) 0).
  { intros lon E. injection E as <-. rewrite rlon_antimeridian by lra. unfold points_to. intros [A _].
    rewrite (Rmult_0_l (PI / 180)), cos_0 in A. pose proof (sqrt_pos (-1 * -1 + 0 * 0)). lra. }
  split; [exact H|]. rewrite np_lon, cy_lon, vii_lon by exact H. auto.
Qed.
Print Assumptions C18_antimeridian_refuted.
(** the longitude returned for every point of that half-plane *)
Theorem C18_antimeridian_value : forall radius thr low x z, x < 0 ->
  fst (@xyz2lonlat_at _ RN radius thr low (Some x, Some 0, z)) = Some 0 /\
  fst (@cy_xyz2lonlat _ RN low thr (Some x, Some 0, z)) = Some 0 /\
  fst (@vii_xyz2lonlat _ RN thr (Some x, Some 0, z)) = Some 0.
Proof.
  intros radius thr low x z Hx. assert (H : x * x + 0 * 0 <> 0) by nra.
  rewrite np_lon, cy_lon, vii_lon, rlon_antimeridian by assumption. auto.
Qed.
Print Assumptions C18_antimeridian_value.
Example C18_nonvacuous : 3 * 3 + -4 * -4 <> 0 /\ ~ (-4 = 0 /\ 3 < 0).
Proof. lra. Qed.

(** C19. [geocentric x y z] is the angle (degrees) between the point and the equator plane. *)
Theorem C19_latitude : forall radius thr low x y z,
  0 < radius -> x * x + y * y <> 0 -> x * x + y * y + z * z <= radius * radius ->
  exists lat, snd (@xyz2lonlat_at _ RN (Some radius) (Some thr) low (Some x, Some y, Some z)) = Some lat /\
    -90 <= lat <= 90 /\ (0 < z <-> 0 < lat) /\ (z < 0 <-> lat < 0) /\
    (low = true /\ Rabs (z / radius) < thr -> Rabs lat <= Rabs (geocentric x y z)) /\
    (low = false \/ thr <= Rabs (z / radius) -> Rabs (geocentric x y z) <= Rabs lat) /\
    (x * x + y * y + z * z = radius * radius -> lat = geocentric x y z).
Proof.
  intros radius thr low x y z HR Hxy Hb. rewrite xyz2lonlat_RN by assumption. cbn [snd].
  pose proof (latitude_below radius x y z HR Hxy Hb) as (B1 & B2 & B3 & B4 & B5).
  pose proof (latitude_above radius x y z HR Hxy Hb) as (A1 & A2 & A3 & A4 & A5).
  destruct low; [destruct (Rlt_dec (Rabs (z / radius)) thr) as [L|L]|]; cbn [andb]; eexists; (split; [reflexivity|]).
  - repeat (split; [assumption|]). split; [auto|]. split; [intros [D|D]; [discriminate|lra]|assumption].
  - repeat (split; [assumption|]). split; [intros [_ D]; lra|]. split; auto.
  - repeat (split; [assumption|]). split; [intros [D _]; discriminate|]. split; auto.
Qed.
Print Assumptions C19_latitude.
Example C19_nonvacuous : 0 < 10 /\ 3 * 3 + 4 * 4 <> 0 /\ 3 * 3 + 4 * 4 + 5 * 5 <= 10 * 10.
Proof. lra. Qed.
(** the definition of [geocentric], in view *)
Example geocentric_def : forall x y z,
  geocentric x y z = asin (z / sqrt (x * x + y * y + z * z)) * (180 / PI).
Proof. reflexivity. Qed.

(** C20: equality on all inputs, finite or missing ([None]) *)
Theorem C20_lonlat2xyz : forall lon lat,
  @cy_lonlat2xyz _ RN lon lat = @lonlat2xyz_at _ RN (@EARTH_RADIUS _ RN) lon lat /\
  @vii_lonlat2xyz _ RN lon lat = @lonlat2xyz_at _ RN (@MEAN_EARTH_RADIUS _ RN) lon lat.
Proof. intros. split; reflexivity. Qed.
Print Assumptions C20_lonlat2xyz.
Theorem C20_vii : forall thr p,
  @vii_xyz2lonlat _ RN thr p = @xyz2lonlat_at _ RN (@MEAN_EARTH_RADIUS _ RN) thr true p.
Proof. exact vii_agrees. Qed.
Print Assumptions C20_vii.
(** The full statement has [z] instead of [Some z]; that is false, see [C20_missing_refuted]. *)
Theorem C20_cython_partial : forall low thr x y z,
  @cy_xyz2lonlat _ RN low thr (x, y, Some z) = @xyz2lonlat_at _ RN (@EARTH_RADIUS _ RN) thr low (x, y, Some z).
Proof. exact cy_agrees. Qed.
Print Assumptions C20_cython_partial.
Theorem C20_missing_refuted : exists low thr p,
  @cy_xyz2lonlat _ RN low thr p <> @xyz2lonlat_at _ RN (@EARTH_RADIUS _ RN) thr low p.
Proof.
  exists true, (Some 0.8), (Some 1, Some 1, None). intros E.
  destruct (cy_missing_z true (Some 0.8) 1 1) as [A B]; [lra|]. rewrite E, B in A. discriminate.
Qed.
Print Assumptions C20_missing_refuted.
(** a point whose z alone is missing: latitude 0 from the Cython version, not a number from numpy's *)
Theorem C20_missing_z : forall low thr x y, x * x + y * y <= 6370997 * 6370997 ->
  snd (@cy_xyz2lonlat _ RN low thr (Some x, Some y, None)) = Some 0 /\
  snd (@xyz2lonlat_at _ RN (@EARTH_RADIUS _ RN) thr low (Some x, Some y, None)) = None.
Proof. exact cy_missing_z. Qed.
Print Assumptions C20_missing_z.
Example C20_nonvacuous : 3 * 3 + 4 * 4 <= 6370997 * 6370997.
Proof. lra. Qed.

(** C21 *)
Theorem C21_one_object : forall M (conv : M -> M -> M * M * M) xyz, to_xyz conv [SwathArg xyz] = Ok xyz.
Proof. reflexivity. Qed.
Theorem C21_two_arrays : forall M (conv : M -> M -> M * M * M) lon lat,
  to_xyz conv [ArrayArg lon; ArrayArg lat] = Ok (conv lon lat).
Proof. reflexivity. Qed.
Theorem C21_other_number : forall M (conv : M -> M -> M * M * M) data,
  length data <> 1%nat -> length data <> 2%nat -> to_xyz conv data = Err ValueError.
Proof.
  intros M conv data H1 H2. destruct data as [|a [|b [|c data]]]; cbn in *; try lia; try reflexivity.
  destruct a, b; reflexivity.
Qed.
(** nothing else is accepted *)
Theorem C21_accepts_only : forall M (conv : M -> M -> M * M * M) data xyz, to_xyz conv data = Ok xyz ->
  data = [SwathArg xyz] \/ exists lon lat, data = [ArrayArg lon; ArrayArg lat] /\ xyz = conv lon lat.
Proof.
  intros M conv data xyz H. destruct data as [|[a|a] [|[b|b] [|c data]]]; cbn in H; try discriminate;
    injection H as <-; eauto.
Qed.
Print Assumptions C21_accepts_only.
Example C21_case : to_xyz (fun a b => (a, b, a + b)%Z) [ArrayArg 1%Z; ArrayArg 2%Z; ArrayArg 3%Z] = Err ValueError.
Proof. reflexivity. Qed.
