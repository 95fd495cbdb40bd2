(** C152: VII granules interpolated piece by piece. *)
From Coq Require Import ZArith List Bool Arith Lia Reals Lra.
From Verif Require Import Base Num Geo GeoProofs GeoAgree Vii ViiProofs PropsGeo PropsVii PropsScales PropsSymmetry.
Import ListNotations.
Open Scope R_scope.

(** ** Specification *)
(** [part] holds scans j0, j0 + 1, ... (of s tie rows) of [whole] *)
Definition piece (s j0 : nat) (whole part : darray (option R)) : Prop :=
  ncols part = ncols whole /\ (j0 * s + nrows part <= nrows whole)%nat /\
  forall i k, (i < nrows part)%nat -> (k < ncols part)%nat -> at_ part i k = at_ whole (j0 * s + i)%nat k.

Section Pieces.
Variable nan : option R.
#[local] Existing Instance RN.
Lemma piece_finite s j0 whole part v : piece s j0 whole part -> finite_da whole v -> finite_da part (fun i k => v (j0 * s + i)%nat k).
Proof. intros (H1 & H2 & H3) F i k Hi Hk. rewrite H3 by assumption. apply F; lia. Qed.
Lemma piece_pixel datas datas' s f n m j0 whole part out out' v v' : (j0 + m <= n)%nat -> ncols part = ncols whole ->
  produced nan datas s f n whole out -> produced nan datas' s f m part out' -> finite_da whole v -> finite_da part v' ->
  (forall i k, (i < m * s)%nat -> (k < ncols part)%nat -> v' i k = v (j0 * s + i)%nat k) ->
  forall y x, (y < m * (s - 1) * f)%nat -> (x < (ncols part - 1) * f)%nat -> at_ out' y x = at_ out (j0 * (s - 1) * f + y)%nat x.
Proof.
  intros Hm Hc P P' F F' V y x Hy Hx. destruct (produced_pixels _ _ _ _ _ _ _ P) as (_ & _ & _ & Hf & Hs).
  destruct (split_index y (s - 1) f m ltac:(lia) Hy) as (j & r & a & -> & Hj & Hr & Ha).
  destruct (split_index x 1 f (ncols part - 1) ltac:(lia) ltac:(nia)) as (c & r' & b & -> & Hcc & Hr' & Hb). assert (r' = 0)%nat as -> by lia.
  replace (c * 1 * f + 0 * f + b)%nat with (c * f + b)%nat by lia.
  rewrite (C37_bilinear nan _ _ _ _ _ _ v' j r a c b P' F' Hj Hr Ha Hcc Hb).
  replace (j0 * (s - 1) * f + (j * (s - 1) * f + r * f + a))%nat with ((j0 + j) * (s - 1) * f + r * f + a)%nat by ring.
  rewrite (C37_bilinear nan _ _ _ _ _ _ v (j0 + j) r a c b P F ltac:(lia) Hr Ha ltac:(lia) Hb). cbv zeta.
  assert (B : (j * s + r + 1 < m * s)%nat) by nia.
  rewrite !V by lia. rewrite !Nat.mul_add_distr_r, <- !Nat.add_assoc. reflexivity.
Qed.
End Pieces.

(** tie_points_interpolation *)
Theorem C152_direct_partial : forall nan datas datas' s f n m j0 whole part out out' v,
  produced nan datas s f n whole out -> produced nan datas' s f m part out' -> piece s j0 whole part -> finite_da whole v ->
  forall y x, (y < nrows out')%nat -> (x < ncols out')%nat -> at_ out' y x = at_ out (j0 * (s - 1) * f + y)%nat x.
Proof.
  intros nan datas datas' s f n m j0 whole part out out' v P P' Pc F y x Hy Hx.
  destruct (produced_pixels _ _ _ _ _ _ _ P) as (_ & R1 & _ & _ & Hs). destruct (produced_pixels _ _ _ _ _ _ _ P') as ((_ & M1 & M2 & _) & R2 & _).
  rewrite M1 in Hy. rewrite M2 in Hx. pose proof (piece_finite s j0 whole part v Pc F) as F'. destruct Pc as (C1 & C2 & C3).
  eapply (piece_pixel nan datas datas' s f n m j0 whole part out out' v); eauto. nia.
Qed.
Print Assumptions C152_direct_partial.

(** tie_points_geo_interpolation, where both calls choose the same mode *)
Theorem C152_geo_partial : forall nan lon lat lon' lat' vlon vlat s f n m j0 thr zt,
  finite_da lon vlon -> finite_da lat vlat -> args_ok [lon; lat] s f n -> args_ok [lon'; lat'] s f m ->
  piece s j0 lon lon' -> piece s j0 lat lat' ->
  (safe_lonlat lon vlon vlat thr \/ ~ safe_lonlat lon' (fun i k => vlon (j0 * s + i)%nat k) (fun i k => vlat (j0 * s + i)%nat k) thr) ->
  exists olon olat olon' olat',
    @tie_points_geo_interpolation _ RN nan lon lat s f (Some thr) zt = Ok (olon, olat) /\
    @tie_points_geo_interpolation _ RN nan lon' lat' s f (Some thr) zt = Ok (olon', olat') /\
    nrows olon' = (m * (s - 1) * f)%nat /\ ncols olon' = ((ncols lon - 1) * f)%nat /\
    forall y x, (y < nrows olon')%nat -> (x < ncols olon')%nat ->
      at_ olon' y x = at_ olon (j0 * (s - 1) * f + y)%nat x /\ at_ olat' y x = at_ olat (j0 * (s - 1) * f + y)%nat x.
Proof.
  intros nan lon lat lon' lat' vlon vlat s f n m j0 thr zt F1 F2 A A' P1 P2 H.
  pose proof (piece_finite s j0 lon lon' vlon P1 F1) as F1'. pose proof (piece_finite s j0 lat lat' vlat P2 F2) as F2'. cbv beta in F1', F2'.
  destruct P1 as (C1 & C2 & C3). destruct P2 as (D1 & D2 & D3).
  assert (Dim : forall (a b : darray (option R)) q, args_ok [a; b] s f q -> nrows a = (q * s)%nat /\ ncols b = ncols a /\ nrows b = nrows a /\ (2 <= s)%nat /\ (2 <= ncols a)%nat).
  { intros a b q (first & rest & [= <- <-] & H1 & _ & _ & H4 & H5 & Hd). rewrite Forall_forall in Hd. destruct (Hd b ltac:(right; now left)) as (D & _).
    apply shape_eqb_eq in D as (Da & Db). auto. }
  destruct (Dim _ _ _ A) as (N1 & N2 & N3 & Hs & Hc). destruct (Dim _ _ _ A') as (N1' & N2' & N3' & _).
  assert (Hm : (j0 + m <= n)%nat) by nia.
  assert (Sub : safe_lonlat lon vlon vlat thr -> safe_lonlat lon' (fun i k => vlon (j0 * s + i)%nat k) (fun i k => vlat (j0 * s + i)%nat k) thr).
  { intros (B1 & B2). split; intros; [apply B1|apply B2]; lia. }
  assert (Dec : safe_lonlat lon vlon vlat thr \/ ~ safe_lonlat lon vlon vlat thr).
  { destruct H as [H|H]; [left; exact H|right]. intros B. apply H, Sub, B. }
  destruct Dec as [Sa|Un].
  - destruct (C39_geodetic_when_safe nan lon lat vlon vlat s f n thr zt F1 F2 A Sa) as (olon & olat & E & Q1 & Q2 & _).
    destruct (C39_geodetic_when_safe nan lon' lat' _ _ s f m thr zt F1' F2' A' (Sub Sa)) as (olon' & olat' & E' & Q1' & Q2' & _).
    exists olon, olat, olon', olat'. split; [exact E|]. split; [exact E'|].
    destruct (produced_pixels _ _ _ _ _ _ _ Q1') as ((_ & M1 & M2 & _) & _). rewrite M1, M2, C1. split; [reflexivity|]. split; [reflexivity|]. intros y x Hy Hx.
    split; [eapply (piece_pixel nan _ _ s f n m j0 lon lon'); eauto; now rewrite C1|].
    eapply (piece_pixel nan _ _ s f n m j0 lat lat'); eauto. now rewrite N2', C1.
  - destruct H as [H|H]; [contradiction|].
    destruct (vii_cartesian nan lon lat vlon vlat s f n thr zt F1 F2 A Un) as (olon & olat & E & M1 & M2 & O).
    destruct (vii_cartesian nan lon' lat' _ _ s f m thr zt F1' F2' A' H) as (olon' & olat' & E' & M1' & M2' & O').
    exists olon, olat, olon', olat'. split; [exact E|]. split; [exact E'|]. rewrite M1', M2', C1. split; [reflexivity|]. split; [reflexivity|]. intros y x Hy Hx.
    pose proof A as (_ & _ & _ & _ & Hf & _).
    destruct (split_index y (s - 1) f m ltac:(lia) Hy) as (j & r & a & -> & Hj & Hr & Ha).
    destruct (split_index x 1 f (ncols lon - 1) ltac:(lia) ltac:(nia)) as (c & r' & b & -> & Hcc & Hr' & Hb). assert (r' = 0)%nat as -> by lia.
    replace (c * 1 * f + 0 * f + b)%nat with (c * f + b)%nat by lia.
    replace (j0 * (s - 1) * f + (j * (s - 1) * f + r * f + a))%nat with ((j0 + j) * (s - 1) * f + r * f + a)%nat by ring.
    set (t := INR a / INR f). set (u := INR b / INR f).
    set (W := fun (i : nat) (v : nat -> nat -> R) => (1 - t) * (1 - u) * v i c + (1 - t) * u * v i (c + 1)%nat + t * (1 - u) * v (i + 1)%nat c + t * u * v (i + 1)%nat (c + 1)%nat).
    assert (V' : forall datas data out v, produced nan datas s f m data out -> ncols data = ncols lon' -> finite_da data v -> at_ out (j * (s - 1) * f + r * f + a)%nat (c * f + b)%nat = Some (W (j * s + r)%nat v)).
    { intros datas data out v P Hcd F. exact (C37_bilinear nan datas s f m data out v j r a c b P F Hj Hr Ha ltac:(lia) Hb). }
    assert (V : forall datas data out v, produced nan datas s f n data out -> ncols data = ncols lon -> finite_da data v -> at_ out ((j0 + j) * (s - 1) * f + r * f + a)%nat (c * f + b)%nat = Some (W ((j0 + j) * s + r)%nat v)).
    { intros datas data out v P Hcd F. exact (C37_bilinear nan datas s f n data out v (j0 + j) r a c b P F ltac:(lia) Hr Ha ltac:(lia) Hb). }
    pose proof (O _ _ _ V) as Q. pose proof (O' _ _ _ V') as Q'.
    assert (X : forall g : R -> R -> R, W (j * s + r)%nat (fun i k => g (vlon (j0 * s + i)%nat k) (vlat (j0 * s + i)%nat k)) = W ((j0 + j) * s + r)%nat (fun i k => g (vlon i k) (vlat i k))).
    { intros g. unfold W. rewrite !Nat.mul_add_distr_r, <- !Nat.add_assoc. reflexivity. }
    unfold vx, vy, vz in Q, Q'.
    rewrite (X (fun p q => fst (fst (@vii_lonlat2xyz _ RT p q)))), (X (fun p q => snd (fst (@vii_lonlat2xyz _ RT p q)))), (X (fun p q => snd (@vii_lonlat2xyz _ RT p q))) in Q'.
    rewrite <- Q in Q'. injection Q' as -> ->. auto.
Qed.
Print Assumptions C152_geo_partial.

(** The mode is chosen for a whole call. Two scans at 60 degrees north, the first at the longitudes 10 and -10, the second at 175:
    together they are interpolated in cartesian coordinates, the first alone is not, and its pixel at the longitude 0 has another latitude. *)
Definition two_lon : darray (option R) := {| dims := (0, 1)%nat; nrows := 4; ncols := 2; at_ := fun i k => Some (if (i <? 2)%nat then (if (k =? 0)%nat then 10 else - 10) else 175) |}.
Definition two_lat : darray (option R) := {| dims := (0, 1)%nat; nrows := 4; ncols := 2; at_ := fun i k => Some 60 |}.
Theorem C152_refuted : exists lon lat lon' lat' vlon vlat s f n m j0 thr zt olon olat olon' olat' y x,
  finite_da lon vlon /\ finite_da lat vlat /\ args_ok [lon; lat] s f n /\ args_ok [lon'; lat'] s f m /\ piece s j0 lon lon' /\ piece s j0 lat lat' /\
  @tie_points_geo_interpolation _ RN None lon lat s f (Some thr) zt = Ok (olon, olat) /\
  @tie_points_geo_interpolation _ RN None lon' lat' s f (Some thr) zt = Ok (olon', olat') /\
  (y < nrows olon')%nat /\ (x < ncols olon')%nat /\ at_ olat' y x <> at_ olat (j0 * (s - 1) * f + y)%nat x.
Proof.
  set (vl := fun (i k : nat) => if (i <? 2)%nat then (if (k =? 0)%nat then 10 else - 10) else 175). set (vp := fun (i k : nat) => 60).
  assert (A : args_ok [two_lon; two_lat] 2 2 2) by (exists two_lon, [two_lat]; repeat split; cbn; try lia; repeat constructor).
  assert (A' : args_ok [am_lon 10; am_lat 60] 2 2 1) by (exists (am_lon 10), [am_lat 60]; repeat split; cbn; try lia; repeat constructor).
  assert (F1 : finite_da two_lon vl) by (intros i j _ _; reflexivity). assert (F2 : finite_da two_lat vp) by (intros i j _ _; reflexivity).
  assert (P1 : piece 2 0 two_lon (am_lon 10)).
  { split; [reflexivity|]. split; [cbn; lia|]. intros i k Hi _. cbn in Hi. cbn [at_ two_lon am_lon Nat.mul Nat.add]. destruct (Nat.ltb_spec i 2); [reflexivity|lia]. }
  assert (P2 : piece 2 0 two_lat (am_lat 60)) by (split; [reflexivity|]; split; [cbn; lia|]; reflexivity).
  assert (F1' : finite_da (am_lon 10) (fun i k => if (k =? 0)%nat then 10 else - 10)) by (intros i j _ _; reflexivity).
  assert (F2' : finite_da (am_lat 60) vp) by (intros i j _ _; reflexivity).
  assert (Sa : safe_lonlat (am_lon 10) (fun i k => if (k =? 0)%nat then 10 else - 10) vp 60).
  { split; [intros; unfold vp; rewrite Rabs_pos_eq; lra|]. intros i j k l _ _ _ _. destruct (j =? 0)%nat, (l =? 0)%nat; lra. }
  assert (U : ~ safe_lonlat two_lon vl vp 60).
  { intros [_ B]. specialize (B 2%nat 0%nat 0%nat 1%nat ltac:(cbn; lia) ltac:(cbn; lia) ltac:(cbn; lia) ltac:(cbn; lia)). cbn in B. lra. }
  destruct (C39_geodetic_when_safe None (am_lon 10) (am_lat 60) _ vp 2 2 1 60 (Some (8 / 10)) F1' F2' A' Sa) as (olon' & olat' & E' & Q1 & Q2 & _).
  destruct (vii_cartesian None two_lon two_lat vl vp 2 2 2 60 (Some (8 / 10)) F1 F2 A U) as (olon & olat & E & _ & _ & O).
  exists two_lon, two_lat, (am_lon 10), (am_lat 60), vl, vp, 2%nat, 2%nat, 2%nat, 1%nat, 0%nat, 60, (Some (8 / 10)), olon, olat, olon', olat', 0%nat, 1%nat.
  split; [exact F1|]. split; [exact F2|]. split; [exact A|]. split; [exact A'|]. split; [exact P1|]. split; [exact P2|]. split; [exact E|]. split; [exact E'|].
  destruct (produced_pixels _ _ _ _ _ _ _ Q1) as ((_ & M1 & M2 & _) & _). split; [rewrite M1; cbn; lia|]. split; [rewrite M2; cbn; lia|].
  intros H. cbn [Nat.mul Nat.add] in H.
  set (W := fun v : nat -> nat -> R => (v 0%nat 0%nat + v 0%nat 1%nat) / 2).
  assert (V : forall q datas data out v, (1 <= q)%nat -> produced None datas 2 2 q data out -> ncols data = 2%nat -> finite_da data v -> at_ out 0%nat 1%nat = Some (W v)).
  { intros q datas data out v Hq P C F. pose proof (C37_bilinear None datas 2 2 q data out v 0 0 0 0 1 P F ltac:(lia) ltac:(lia) ltac:(lia) ltac:(rewrite C; lia) ltac:(lia)) as B.
    cbv zeta in B. cbn [Nat.mul Nat.add Nat.sub] in B. rewrite B. f_equal. unfold W. cbn [INR]. field. }
  rewrite (V 1%nat _ _ _ _ ltac:(lia) Q2 eq_refl F2') in H. specialize (O 0%nat 1%nat W (fun d da o v P => V 2%nat d da o v ltac:(lia) P)). apply (f_equal snd) in O. cbn [snd] in O. rewrite <- H in O.
  clear H V Q1 Q2 E E' M1 M2 U Sa F1 F2 F1' F2' A A' P1 P2.
  rewrite vii_agrees, mean_radius_RN in O. unfold W, vx, vy, vz in O. rewrite !vii_place in O. unfold vp, vl in O. cbn [fst snd Nat.eqb Nat.ltb Nat.leb] in O.
  replace (- 10 * (PI / 180)) with (- (10 * (PI / 180))) in O by ring. rewrite cos_neg, sin_neg in O.
  set (r := 63710087714 / 10000) in O. assert (Hr : 0 < r) by (unfold r; lra). replace (60 * (PI / 180)) with (PI / 3) in O by field. rewrite cos_PI3, sin_PI3 in O.
  set (c := cos (10 * (PI / 180))) in O. set (d := sin (10 * (PI / 180))) in O.
  assert (Cb : 0 < c < 1).
  { pose proof PI_RGT_0. unfold c. split; [apply cos_gt_0; lra|]. rewrite <- cos_0. apply cos_decreasing_1; lra. }
  clearbody c d r.
  replace ((r * (1 / 2) * c + r * (1 / 2) * c) / 2) with (r * (c / 2)) in O by field. replace ((r * (1 / 2) * d + r * (1 / 2) * - d) / 2) with 0 in O by field.
  replace ((r * (sqrt 3 / 2) + r * (sqrt 3 / 2)) / 2) with (r * (sqrt 3 / 2)) in O by field.
  assert (S3 : 8 / 10 < sqrt 3 / 2). { assert (1.7 < sqrt 3); [|lra]. rewrite <- (sqrt_square 1.7) by lra. apply sqrt_lt_1; lra. }
  unfold xyz2lonlat_at in O. cbn [snd ndiv nmul nadd RN lift2] in O. rewrite !RNdiv_some in O by lra. rewrite np_abs_RN in O. replace (r * (sqrt 3 / 2) / r) with (sqrt 3 / 2) in O by (field; lra).
  rewrite Rabs_pos_eq in O by lra. cbn [nltb RN liftb] in O. unfold Rltb in O. destruct (Rlt_dec (sqrt 3 / 2) (8 / 10)) as [L|_]; [lra|].
  replace (r * (c / 2) * (r * (c / 2)) + 0 * 0) with ((r * (c / 2)) * (r * (c / 2))) in O by ring. rewrite RNsqrt_some in O by nra. rewrite sqrt_square in O by nra. rewrite RNdiv_some in O by lra.
  replace (r * (c / 2) / r) with (c / 2) in O by (field; lra). rewrite np_sign_RN in O. unfold sgn in O. destruct (Rlt_dec 0 (r * (sqrt 3 / 2))) as [_|L]; [|exfalso; apply L; nra].
  cbn [nasin RN] in O. rewrite RNdom_some in O by lra. rewrite rad2deg_RN in O. cbn [nsub nmul nz RN lift2] in O. injection O as O.
  assert (Q : asin (c / 2) < PI / 6).
  { pose proof PI_RGT_0. rewrite <- (asin_sin (PI / 6)) by lra. rewrite sin_PI6. destruct (Rlt_le_dec (asin (c / 2)) (asin (1 / 2))) as [L|L]; [exact L|exfalso].
    pose proof (asin_bound (c / 2)) as B1. pose proof (asin_bound (1 / 2)) as B2. pose proof (sin_incr_1 (asin (1 / 2)) (asin (c / 2)) ltac:(lra) ltac:(lra) ltac:(lra) ltac:(lra) L) as B3.
    rewrite !sin_asin in B3 by lra. lra. }
  pose proof PI_RGT_0 as PP. assert (asin (c / 2) * (180 / PI) < 30).
  { apply Rlt_le_trans with (PI / 6 * (180 / PI)); [apply Rmult_lt_compat_r; [apply Rdiv_lt_0_compat; lra|exact Q]|]. right. field. lra. }
  lra.
Qed.
Print Assumptions C152_refuted.

(** Two scans, and the second alone *)
Example C152_case : forall nan, exists lon lat lon' lat' olon olat olon' olat', piece 2 1 lon lon' /\ piece 2 1 lat lat' /\
  @tie_points_geo_interpolation _ RN nan lon lat 2 2 (Some 60) (Some (8 / 10)) = Ok (olon, olat) /\
  @tie_points_geo_interpolation _ RN nan lon' lat' 2 2 (Some 60) (Some (8 / 10)) = Ok (olon', olat') /\
  at_ olon' 1%nat 1%nat = at_ olon 3%nat 1%nat /\ at_ olat' 1%nat 1%nat = at_ olat 3%nat 1%nat.
Proof.
  intros nan. set (a := fun i k : nat => (10 * INR k - INR i)%R). set (b := fun i k : nat => (INR i + INR k)%R).
  set (mk := fun n (v : nat -> nat -> R) => {| dims := (0, 1)%nat; nrows := n; ncols := 2; at_ := fun i k => Some (v i k) |} : darray (option R)).
  assert (A : forall n v w, (1 <= n)%nat -> args_ok [mk (n * 2)%nat v; mk (n * 2)%nat w] 2 2 n).
  { intros n v w Hn. exists (mk (n * 2)%nat v), [mk (n * 2)%nat w]. split; [reflexivity|]. split; [lia|]. split; [lia|]. split; [lia|]. split; [reflexivity|]. split; [cbn; lia|].
    repeat constructor; try (apply shape_eqb_eq; auto); apply dims_eqb_eq; reflexivity. }
  assert (F : forall n v, finite_da (mk n v) v) by (intros n v i k _ _; reflexivity).
  assert (P : forall v, piece 2 1 (mk 4%nat v) (mk 2%nat (fun i k => v (2 + i)%nat k))) by (intros v; split; [reflexivity|]; split; [cbn; lia|]; reflexivity).
  assert (S : safe_lonlat (mk 4%nat a) a b 60).
  { assert (B : forall i, (i < 4)%nat -> 0 <= INR i <= 3).
    { intros i Hi. split; [apply pos_INR|]. replace 3 with (INR 3) by (cbn; ring). apply le_INR. lia. }
    assert (D : forall k, (k < 2)%nat -> 0 <= INR k <= 1).
    { intros i Hi. split; [apply pos_INR|]. replace 1 with (INR 1) by reflexivity. apply le_INR. lia. }
    split; cbn [nrows ncols mk].
    - intros i k Hi Hk. specialize (B i Hi). specialize (D k Hk). unfold b. rewrite Rabs_pos_eq; lra.
    - intros i k j l Hi Hk Hj Hl. pose proof (B i ltac:(lia)). pose proof (B j ltac:(lia)). pose proof (D k ltac:(lia)). pose proof (D l ltac:(lia)). unfold a. lra. }
  destruct (C152_geo_partial nan _ _ _ _ a b 2 2 2 1 1 60 (Some (8 / 10)) (F 4%nat a) (F 4%nat b) (A 2%nat a b ltac:(lia)) (A 1%nat _ _ ltac:(lia)) (P a) (P b) (or_introl S))
    as (o1 & o2 & o3 & o4 & E & E' & M1 & M2 & Q).
  exists (mk 4%nat a), (mk 4%nat b), (mk 2%nat (fun i k => a (2 + i)%nat k)), (mk 2%nat (fun i k => b (2 + i)%nat k)), o1, o2, o3, o4. split; [exact (P a)|]. split; [exact (P b)|]. split; [exact E|]. split; [exact E'|].
  apply (Q 1%nat 1%nat); [rewrite M1|rewrite M2]; cbn; lia.
Qed.
