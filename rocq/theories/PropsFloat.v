(** C71: the conversion to longitude and latitude in IEEE arithmetic. *)
From Coq Require Import ZArith Lia Bool Reals Lra.
From Flocq.Core Require Import Core.
From Verif Require Import Base Num Geo Float PiBound FloatGeo.
Open Scope R_scope.

(** ** Specification *)
(** a correctly rounding mathematical library *)
Definition exact_libm : libm := {| m_cos := cos; m_sin := sin; m_acos := acos; m_asin := asin |}.

(** the position is finite, at most 1.118 times the radius [r] from the centre,
    and at least 2^-60 m away from the polar axis *)
Definition position (f : format) (r x y z : R) : Prop :=
  fl f x /\ fl f y /\ fl f z /\ x * x + y * y + z * z <= 5 / 4 * (r * r) /\
  (bpow radix2 (-60) <= Rabs x \/ bpow radix2 (-60) <= Rabs y).

(** longitude and latitude exist, are in range and on the right side of the prime meridian and of the equator *)
Definition valid_lonlat (y z : R) (ll : option R * option R) : Prop :=
  exists lon lat, ll = (Some lon, Some lat) /\
    -180 <= lon <= 180 /\ (0 < y -> 0 <= lon) /\ (y < 0 -> lon <= 0) /\ (y = 0 -> lon = 0) /\
    -90 <= lat <= 90 /\ (0 < z -> 0 <= lat) /\ (z < 0 -> lat <= 0) /\ (z = 0 -> lat = 0).

Lemma rd_PI_64 : rd b64 PI = pi64 /\ rd b64 (PI / 2) = pi64 / 2.
Proof.
  pose proof PI_bounds as P. split.
  - rewrite (rd_eq b64 PI 2 7074237752028440); cbn [fprec femin b64]; [..|lia|].
    + bp. change (2 ^ (- (2 - 53)))%Z with 2251799813685248%Z. unfold pi64. lra.
    + bp. change (2 ^ (2 - 1))%Z with 2%Z. change (2 ^ 2)%Z with 4%Z. lra.
    + bp. change (2 ^ (53 - 2))%Z with 2251799813685248%Z. apply Rabs_def1; lra.
  - rewrite (rd_eq b64 (PI / 2) 1 7074237752028440); cbn [fprec femin b64]; [..|lia|].
    + bp. change (2 ^ (- (1 - 53)))%Z with 4503599627370496%Z. unfold pi64. lra.
    + bp. change (2 ^ (1 - 1))%Z with 1%Z. change (2 ^ 1)%Z with 2%Z. lra.
    + bp. change (2 ^ (53 - 1))%Z with 4503599627370496%Z. apply Rabs_def1; lra.
Qed.
Lemma rd_PI_32 : rd b32 PI = pi32 /\ rd b32 (PI / 2) = pi32 / 2.
Proof.
  pose proof PI_bounds as P. split.
  - rewrite (rd_eq b32 PI 2 13176795); cbn [fprec femin b32]; [..|lia|].
    + bp. change (2 ^ (- (2 - 24)))%Z with 4194304%Z. unfold pi32. lra.
    + bp. change (2 ^ (2 - 1))%Z with 2%Z. change (2 ^ 2)%Z with 4%Z. lra.
    + bp. change (2 ^ (24 - 2))%Z with 4194304%Z. apply Rabs_def1; lra.
  - rewrite (rd_eq b32 (PI / 2) 1 13176795); cbn [fprec femin b32]; [..|lia|].
    + bp. change (2 ^ (- (1 - 24)))%Z with 8388608%Z. unfold pi32. lra.
    + bp. change (2 ^ (1 - 1))%Z with 1%Z. change (2 ^ 1)%Z with 2%Z. lra.
    + bp. change (2 ^ (24 - 1))%Z with 8388608%Z. apply Rabs_def1; lra.
Qed.
Lemma exact_in_range f c : good f -> rd f PI = c -> rd f (PI / 2) = c / 2 -> in_range f c exact_libm.
Proof.
  intros G E1 E2. assert (Z : generic_format radix2 (FLT_exp (femin f) (fprec f)) 0) by apply generic_format_0.
  assert (A2 : forall q, 0 <= q <= 1 -> 0 <= asin q <= PI / 2).
  { intros q Hq. split.
    - destruct (Rle_dec 0 (asin q)) as [|N]; [assumption|exfalso]. pose proof (asin_bound q). pose proof PI_RGT_0.
      pose proof (sin_lt_0_var (asin q) ltac:(lra) ltac:(lra)) as S. rewrite sin_asin in S; lra.
    - apply asin_bound. }
  repeat split; cbn [m_acos m_asin exact_libm].
  - apply rd_ge_gf; auto. apply acos_bound.
  - rewrite <- E2. apply rd_le; auto. rewrite acos_asin by lra. specialize (A2 q H). lra.
  - rewrite <- E2. apply rd_le; auto. rewrite acos_asin by lra. specialize (A2 (- q) ltac:(lra)). rewrite asin_opp in A2. lra.
  - rewrite <- E1. apply rd_le; auto. apply acos_bound.
  - apply rd_ge_gf; auto. apply A2; auto.
  - rewrite <- E2. apply rd_le; auto. apply A2; auto.
Qed.

Lemma gf_larger x : generic_format radix2 (FLT_exp (femin b32) (fprec b32)) x -> generic_format radix2 (FLT_exp (femin b64) (fprec b64)) x.
Proof.
  intros H. apply FLT_format_generic in H; [|now red]. destruct H as [[m e] H1 H2 H3]. cbn [Fnum Fexp] in *.
  apply generic_format_FLT. exists (Float radix2 m e); cbn [Fnum Fexp]; auto.
  - eapply Z.lt_le_trans; [exact H2|]. cbn. lia.
  - cbn in *. lia.
Qed.
Lemma fl_larger x : fl b32 x -> fl b64 x.
Proof.
  intros [A B]. split; [now apply gf_larger|]. eapply Rlt_le_trans; [exact B|]. apply bpow_le. cbn. lia.
Qed.

(** ** C71 *)
Section C71.
Variable m : libm.

Lemma position_sized f r x y z : (24 <= fprec f)%Z -> (femin f + fprec f - 1 <= -120)%Z -> (50 < femax f)%Z ->
  0 <= r <= 7000000 -> position f r x y z -> sized f x y 23 (-60) /\ Rabs z <= bpow radix2 23.
Proof.
  intros H1 H2 H3 Hr (Fx & Fy & Fz & Hb & Ho). 
  assert (S : forall t, t * t <= 5 / 4 * (r * r) -> Rabs t <= bpow radix2 23).
  { intros t Ht. bp. change (2 ^ 23)%Z with 8388608%Z. apply Rabs_le. nra. }
  split; [|apply S; nra]. unfold sized. repeat split; auto; try apply Fx; try apply Fy; try lia; apply S; nra.
Qed.

Lemma numpy_valid f c : good f -> (24 <= fprec f)%Z -> (femin f + fprec f - 1 <= -120)%Z -> (50 < femax f)%Z -> consts f c ->
  in_range f c m -> forall x y z, position f 6370997 x y z ->
  valid_lonlat y z (@xyz2lonlat _ (FN f f c m) (Some x, Some y, Some z)).
Proof.
  intros G P E M C HR x y z Hp. destruct (position_sized f 6370997 x y z P E M ltac:(lra) Hp) as [Hs Hz].
  destruct Hp as (Fx & Fy & Fz & Hb & Ho). unfold xyz2lonlat.
  set (N := FN f f c m).
  assert (ER : @EARTH_RADIUS _ N = Some 6370997) by (unfold EARTH_RADIUS; apply (fit_IZR f 6370997); auto; lia).
  assert (T : exists t, @ndiv _ N (nz 8) (nz 10) = Some t /\ 7 / 10 <= t <= 9 / 10).
  { cbn [ndiv nz N FN]. rewrite (fit_IZR f 8), (fit_IZR f 10) by (auto; lia). cbn [bind2].
    destruct (Req_EM_T 10 0) as [D|_]; [lra|]. exists (rd f (8 / 10)).
    pose proof (rd_near f G P (8 / 10)) as K. rewrite (Rabs_pos_eq (8 / 10)) in K by lra. specialize (K ltac:(lra)).
    apply Rabs_le_inv in K. split; [|lra]. apply fit_rd; auto. rewrite Rabs_pos_eq; lra. }
  destruct T as (t & Et & Bt). rewrite ER. change (@ndiv _ N (@nz _ N 8) (@nz _ N 10)) with (@ndiv _ N (nz 8) (nz 10)). rewrite Et.
  destruct (np_longitude f f c m G P C HR (Some 6370997) (Some t) true x y (Some z) 23 (-60) Hs) as (lon & E1 & L).
  destruct (np_latitude f f c m G P C HR 6370997 t x y z 23 (-60)) as (lat & E2 & O1 & O); auto.
  - apply gfI; auto. lia.
  - lra.
  - bp. change (2 ^ 23)%Z with 8388608%Z. lra.
  - exists lon, lat. split; [|tauto].
    rewrite (surjective_pairing (@xyz2lonlat_at _ N (Some 6370997) (Some t) true (Some x, Some y, Some z))). f_equal; assumption.
Qed.

Lemma cython_valid s : good s -> (24 <= fprec s)%Z ->
  (forall x, generic_format radix2 (FLT_exp (femin s) (fprec s)) x -> generic_format radix2 (FLT_exp (femin b64) (fprec b64)) x) ->
  (forall x, fl s x -> fl b64 x) ->
  in_range b64 pi64 m -> forall x y z, position s 6370997 x y z ->
  valid_lonlat y z (let N := FN b64 s pi64 m in @cy_xyz2lonlat _ N true (nst (ndiv (nz 8) (nz 10))) (Some x, Some y, Some z)).
Proof.
  intros G P L1 L2 HR x y z (Fx & Fy & Fz & Hb & Ho). cbv zeta. set (N := FN b64 s pi64 m).
  assert (Hp : position b64 6370997 x y z) by (repeat split; auto; apply L2; auto).
  destruct (position_sized b64 6370997 x y z) as [Hs Hz]; auto; try (cbn; lia); try lra.
  assert (T : exists t, @nst _ N (ndiv (nz 8) (nz 10)) = Some t /\ 7 / 10 <= t <= 9 / 10 /\
                        generic_format radix2 (FLT_exp (femin b64) (fprec b64)) t).
  { cbn [ndiv nz nst N FN]. rewrite (fit_IZR b64 8), (fit_IZR b64 10) by (auto using good_b64; cbn; lia). cbn [bind2].
    destruct (Req_EM_T 10 0) as [D|_]; [lra|].
    pose proof (rd_near b64 good_b64 ltac:(cbn; lia) (8 / 10)) as K. rewrite (Rabs_pos_eq (8 / 10)) in K by lra. specialize (K ltac:(lra)).
    apply Rabs_le_inv in K. rewrite fit_rd by (auto using good_b64; rewrite Rabs_pos_eq; lra). cbn [bind1].
    set (t := rd b64 (8 / 10)) in *.
    pose proof (rd_near s G P t) as K2. rewrite (Rabs_pos_eq t) in K2 by lra. specialize (K2 ltac:(lra)).
    apply Rabs_le_inv in K2. exists (rd s t). split; [apply fit_rd; auto; rewrite Rabs_pos_eq; lra|]. split; [lra|].
    apply L1. apply rd_gf; auto. }
  destruct T as (t & Et & Bt & Ft). rewrite Et.
  destruct (cy_longitude b64 s pi64 m good_b64 G ltac:(cbn; lia) P consts_64 HR (Some t) true x y (Some z) 23 (-60) Hs) as (lon & E1 & B).
  destruct (cy_latitude b64 s pi64 m good_b64 G ltac:(cbn; lia) P consts_64 HR t x y z 23 (-60)) as (lat & E2 & O1 & O); auto.
  exists lon, lat. split; [|tauto].
  rewrite (surjective_pairing (@cy_xyz2lonlat _ N true (Some t) (Some x, Some y, Some z))). f_equal; assumption.
Qed.

Lemma vii_valid t : in_range b64 pi64 m -> 7 / 10 <= t <= 9 / 10 -> forall x y z, position b64 6371008 x y z ->
  valid_lonlat y z (@vii_xyz2lonlat _ (F64 m) (Some t) (Some x, Some y, Some z)).
Proof.
  intros HR Ht x y z Hp. destruct (position_sized b64 6371008 x y z) as [Hs Hz]; auto; try (cbn; lia); try lra.
  destruct Hp as (Fx & Fy & Fz & Hb & Ho).
  assert (M : exists r, @MEAN_EARTH_RADIUS _ (F64 m) = Some r /\ 6371008 <= r <= 6371009).
  { unfold MEAN_EARTH_RADIUS. cbn [ndiv nz F64 FN]. rewrite (fit_IZR b64 10000) by (auto using good_b64; cbn; lia).
    assert (F : fit b64 (IZR 63710087714) = Some (IZR 63710087714)).
    { apply fit_fl. split; [apply gf_IZR; [apply good_b64|cbn; lia]|].
      rewrite Rabs_pos_eq by lra. eapply Rlt_le_trans; [|apply (bpow_le radix2 40); cbn; lia].
      bp. change (2 ^ 40)%Z with 1099511627776%Z. lra. }
    rewrite F. cbn [bind2]. destruct (Req_EM_T 10000 0) as [D|_]; [lra|].
    assert (L : 6371008 <= rd b64 (63710087714 / 10000)).
    { apply rd_ge_gf; [apply good_b64| |lra]. apply gfI; auto using good_b64; cbn; lia. }
    assert (U : rd b64 (63710087714 / 10000) <= 6371009).
    { apply rd_le_gf; [apply good_b64| |lra]. apply gfI; auto using good_b64; cbn; lia. }
    exists (rd b64 (63710087714 / 10000)). split; [|lra].
    apply (fit_bound b64 (63710087714 / 10000) 6371009); auto using good_b64; try (cbn; lia). rewrite Rabs_pos_eq; lra. }
  destruct M as (r & Er & Br).
  destruct (vii_latitude b64 b64 pi64 m good_b64 ltac:(cbn; lia) consts_64 HR r t x y z 23 (-60)) as (lat & E2 & O1 & O); auto; try lra.
  { unfold near_ball. nra. }
  destruct (np_longitude b64 b64 pi64 m good_b64 ltac:(cbn; lia) consts_64 HR (Some r) (Some t) true x y (Some z) 23 (-60) Hs) as (lon & E1 & B).
  exists lon, lat. split; [|tauto].
  rewrite (surjective_pairing (@vii_xyz2lonlat _ (F64 m) (Some t) (Some x, Some y, Some z))). f_equal; [|assumption].
  unfold xyz2lonlat_at in E1. cbn [fst] in E1. unfold vii_xyz2lonlat. cbn [fst]. exact E1.
Qed.
End C71.

(** geointerpolator.xyz2lonlat on double and on float arrays *)
Theorem C71_numpy : forall m x y z,
  (in_range b64 pi64 m -> position b64 6370997 x y z ->
   valid_lonlat y z (@xyz2lonlat _ (F64 m) (Some x, Some y, Some z))) /\
  (in_range b32 pi32 m -> position b32 6370997 x y z ->
   valid_lonlat y z (@xyz2lonlat _ (F32 m) (Some x, Some y, Some z))).
Proof.
  intros m x y z. split; intros HR Hp.
  - apply numpy_valid; auto using good_b64, consts_64; cbn; lia.
  - apply numpy_valid; auto using good_b32, consts_32; cbn; lia.
Qed.
Print Assumptions C71_numpy.

(** xyz2lonlat of _modis_utils.pyx (computing in double) on double and on float arrays *)
Theorem C71_cython : forall m x y z, in_range b64 pi64 m ->
  (position b64 6370997 x y z ->
   valid_lonlat y z (let N := F64 m in @cy_xyz2lonlat _ N true (nst (ndiv (nz 8) (nz 10))) (Some x, Some y, Some z))) /\
  (position b32 6370997 x y z ->
   valid_lonlat y z (let N := F64_32 m in @cy_xyz2lonlat _ N true (nst (ndiv (nz 8) (nz 10))) (Some x, Some y, Some z))).
Proof.
  intros m x y z HR. split; intros Hp.
  - apply (cython_valid m b64); auto using good_b64; cbn; lia.
  - apply (cython_valid m b32); auto using good_b32, gf_larger, fl_larger; cbn; lia.
Qed.
Print Assumptions C71_cython.

(** _xyz2lonlat of viiinterpolator.py on double arrays *)
Theorem C71_vii : forall m t x y z, in_range b64 pi64 m -> 7 / 10 <= t <= 9 / 10 -> position b64 6371008 x y z ->
  valid_lonlat y z (@vii_xyz2lonlat _ (F64 m) (Some t) (Some x, Some y, Some z)).
Proof. intros. now apply vii_valid. Qed.
Print Assumptions C71_vii.

(** a correctly rounding library meets the premise *)
Theorem C71_exact_libm : in_range b64 pi64 exact_libm /\ in_range b32 pi32 exact_libm.
Proof.
  destruct rd_PI_64, rd_PI_32. split; apply exact_in_range; auto using good_b64, good_b32.
Qed.
Print Assumptions C71_exact_libm.
Example C71_position : position b32 6370997 3185498 (-3185498) 4505176 /\ position b64 6371008 (-6371008) 0 0.
Proof.
  assert (B : forall z, (Z.abs z < 2 ^ 23)%Z -> fl b32 (IZR z)).
  { intros z Hz. split; [apply gfI; auto using good_b32; cbn; lia|]. rewrite <- abs_IZR.
    eapply Rlt_le_trans; [apply IZR_lt, Hz|]. rewrite <- bpow_Z by lia. apply bpow_le. cbn. lia. }
  assert (A : forall z, (1 <= Z.abs z)%Z -> bpow radix2 (-60) <= Rabs (IZR z)).
  { intros z Hz. rewrite <- abs_IZR. apply Rle_trans with 1; [|apply IZR_le, Hz]. apply (bpow_le radix2 (-60) 0). lia. }
  split; unfold position; (split; [|split; [|split; [|split]]]); try lra.
  - apply (B 3185498%Z); lia.
  - apply (B (-3185498)%Z); lia.
  - apply (B 4505176%Z); lia.
  - left. apply (A 3185498%Z). lia.
  - apply fl_larger, (B (-6371008)%Z); lia.
  - apply fl_larger, (B 0%Z); lia.
  - apply fl_larger, (B 0%Z); lia.
  - left. apply (A (-6371008)%Z). lia.
Qed.

(** Why the distance from the axis is needed: squares that underflow leave 0 / 0 or x / 0. *)
Theorem C71_underflow : forall m radius thr low z,
  (forall x y, x * x < bpow radix2 (-150) -> y * y < bpow radix2 (-150) ->
     fst (@xyz2lonlat_at _ (F32 m) radius thr low (Some x, Some y, z)) = None) /\
  (forall x y, x * x < bpow radix2 (-1075) -> y * y < bpow radix2 (-1075) ->
     fst (@xyz2lonlat_at _ (F64 m) radius thr low (Some x, Some y, z)) = None).
Proof.
  intros m radius thr low z.
  assert (K : forall f x, (0 < fprec f)%Z -> 0 <= x < bpow radix2 (femin f - 1) -> rd f x = 0).
  { intros f x Hp Hx. destruct (Req_dec x 0) as [->|N]; [unfold rd; apply round_0; auto with typeclass_instances|].
    unfold rd, round, F2R, scaled_mantissa, cexp. cbn [Fnum Fexp].
    assert (M : (mag radix2 x <= femin f - 1)%Z) by (apply mag_le_bpow; auto; rewrite Rabs_pos_eq; lra).
    replace (FLT_exp (femin f) (fprec f) (mag radix2 x)) with (femin f) by (unfold FLT_exp; lia).
    rewrite (Znearest_imp _ _ 0); [ring|]. rewrite Rminus_0_r, Rabs_mult, (Rabs_pos_eq (bpow radix2 _)) by apply bpow_ge_0.
    rewrite Rabs_pos_eq by lra. apply Rlt_le_trans with (bpow radix2 (femin f - 1) * bpow radix2 (- femin f)).
    - apply Rmult_lt_compat_r; [apply bpow_gt_0|lra].
    - rewrite <- bpow_plus. replace (femin f - 1 + - femin f)%Z with (-1)%Z by lia. cbn. lra. }
  assert (Z : forall f c x y, good f -> rd f (x * x) = 0 -> rd f (y * y) = 0 ->
              fst (@xyz2lonlat_at _ (FN f f c m) radius thr low (Some x, Some y, z)) = None).
  { intros f c x y G Ex Ey. unfold xyz2lonlat_at. cbn [fst].
    assert (B0 : 0 < bpow radix2 (femax f)) by apply bpow_gt_0.
    cbn [nmul nadd nsqrt ndiv nacos FN bind2 bind1].
    assert (Fx : fit f (x * x) = Some 0). { unfold fit. rewrite Ex, Rabs_R0. destruct (Rlt_dec 0 _); [reflexivity|contradiction]. }
    assert (Fy : fit f (y * y) = Some 0). { unfold fit. rewrite Ey, Rabs_R0. destruct (Rlt_dec 0 _); [reflexivity|contradiction]. }
    assert (F0 : fit f 0 = Some 0). { unfold fit. rewrite rd_0, Rabs_R0. destruct (Rlt_dec 0 _); [reflexivity|contradiction]. }
    rewrite Fx, Fy. cbn [bind2]. rewrite Rplus_0_r, F0. cbn [bind1]. destruct (Rlt_dec 0 0) as [L|_]; [lra|].
    rewrite sqrt_0, F0. destruct (Req_EM_T 0 0) as [_|N]; [|contradiction].
    unfold rad2deg. reflexivity. }
  split; intros x y Hx Hy; apply Z; auto using good_b32, good_b64; apply K; cbn; try lia; split; try nra; assumption.
Qed.
Print Assumptions C71_underflow.
Example C71_underflow_case : bpow radix2 (-80) * bpow radix2 (-80) < bpow radix2 (-150) /\ 0 * 0 < bpow radix2 (-1075).
Proof. rewrite <- bpow_plus. split; [apply bpow_lt; lia|]. rewrite Rmult_0_l. apply bpow_gt_0. Qed.
