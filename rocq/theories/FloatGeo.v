(** The conversions between longitude/latitude and cartesian coordinates in IEEE arithmetic. *)
From Coq Require Import ZArith Lia Bool Reals Lra.
From Flocq.Core Require Import Core.
From Verif Require Import Base Num Geo Float PiBound.
Open Scope R_scope.

(** ** Specification of the mathematical library *)
(** results of acos and asin do not leave the range of the format's value [c] of pi *)
Definition in_range (f : format) (c : R) (m : libm) : Prop :=
  (forall q, 0 <= q <= 1 -> 0 <= rd f (m_acos m q) <= c / 2) /\
  (forall q, -1 <= q <= 0 -> c / 2 <= rd f (m_acos m q) <= c) /\
  (forall q, 0 <= q <= 1 -> 0 <= rd f (m_asin m q) <= c / 2).

(** what is needed of the constant pi *)
Definition consts (f : format) (c : R) : Prop :=
  0 < c <= 4 /\ exists r2d, 0 < r2d <= 64 /\ fit f (180 / c) = Some r2d /\ rd f (c * r2d) = 180 /\ rd f (c / 2 * r2d) = 90.

Lemma bpow_Z e : (0 <= e)%Z -> bpow radix2 e = IZR (2 ^ e).
Proof. intros H. destruct e; [reflexivity|reflexivity|lia]. Qed.
Lemma bpow_Zn e : (e < 0)%Z -> bpow radix2 e = / IZR (2 ^ (- e)).
Proof. intros H. destruct e; [lia|lia|reflexivity]. Qed.
Ltac bp := repeat first [rewrite bpow_Z by lia | rewrite bpow_Zn by lia].

Lemma consts_64 : consts b64 pi64.
Proof.
  unfold consts, pi64. split; [lra|].
  assert (E : rd b64 (180 / (884279719003555 / 281474976710656)) = IZR 8063664102031864 * bpow radix2 (6 - 53)).
  { apply (rd_eq b64); cbn [fprec femin b64]; [..|lia|]; bp.
    - change (2 ^ (6 - 1))%Z with 32%Z. change (2 ^ 6)%Z with 64%Z. lra.
    - change (2 ^ (53 - 6))%Z with 140737488355328%Z. apply Rabs_def1; lra. }
  exists (IZR 8063664102031864 * bpow radix2 (6 - 53)).
  assert (E2 : rd b64 (884279719003555 / 281474976710656 * (IZR 8063664102031864 * bpow radix2 (6 - 53)))
               = IZR 6333186975989760 * bpow radix2 (8 - 53)).
  { apply (rd_eq b64); cbn [fprec femin b64]; [..|lia|]; bp.
    - change (2 ^ (8 - 1))%Z with 128%Z. change (2 ^ 8)%Z with 256%Z. change (2 ^ (- (6 - 53)))%Z with 140737488355328%Z. lra.
    - change (2 ^ (53 - 8))%Z with 35184372088832%Z. change (2 ^ (- (6 - 53)))%Z with 140737488355328%Z. apply Rabs_def1; lra. }
  assert (E3 : rd b64 (884279719003555 / 281474976710656 / 2 * (IZR 8063664102031864 * bpow radix2 (6 - 53)))
               = IZR 6333186975989760 * bpow radix2 (7 - 53)).
  { apply (rd_eq b64); cbn [fprec femin b64]; [..|lia|]; bp.
    - change (2 ^ (7 - 1))%Z with 64%Z. change (2 ^ 7)%Z with 128%Z. change (2 ^ (- (6 - 53)))%Z with 140737488355328%Z. lra.
    - change (2 ^ (53 - 7))%Z with 70368744177664%Z. change (2 ^ (- (6 - 53)))%Z with 140737488355328%Z. apply Rabs_def1; lra. }
  rewrite E2, E3. rewrite (fit_some b64 good_b64 _ 6), E.
  - split; [|split; [reflexivity|]]; bp.
    + change (2 ^ (- (6 - 53)))%Z with 140737488355328%Z. lra.
    + change (2 ^ (- (8 - 53)))%Z with 35184372088832%Z. change (2 ^ (- (7 - 53)))%Z with 70368744177664%Z. lra.
  - cbn; lia.
  - bp. change (2 ^ 6)%Z with 64%Z. rewrite Rabs_pos_eq; lra.
Qed.
Lemma consts_32 : consts b32 pi32.
Proof.
  unfold consts, pi32. split; [lra|].
  assert (E : rd b32 (180 / (13176795 / 4194304)) = IZR 15019744 * bpow radix2 (6 - 24)).
  { apply (rd_eq b32); cbn [fprec femin b32]; [..|lia|]; bp.
    - change (2 ^ (6 - 1))%Z with 32%Z. change (2 ^ 6)%Z with 64%Z. lra.
    - change (2 ^ (24 - 6))%Z with 262144%Z. apply Rabs_def1; lra. }
  exists (IZR 15019744 * bpow radix2 (6 - 24)).
  assert (E2 : rd b32 (13176795 / 4194304 * (IZR 15019744 * bpow radix2 (6 - 24))) = IZR 11796480 * bpow radix2 (8 - 24)).
  { apply (rd_eq b32); cbn [fprec femin b32]; [..|lia|]; bp.
    - change (2 ^ (8 - 1))%Z with 128%Z. change (2 ^ 8)%Z with 256%Z. change (2 ^ (- (6 - 24)))%Z with 262144%Z. lra.
    - change (2 ^ (24 - 8))%Z with 65536%Z. change (2 ^ (- (6 - 24)))%Z with 262144%Z. apply Rabs_def1; lra. }
  assert (E3 : rd b32 (13176795 / 4194304 / 2 * (IZR 15019744 * bpow radix2 (6 - 24))) = IZR 11796480 * bpow radix2 (7 - 24)).
  { apply (rd_eq b32); cbn [fprec femin b32]; [..|lia|]; bp.
    - change (2 ^ (7 - 1))%Z with 64%Z. change (2 ^ 7)%Z with 128%Z. change (2 ^ (- (6 - 24)))%Z with 262144%Z. lra.
    - change (2 ^ (24 - 7))%Z with 131072%Z. change (2 ^ (- (6 - 24)))%Z with 262144%Z. apply Rabs_def1; lra. }
  rewrite E2, E3. rewrite (fit_some b32 good_b32 _ 6), E.
  - split; [|split; [reflexivity|]]; bp.
    + change (2 ^ (- (6 - 24)))%Z with 262144%Z. lra.
    + change (2 ^ (- (8 - 24)))%Z with 65536%Z. change (2 ^ (- (7 - 24)))%Z with 131072%Z. lra.
  - cbn; lia.
  - bp. change (2 ^ 6)%Z with 64%Z. rewrite Rabs_pos_eq; lra.
Qed.

(** ** Longitude and latitude are finite and in range *)
Section Finite.
Variables (f s : format) (c : R) (m : libm).
Hypothesis Gf : good f.
Hypothesis Gs : good s.
Hypothesis P8 : (24 <= fprec f)%Z.
Hypothesis S8 : (24 <= fprec s)%Z.
Hypothesis Hc : consts f c.
Hypothesis Hr : in_range f c m.
#[local] Instance FI : NumOps (option R) := FN f s c m.

Lemma fit_IZR g z : good g -> (24 <= fprec g)%Z -> (Z.abs z < 2 ^ 24)%Z -> fit g (IZR z) = Some (IZR z).
Proof.
  intros H H8 Hz. apply fit_fl; auto. destruct H as (A & B & C). split.
  - apply gf_IZR; [repeat split; auto|]. eapply Z.lt_le_trans; [exact Hz|]. apply Z.pow_le_mono_r; lia.
  - rewrite <- abs_IZR. eapply Rlt_le_trans; [apply IZR_lt, Hz|]. rewrite <- bpow_Z by lia. apply bpow_le. lia.
Qed.
Lemma gfI g z : good g -> (24 <= fprec g)%Z -> (Z.abs z < 2 ^ 24)%Z -> generic_format radix2 (FLT_exp (femin g) (fprec g)) (IZR z).
Proof.
  intros H H8 Hz. apply gf_IZR; auto. eapply Z.lt_le_trans; [exact Hz|]. apply Z.pow_le_mono_r; lia.
Qed.
(** a value bounded by an integer stays so when rounded *)
Lemma fit_bound g x z : good g -> (24 <= fprec g)%Z -> (0 < z < 2 ^ 24)%Z -> Rabs x <= IZR z ->
  fit g x = Some (rd g x) /\ Rabs (rd g x) <= IZR z.
Proof.
  intros H H8 Hz Hx. assert (B : Rabs (rd g x) <= IZR z).
  { rewrite rd_abs by assumption. apply rd_le_gf; auto. apply gfI; auto. lia. }
  split; [|exact B]. unfold fit. destruct (Rlt_dec _ _) as [D|D]; [reflexivity|]. exfalso. apply D.
  eapply Rle_lt_trans; [exact B|]. destruct H as (A1 & A2 & A3).
  eapply Rlt_le_trans; [apply IZR_lt, (proj2 Hz)|]. rewrite <- bpow_Z by lia. apply bpow_le. lia.
Qed.

(** the angle given by acos or asin, in degrees *)
Lemma degrees_range a b : 0 <= a -> a <= c -> rd f (c * b) = 180 -> 0 < b -> b <= 64 ->
  fit f (a * b) = Some (rd f (a * b)) /\ 0 <= rd f (a * b) <= 180.
Proof.
  intros Ha Hac H Hb Hb2. destruct Hc as ((C1 & C2) & _).
  assert (A : 0 <= rd f (a * b)). { apply rd_ge_gf; auto. apply generic_format_0. nra. }
  assert (B : rd f (a * b) <= 180). { rewrite <- H. apply rd_le; auto. apply Rmult_le_compat_r; lra. }
  split; [|auto]. apply (fit_bound f (a * b) 256); auto. 1: lia. rewrite Rabs_pos_eq by nra. nra.
Qed.

Lemma fit_rd g x : good g -> Rabs (rd g x) <= 4 -> fit g x = Some (rd g x).
Proof.
  intros (A1 & A2 & A3) H. unfold fit. destruct (Rlt_dec _ _) as [D|D]; [reflexivity|]. exfalso. apply D.
  eapply Rle_lt_trans; [exact H|]. change 4 with (IZR (2 ^ 2)). rewrite <- bpow_Z by lia. apply bpow_lt. lia.
Qed.
Lemma r2d_const : exists b, 0 < b <= 64 /\ rd f (c * b) = 180 /\ rd f (c / 2 * b) = 90 /\
  forall a, rad2deg (Some a) = fit f (a * b).
Proof.
  destruct Hc as ((C1 & C2) & b & Hb & Eb & H180 & H90). exists b. repeat split; auto; try apply Hb.
  intros a. unfold rad2deg. cbn [nmul ndiv nz npi FI FN bind2].
  rewrite (fit_IZR f 180) by (auto; lia). cbn [bind2]. destruct (Req_EM_T c 0) as [E|_]; [lra|]. now rewrite Eb.
Qed.
Lemma acos_degrees q : Rabs q <= 1 ->
  exists d, rad2deg (nacos (Some q)) = Some d /\ 0 <= d <= 180 /\ (0 <= q -> d <= 90) /\ (q <= 0 -> 90 <= d).
Proof.
  intros Hq. pose proof Hq as Hq'. apply Rabs_le_inv in Hq'. destruct Hr as (H1 & H2 & _).
  destruct Hc as ((C1 & C2) & _). destruct r2d_const as (b & (Hb1 & Hb2) & H180 & H90 & E).
  assert (B : 0 <= rd f (m_acos m q) <= c).
  { destruct (Rle_dec 0 q); [specialize (H1 q ltac:(lra)); lra|specialize (H2 q ltac:(lra)); lra]. }
  cbn [nacos FI FN bind1]. destruct (Rle_dec (Rabs q) 1) as [_|N]; [|contradiction].
  rewrite fit_rd by (auto; rewrite Rabs_pos_eq; lra). rewrite E.
  destruct (degrees_range (rd f (m_acos m q)) b) as [Ed Bd]; try lra. rewrite Ed. eexists. split; [reflexivity|].
  split; [exact Bd|]. split; intros Q; rewrite <- H90; apply rd_le; auto; apply Rmult_le_compat_r; try lra.
  - specialize (H1 q ltac:(lra)). lra.
  - specialize (H2 q ltac:(lra)). lra.
Qed.
Lemma asin_degrees q : 0 <= q <= 1 -> exists d, rad2deg (nasin (Some q)) = Some d /\ 0 <= d <= 90.
Proof.
  intros Hq. destruct Hr as (_ & _ & H1). specialize (H1 q Hq).
  destruct Hc as ((C1 & C2) & _). destruct r2d_const as (b & (Hb1 & Hb2) & H180 & H90 & E).
  cbn [nasin FI FN bind1]. destruct (Rle_dec (Rabs q) 1) as [_|N]; [|exfalso; apply N; rewrite Rabs_pos_eq; lra].
  rewrite fit_rd by (auto; rewrite Rabs_pos_eq; lra). rewrite E.
  destruct (degrees_range (rd f (m_asin m q)) b) as [Ed Bd]; try lra. rewrite Ed. eexists. split; [reflexivity|].
  split; [lra|]. rewrite <- H90. apply rd_le; auto. apply Rmult_le_compat_r; lra.
Qed.

(** positions: not too large to be squared, not so small that squares underflow; [k] and [e0] are exponents *)
Definition sized (x y : R) (k e0 : Z) : Prop :=
  fl f x /\ fl f y /\ Rabs x <= bpow radix2 k /\ Rabs y <= bpow radix2 k /\
  (bpow radix2 e0 <= Rabs x \/ bpow radix2 e0 <= Rabs y) /\
  (0 <= k)%Z /\ (2 * k + 2 < femax f)%Z /\ (femin f + fprec f - 1 <= 2 * e0)%Z.

Lemma norm_eq x y k e0 : sized x y k e0 ->
  nsqrt (nadd (nmul (Some x) (Some x)) (nmul (Some y) (Some y))) = Some (norm2 f x y) /\
  Rabs x <= norm2 f x y /\ Rabs y <= norm2 f x y /\ 0 < norm2 f x y.
Proof.
  intros (Fx & Fy & Bx & By & Ho & Hk0 & Hk & He). destruct Gf as (G1 & G2 & G3).
  split; [|apply (norm2_ge f Gf x y e0); auto; [apply Fx|apply Fy]].
  assert (Sq : forall t, Rabs t <= bpow radix2 k -> 0 <= t * t <= bpow radix2 (2 * k)).
  { intros t Ht. split; [nra|]. replace (2 * k)%Z with (k + k)%Z by lia. rewrite bpow_plus.
    rewrite <- (Rabs_pos_eq (t * t)) by nra. rewrite Rabs_mult. pose proof (Rabs_pos t). apply Rmult_le_compat; auto. }
  assert (E : forall t, Rabs t <= bpow radix2 k -> fit f (t * t) = Some (rd f (t * t)) /\ 0 <= rd f (t * t) <= bpow radix2 (2 * k)).
  { intros t Ht. pose proof (Sq t Ht) as [S1 S2]. split.
    - apply (fit_some f Gf _ (2 * k)); [lia|]. rewrite Rabs_pos_eq by lra. exact S2.
    - split; [apply rd_ge_gf; auto; apply generic_format_0|]. apply rd_le_gf; auto. apply gf_bpow; auto. lia. }
  destruct (E x Bx) as [Ex [X1 X2]]. destruct (E y By) as [Ey [Y1 Y2]].
  cbn [nsqrt nadd nmul FI FN bind1 bind2]. rewrite Ex, Ey. cbn [bind2].
  set (a := rd f (x * x)) in *. set (b := rd f (y * y)) in *.
  assert (Hs : 0 <= a + b <= bpow radix2 (2 * k + 1)).
  { rewrite bpow_plus. change (bpow radix2 1) with 2. lra. }
  rewrite (fit_some f Gf (a + b) (2 * k + 1)) by (try rewrite Rabs_pos_eq; lra || lia). cbn [bind1].
  assert (H0 : 0 <= rd f (a + b)) by (apply rd_ge_gf; auto; [apply generic_format_0|lra]).
  assert (H1 : rd f (a + b) <= bpow radix2 (2 * k + 1)) by (apply rd_le_gf; auto; [apply gf_bpow; auto; lia|lra]).
  destruct (Rlt_dec (rd f (a + b)) 0) as [N|_]; [lra|].
  rewrite (fit_some f Gf _ (k + 1)).
  - reflexivity.
  - lia.
  - rewrite Rabs_pos_eq by apply sqrt_pos. rewrite <- (sqrt_square (bpow radix2 (k + 1))) by apply bpow_ge_0.
    apply sqrt_le_1_alt. eapply Rle_trans; [exact H1|]. rewrite <- bpow_plus. apply bpow_le. lia.
Qed.

Lemma quot_eq x y k e0 : sized x y k e0 ->
  exists q, ndiv (Some x) (nsqrt (nadd (nmul (Some x) (Some x)) (nmul (Some y) (Some y)))) = Some q /\ Rabs q <= 1.
Proof.
  intros H. destruct (norm_eq x y k e0 H) as (E & Hx & _ & H0). rewrite E. cbn [ndiv FI FN bind2].
  destruct (Req_EM_T (norm2 f x y) 0) as [Z|_]; [lra|]. pose proof (quotient_le_1 f Gf x _ H0 Hx) as Q.
  rewrite fit_rd by (auto; lra). eauto.
Qed.

Lemma nz_small z : (Z.abs z < 2 ^ 24)%Z -> nz z = Some (IZR z).
Proof. intros H. cbn [nz FI FN]. now apply fit_IZR. Qed.
Lemma sign_np y : np_sign (Some y) = Some (if Rlt_dec 0 y then 1 else if Rlt_dec y 0 then -1 else 0).
Proof.
  unfold np_sign. rewrite !nz_small by lia. cbn [nltb neqb FI FN liftb]. unfold Rltb.
  destruct (Rlt_dec 0 y); [reflexivity|]. destruct (Rlt_dec y 0); [reflexivity|].
  replace y with 0 by lra. now rewrite Reqb_refl.
Qed.
Lemma sign_c y : c_sign (Some y) = Some (if Rlt_dec 0 y then 1 else if Rlt_dec y 0 then -1 else 0).
Proof.
  unfold c_sign. rewrite !nz_small by lia. cbn [nltb FI FN liftb]. unfold Rltb.
  destruct (Rlt_dec 0 y); [reflexivity|]. destruct (Rlt_dec y 0); reflexivity.
Qed.
(** an angle times a sign *)
Lemma signed d y z : 0 <= d <= IZR z -> (0 < z < 2 ^ 24)%Z ->
  exists l, nmul (Some d) (Some (if Rlt_dec 0 y then 1 else if Rlt_dec y 0 then -1 else 0)) = Some l /\
    nmul (Some (if Rlt_dec 0 y then 1 else if Rlt_dec y 0 then -1 else 0)) (Some d) = Some l /\
    Rabs l <= IZR z /\ (0 < y -> 0 <= l) /\ (y < 0 -> l <= 0) /\ (y = 0 -> l = 0).
Proof.
  intros Hd Hz. set (t := if Rlt_dec 0 y then 1 else if Rlt_dec y 0 then -1 else 0).
  assert (T : (0 < y -> t = 1) /\ (y < 0 -> t = -1) /\ (y = 0 -> t = 0)).
  { unfold t. destruct (Rlt_dec 0 y); [repeat split; intros; lra|]. destruct (Rlt_dec y 0); repeat split; intros; lra. }
  assert (B : Rabs (d * t) <= IZR z).
  { apply Rabs_le. unfold t. destruct (Rlt_dec 0 y); [lra|]. destruct (Rlt_dec y 0); lra. }
  destruct (fit_bound f (d * t) z Gf P8 Hz B) as [E B2].
  exists (rd f (d * t)). cbn [nmul FI FN bind2]. rewrite (Rmult_comm t d), E.
  repeat split; auto; intros Hy; destruct T as (T1 & T2 & T3).
  - rewrite T1 by assumption. apply rd_ge_gf; auto; [apply generic_format_0|lra].
  - rewrite T2 by assumption. apply rd_le_gf; auto; [apply generic_format_0|lra].
  - rewrite T3 by assumption. rewrite Rmult_0_r. now apply rd_0.
Qed.

(** longitude *)
Lemma np_longitude radius thr low x y z k e0 : sized x y k e0 ->
  exists lon, fst (xyz2lonlat_at radius thr low (Some x, Some y, z)) = Some lon /\
    -180 <= lon <= 180 /\ (0 < y -> 0 <= lon) /\ (y < 0 -> lon <= 0) /\ (y = 0 -> lon = 0).
Proof.
  intros H. unfold xyz2lonlat_at. cbn [fst]. destruct (quot_eq x y k e0 H) as (q & Eq & Bq). rewrite Eq.
  destruct (acos_degrees q Bq) as (d & Ed & Bd & _). rewrite Ed, sign_np.
  destruct (signed d y 180 Bd) as (l & El & _ & Bl & S); [lia|]. rewrite El. exists l. apply Rabs_le_inv in Bl. auto.
Qed.
Lemma fit_bound_sign g x z : good g -> (24 <= fprec g)%Z -> (0 < z < 2 ^ 24)%Z -> Rabs x <= IZR z ->
  exists l, fit g x = Some l /\ - IZR z <= l <= IZR z /\ (0 <= x -> 0 <= l) /\ (x <= 0 -> l <= 0).
Proof.
  intros H H8 Hz Hx. destruct (fit_bound g x z H H8 Hz Hx) as [E B]. exists (rd g x). apply Rabs_le_inv in B.
  split; [exact E|]. split; [exact B|]. split; intros.
  - apply rd_ge_gf; auto. apply generic_format_0.
  - apply rd_le_gf; auto. apply generic_format_0.
Qed.
Lemma cy_longitude thr low x y z k e0 : sized x y k e0 ->
  exists lon, fst (cy_xyz2lonlat low thr (Some x, Some y, z)) = Some lon /\
    -180 <= lon <= 180 /\ (0 < y -> 0 <= lon) /\ (y < 0 -> lon <= 0) /\ (y = 0 -> lon = 0).
Proof.
  intros H. unfold cy_xyz2lonlat. cbn [fst]. destruct (quot_eq x y k e0 H) as (q & Eq & Bq). rewrite Eq.
  destruct (acos_degrees q Bq) as (d & Ed & Bd & _). rewrite Ed, sign_c.
  destruct (signed d y 180 Bd) as (l & El & _ & Bl & S1 & S2 & S3); [lia|]. rewrite El. cbn [nst FI FN bind1].
  destruct (fit_bound_sign s l 180 Gs S8 ltac:(lia) Bl) as (l' & El' & Bl' & P1 & P2).
  exists l'. split; [exact El'|]. split; [exact Bl'|]. split; [|split]; auto.
  intros Hy. specialize (S3 Hy). subst l. apply Rle_antisym; [apply P2|apply P1]; lra.
Qed.

(** latitude *)
Lemma rd_up t : 0 <= t -> rd f t <= t * (1 + / IZR (2 ^ 20)) + / 2.
Proof.
  intros Ht. destruct Gf as (G1 & G2 & G3).
  destruct (Flocq.Prop.Relative.error_N_FLT radix2 (femin f) (fprec f) ltac:(lia) (fun x => negb (Z.even x)) t)
    as (eps & eta & H1 & H2 & _ & E).
  unfold rd. rewrite E. apply Rabs_le_inv in H1, H2.
  assert (bpow radix2 (- fprec f + 1) <= bpow radix2 (-20)) by (apply bpow_le; lia).
  assert (bpow radix2 (femin f) <= bpow radix2 0) by (apply bpow_le; lia).
  change (bpow radix2 0) with 1 in H0. rewrite (bpow_Zn (-20)) in H by lia. change (- -20)%Z with 20%Z in H.
  assert (0 <= / IZR (2 ^ 20)) by (apply Rlt_le, Rinv_0_lt_compat, IZR_lt; lia).
  assert (eps <= / IZR (2 ^ 20)) by lra. nra.
Qed.
Lemma norm2_le x y r : generic_format radix2 (FLT_exp (femin f) (fprec f)) r -> 1000 <= r ->
  x * x + y * y <= 9 / 10 * (r * r) -> norm2 f x y <= r.
Proof.
  intros Fr Hr1 H. unfold norm2. apply rd_le_gf; auto. rewrite <- (sqrt_square r) by lra. apply sqrt_le_1_alt.
  pose proof (rd_up (x * x) ltac:(nra)) as A. pose proof (rd_up (y * y) ltac:(nra)) as B.
  assert (P : 0 <= rd f (x * x) + rd f (y * y)).
  { assert (0 <= rd f (x * x)) by (apply rd_ge_gf; auto; [apply generic_format_0|nra]).
    assert (0 <= rd f (y * y)) by (apply rd_ge_gf; auto; [apply generic_format_0|nra]). lra. }
  pose proof (rd_up _ P) as C. change (2 ^ 20)%Z with 1048576%Z in *.
  assert (1000000 <= r * r) by nra.
  set (a := rd f (x * x)) in *. set (b := rd f (y * y)) in *.
  assert (a + b <= 91 / 100 * (r * r) + 1) by lra.
  eapply Rle_trans; [exact C|]. lra.
Qed.

Lemma lat_low q : Rabs q <= 1 ->
  exists lat, nsub (nz 90) (rad2deg (nacos (Some q))) = Some lat /\ Rabs lat <= 90 /\ (0 <= q -> 0 <= lat) /\ (q <= 0 -> lat <= 0).
Proof.
  intros Hq. destruct (acos_degrees q Hq) as (d & Ed & Bd & D1 & D2). rewrite Ed, nz_small by lia.
  cbn [nsub FI FN bind2]. assert (B : Rabs (90 - d) <= 90) by (apply Rabs_le; lra).
  destruct (fit_bound_sign f (90 - d) 90 Gf P8 ltac:(lia) B) as (l & El & Bl & L1 & L2).
  exists l. rewrite El. split; [reflexivity|]. split; [apply Rabs_le; lra|]. split; intros Q.
  - apply L1. specialize (D1 Q). lra.
  - apply L2. specialize (D2 Q). lra.
Qed.
Lemma lat_high z q : 0 <= q <= 1 ->
  exists lat, nmul (Some (if Rlt_dec 0 z then 1 else if Rlt_dec z 0 then -1 else 0)) (nsub (nz 90) (rad2deg (nasin (Some q)))) = Some lat /\
    Rabs lat <= 90 /\ (0 < z -> 0 <= lat) /\ (z < 0 -> lat <= 0) /\ (z = 0 -> lat = 0).
Proof.
  intros Hq. destruct (asin_degrees q Hq) as (d & Ed & Bd). rewrite Ed, nz_small by lia.
  cbn [nsub FI FN bind2]. assert (B : Rabs (90 - d) <= 90) by (apply Rabs_le; lra).
  destruct (fit_bound_sign f (90 - d) 90 Gf P8 ltac:(lia) B) as (l & El & Bl & L1 & L2). rewrite El.
  destruct (signed l z 90) as (t & _ & Et & Bt & S); [split; [apply L1|]; lra|lia|].
  exists t. cbn [nmul FI FN bind2] in Et |- *. auto.
Qed.

(** the point is not far outside the sphere of radius [r] *)
Definition near_ball (r x y z : R) : Prop := x * x + y * y + z * z <= 5 / 4 * (r * r).

Lemma high_cap r x y z : 0 < r -> near_ball r x y z -> 6 / 10 * r <= Rabs z -> x * x + y * y <= 9 / 10 * (r * r).
Proof.
  unfold near_ball. intros Hr0 H Hz. assert (36 / 100 * (r * r) <= z * z); [|nra].
  replace (z * z) with (Rabs z * Rabs z); [nra|]. rewrite <- Rabs_mult. apply Rabs_pos_eq. nra.
Qed.
(** rounding moves a number by less than a factor 1 +- 1/100, if it is not tiny *)
Lemma rd_near t : 1 / 1000 <= Rabs t -> Rabs (rd f t - t) <= / 100 * Rabs t.
Proof.
  intros H. destruct Gf as (G1 & G2 & G3). pose proof (Rabs_pos t). eapply Rle_trans; [apply rd_rel; auto|].
  - eapply Rle_trans; [|exact H]. eapply Rle_trans; [apply (bpow_le radix2 _ (-10)); lia|].
    rewrite bpow_Zn by lia. change (2 ^ (- -10))%Z with 1024%Z. lra.
  - apply Rmult_le_compat_r; [auto|]. unfold ulp1. eapply Rle_trans; [apply (bpow_le radix2 _ (-10)); lia|].
    rewrite bpow_Zn by lia. change (2 ^ (- -10))%Z with 1024%Z. lra.
Qed.

Lemma high_arg r x y k e0 : generic_format radix2 (FLT_exp (femin f) (fprec f)) r -> 1000 <= r -> sized x y k e0 ->
  x * x + y * y <= 9 / 10 * (r * r) ->
  exists q, ndiv (nsqrt (nadd (nmul (Some x) (Some x)) (nmul (Some y) (Some y)))) (Some r) = Some q /\ 0 <= q <= 1.
Proof.
  intros Fr R1 H Hn. destruct (norm_eq x y k e0 H) as (E & _ & _ & H0). rewrite E. cbn [ndiv FI FN bind2].
  destruct (Req_EM_T r 0) as [Z|_]; [lra|]. pose proof (norm2_le x y r Fr R1 Hn) as L.
  assert (Q : Rabs (rd f (norm2 f x y / r)) <= 1).
  { apply quotient_le_1; auto; [lra|]. rewrite Rabs_pos_eq; lra. }
  rewrite fit_rd by (auto; lra). eexists. split; [reflexivity|]. split; [|apply Rabs_le_inv in Q; lra].
  apply rd_ge_gf; auto; [apply generic_format_0|]. apply Rmult_le_pos; [lra|]. apply Rlt_le, Rinv_0_lt_compat. lra.
Qed.

Definition lat_ok (z : R) (lat : R) : Prop :=
  -90 <= lat <= 90 /\ (0 < z -> 0 <= lat) /\ (z < 0 -> lat <= 0) /\ (z = 0 -> lat = 0).

Lemma np_latitude r t x y z k e0 : generic_format radix2 (FLT_exp (femin f) (fprec f)) r -> 1000 <= r -> r <= bpow radix2 k ->
  7 / 10 <= t <= 9 / 10 -> sized x y k e0 -> fl f z -> near_ball r x y z -> Rabs z <= bpow radix2 k ->
  exists lat, snd (xyz2lonlat_at (Some r) (Some t) true (Some x, Some y, Some z)) = Some lat /\ lat_ok z lat.
Proof.
  intros Fr R1 Rk Ht H Fz Hb Zk. unfold xyz2lonlat_at. cbn [snd].
  assert (Hk : (0 <= k)%Z /\ (2 * k + 2 < femax f)%Z) by (destruct H as (_ & _ & _ & _ & _ & K); lia).
  assert (Bq : Rabs (z / r) <= bpow radix2 k).
  { unfold Rdiv. rewrite Rabs_mult, (Rabs_pos_eq (/ r)) by (apply Rlt_le, Rinv_0_lt_compat; lra).
    apply Rle_trans with (Rabs z * 1); [|lra]. apply Rmult_le_compat_l; [apply Rabs_pos|].
    rewrite <- Rinv_1. apply Rinv_le_contravar; lra. }
  assert (Eq : ndiv (Some z) (Some r) = Some (rd f (z / r))).
  { cbn [ndiv FI FN bind2]. destruct (Req_EM_T r 0) as [Z|_]; [lra|]. apply (fit_some f Gf _ k); auto.
    destruct Gf as (G1 & G2 & G3). lia. }
  rewrite Eq. set (q := rd f (z / r)) in *.
  assert (Ea : np_abs (Some q) = Some (Rabs q)).
  { unfold np_abs. rewrite nz_small by lia. cbn [nltb nsub FI FN liftb bind2]. unfold Rltb.
    destruct (Rlt_dec q 0) as [L|L].
    - rewrite Rabs_left by assumption. replace (0 - q) with (- q) by ring. apply fit_fl; auto. split.
      + apply generic_format_opp. apply rd_gf; auto.
      + rewrite Rabs_Ropp. destruct (fit_inv f Gf (z / r) q) as [_ Fq]; [|apply Fq].
        cbn [ndiv FI FN bind2] in Eq. destruct (Req_EM_T r 0) as [Z|_]; [lra|exact Eq].
    - rewrite Rabs_pos_eq by lra. reflexivity. }
  rewrite Ea. cbn [nltb FI FN liftb]. unfold Rltb.
  assert (Sq : (0 < z -> 0 <= q) /\ (z < 0 -> q <= 0) /\ (z = 0 -> q = 0)).
  { assert (0 < / r) by (apply Rinv_0_lt_compat; lra). unfold q. repeat split; intros Hz.
    - apply rd_ge_gf; auto; [apply generic_format_0|]. unfold Rdiv. nra.
    - apply rd_le_gf; auto; [apply generic_format_0|]. unfold Rdiv. nra.
    - rewrite Hz. unfold Rdiv. rewrite Rmult_0_l. now apply rd_0. }
  destruct (Rlt_dec (Rabs q) t) as [L|L].
  - destruct (lat_low q ltac:(lra)) as (lat & E & B & L1 & L2). rewrite E. exists lat. split; [reflexivity|].
    apply Rabs_le_inv in B. split; [exact B|]. destruct Sq as (S1 & S2 & S3). split; [auto|]. split; [auto|].
    intros Hz. specialize (S3 Hz). apply Rle_antisym; [apply L2|apply L1]; lra.
  - assert (Hz : 6 / 10 * r <= Rabs z).
    { assert (Z1 : 6 / 10 <= Rabs (z / r)).
      { destruct (Rle_dec (6 / 10) (Rabs (z / r))) as [|N]; [assumption|exfalso].
        assert (Q6 : Rabs q < 7 / 10); [|lra]. unfold q. rewrite rd_abs by auto.
        pose proof (rd_up (Rabs (z / r)) (Rabs_pos _)) as U. 
        eapply Rle_lt_trans; [apply (rd_le f Gf _ (6 / 10)); lra|].
        pose proof (rd_near (6 / 10)) as K. rewrite (Rabs_pos_eq (6 / 10)) in K by lra. specialize (K ltac:(lra)).
        apply Rabs_le_inv in K. lra. }
      unfold Rdiv in Z1. rewrite Rabs_mult, (Rabs_pos_eq (/ r)) in Z1 by (apply Rlt_le, Rinv_0_lt_compat; lra).
      apply (Rmult_le_compat_r r) in Z1; [|lra]. rewrite (Rmult_assoc (Rabs z)), Rinv_l in Z1 by lra. lra. }
    destruct (high_arg r x y k e0 Fr R1 H) as (w & Ew & Bw); [apply (high_cap r x y z); auto; lra|].
    rewrite Ew, sign_np. destruct (lat_high z w Bw) as (lat & E & B & S). rewrite E. exists lat. split; [reflexivity|].
    apply Rabs_le_inv in B. split; [exact B|exact S].
Qed.

(** threshold on z itself *)
Lemma thr_latitude r a x y z k e0 : generic_format radix2 (FLT_exp (femin f) (fprec f)) r -> 1000 <= r ->
  6 / 10 * r <= a <= r -> sized x y k e0 -> fl f z -> near_ball r x y z ->
  exists lat, (if Rltb z a && Rltb (- a) z
               then nsub (nz 90) (rad2deg (nacos (ndiv (Some z) (Some r))))
               else nmul (Some (if Rlt_dec 0 z then 1 else if Rlt_dec z 0 then -1 else 0))
                      (nsub (nz 90) (rad2deg (nasin (ndiv (nsqrt (nadd (nmul (Some x) (Some x)) (nmul (Some y) (Some y)))) (Some r)))))) = Some lat /\
    lat_ok z lat /\ Rabs lat <= 90.
Proof.
  intros Fr R1 Ha H Fz Hb. destruct (Rltb z a && Rltb (- a) z) eqn:C.
  - apply andb_true_iff in C. destruct C as [C1 C2]. apply Rltb_true in C1, C2.
    assert (Q : Rabs (rd f (z / r)) <= 1) by (apply quotient_le_1; auto; [lra|apply Rabs_le; lra]).
    assert (Eq : ndiv (Some z) (Some r) = Some (rd f (z / r))).
    { cbn [ndiv FI FN bind2]. destruct (Req_EM_T r 0) as [Z|_]; [lra|]. apply fit_rd; auto. lra. }
    rewrite Eq. set (q := rd f (z / r)) in *.
    assert (Sq : (0 < z -> 0 <= q) /\ (z < 0 -> q <= 0) /\ (z = 0 -> q = 0)).
    { assert (0 < / r) by (apply Rinv_0_lt_compat; lra). unfold q. repeat split; intros Hz.
      - apply rd_ge_gf; auto; [apply generic_format_0|]. unfold Rdiv. nra.
      - apply rd_le_gf; auto; [apply generic_format_0|]. unfold Rdiv. nra.
      - rewrite Hz. unfold Rdiv. rewrite Rmult_0_l. now apply rd_0. }
    destruct (lat_low q Q) as (lat & E & B & L1 & L2). rewrite E. exists lat. split; [reflexivity|]. split; [|exact B].
    apply Rabs_le_inv in B. split; [exact B|]. destruct Sq as (S1 & S2 & S3). split; [auto|]. split; [auto|].
    intros Hz. specialize (S3 Hz). apply Rle_antisym; [apply L2|apply L1]; lra.
  - assert (Hz : 6 / 10 * r <= Rabs z).
    { apply andb_false_iff in C. destruct C as [C|C]; apply Rltb_false in C.
      - rewrite Rabs_pos_eq; lra.
      - rewrite Rabs_left1; lra. }
    destruct (high_arg r x y k e0 Fr R1 H) as (w & Ew & Bw); [apply (high_cap r x y z); auto; lra|].
    rewrite Ew. destruct (lat_high z w Bw) as (lat & E & B & S). rewrite E. exists lat. split; [reflexivity|]. split; [|exact B].
    apply Rabs_le_inv in B. split; [exact B|exact S].
Qed.

Lemma cy_latitude t x y z k e0 : 7 / 10 <= t <= 9 / 10 -> generic_format radix2 (FLT_exp (femin f) (fprec f)) t ->
  sized x y k e0 -> fl f z -> near_ball 6370997 x y z ->
  exists lat, snd (cy_xyz2lonlat true (Some t) (Some x, Some y, Some z)) = Some lat /\ lat_ok z lat.
Proof.
  intros Ht Ft H Fz Hb. unfold cy_xyz2lonlat, EARTH_RADIUS. cbn [snd andb].
  set (R0 := 6370997) in *.
  assert (FR : generic_format radix2 (FLT_exp (femin f) (fprec f)) R0) by (apply gfI; auto; lia).
  rewrite (nz_small 6370997), (nz_small (-1)) by lia. fold R0.
  assert (P1 : nmul (Some t) (Some R0) = Some (rd f (t * R0))).
  { cbn [nmul FI FN bind2]. apply (fit_bound f (t * R0) 6370997); auto; [lia|]. unfold R0. rewrite Rabs_pos_eq; lra. }
  assert (P2 : nmul (Some (-1)) (Some t) = Some (- t)).
  { cbn [nmul FI FN bind2]. replace (-1 * t) with (- t) by ring.
    rewrite <- (rd_id f (- t)) at 2 by (now apply generic_format_opp).
    apply (fit_bound f (- t) 1); auto; [lia|]. rewrite Rabs_Ropp, Rabs_pos_eq; lra. }
  assert (P3 : nmul (Some (- t)) (Some R0) = Some (- rd f (t * R0))).
  { cbn [nmul FI FN bind2]. replace (- t * R0) with (- (t * R0)) by ring. rewrite <- rd_opp.
    apply (fit_bound f (- (t * R0)) 6370997); auto; [lia|]. unfold R0. rewrite Rabs_Ropp, Rabs_pos_eq; lra. }
  rewrite P1, P2, P3, sign_c. cbn [nltb FI FN liftb]. set (a := rd f (t * R0)) in *.
  assert (Ha : 6 / 10 * R0 <= a <= R0).
  { pose proof (rd_near (t * R0)) as K. fold a in K. rewrite (Rabs_pos_eq (t * R0)) in K by (unfold R0; lra).
    specialize (K ltac:(unfold R0; lra)). apply Rabs_le_inv in K. unfold R0 in *. lra. }
  destruct (thr_latitude R0 a x y z k e0 FR ltac:(unfold R0; lra) Ha H Fz Hb) as (lat & E & (_ & O1 & O2 & O3) & B).
  cbn [nsub nmul nz FI FN] in E |- *. rewrite E. cbn [nst FI FN bind1].
  destruct (fit_bound_sign s lat 90 Gs S8 ltac:(lia) B) as (l & El & Bl & L1 & L2).
  exists l. split; [exact El|]. split; [exact Bl|]. split; [auto|]. split; [auto|].
  intros Hz. specialize (O3 Hz). apply Rle_antisym; [apply L2|apply L1]; lra.
Qed.

Lemma vii_latitude r t x y z k e0 : MEAN_EARTH_RADIUS = Some r -> 1000 <= r <= 10000000 ->
  7 / 10 <= t <= 9 / 10 -> sized x y k e0 -> fl f z -> near_ball r x y z ->
  exists lat, snd (vii_xyz2lonlat (Some t) (Some x, Some y, Some z)) = Some lat /\ lat_ok z lat.
Proof.
  intros ER HR Ht H Fz Hb. unfold vii_xyz2lonlat. cbn [snd]. rewrite ER.
  assert (FR : generic_format radix2 (FLT_exp (femin f) (fprec f)) r).
  { unfold MEAN_EARTH_RADIUS in ER. cbn [ndiv nz FI FN] in ER.
    destruct (fit f (IZR 63710087714)) as [u|]; [|discriminate]. destruct (fit f (IZR 10000)) as [v|]; [|discriminate].
    cbn [bind2] in ER. destruct (Req_EM_T v 0); [discriminate|]. apply fit_inv in ER; auto. apply ER. }
  assert (P1 : nmul (Some t) (Some r) = Some (rd f (t * r))).
  { cbn [nmul FI FN bind2]. apply (fit_bound f (t * r) 10000000); auto; [lia|]. rewrite Rabs_pos_eq; nra. }
  set (a := rd f (t * r)) in *.
  assert (Ha : 6 / 10 * r <= a <= r).
  { pose proof (rd_near (t * r)) as K. fold a in K. rewrite (Rabs_pos_eq (t * r)) in K by nra.
    specialize (K ltac:(nra)). apply Rabs_le_inv in K. nra. }
  assert (P3 : nsub (nz 0) (Some a) = Some (- a)).
  { rewrite nz_small by lia. cbn [nsub FI FN bind2]. replace (0 - a) with (- a) by ring.
    rewrite <- (rd_id f (- a)) at 2 by (apply generic_format_opp, rd_gf; auto).
    apply (fit_bound f (- a) 10000000); auto; [lia|]. rewrite Rabs_Ropp, Rabs_pos_eq; lra. }
  rewrite P1, P3, sign_np. cbn [nltb FI FN liftb].
  destruct (thr_latitude r a x y z k e0 FR ltac:(lra) Ha H Fz Hb) as (lat & E & O & B).
  cbn [nsub nmul nz ndiv nsqrt nadd FI FN] in E |- *. rewrite E. eauto.
Qed.
End Finite.
