(** Longitudes of arbitrary points; agreement of the three conversions. *)
From Coq Require Import ZArith List Lia Bool Reals Lra.
From Verif Require Import Base Num Geo GeoProofs.
Import ListNotations.
Open Scope R_scope.

(** the longitude part, common to the three versions *)
Lemma lon_RN x y s : x * x + y * y <> 0 -> s = Some (sgn y) ->
  (@nmul _ RN (@rad2deg _ RN (@nacos _ RN (@ndiv _ RN (Some x) (@nsqrt _ RN (@nadd _ RN (@nmul _ RN (Some x) (Some x)) (@nmul _ RN (Some y) (Some y))))))) s)
  = Some (rlon x y).
Proof.
  intros Hxy ->. cbn [nmul nadd ndiv nsqrt nacos RN lift2].
  assert (P : 0 < rho x y) by now apply rho_pos.
  rewrite RNsqrt_some by nra. fold (rho x y). rewrite RNdiv_some by lra.
  rewrite RNdom_some by now apply rho_ratio. rewrite rad2deg_RN. reflexivity.
Qed.

Lemma np_lon radius thr low x y z : x * x + y * y <> 0 ->
  fst (@xyz2lonlat_at _ RN radius thr low (Some x, Some y, z)) = Some (rlon x y).
Proof.
  intros H. unfold xyz2lonlat_at. cbn [fst]. apply lon_RN; [exact H|apply np_sign_RN].
Qed.
Lemma cy_lon low thr x y z : x * x + y * y <> 0 ->
  fst (@cy_xyz2lonlat _ RN low thr (Some x, Some y, z)) = Some (rlon x y).
Proof.
  intros H. unfold cy_xyz2lonlat. cbn [fst nst RN]. apply (lon_RN x y); [exact H|apply c_sign_RN].
Qed.
Lemma vii_lon thr x y z : x * x + y * y <> 0 ->
  fst (@vii_xyz2lonlat _ RN thr (Some x, Some y, z)) = Some (rlon x y).
Proof.
  intros H. unfold vii_xyz2lonlat. cbn [fst]. apply lon_RN; [exact H|apply np_sign_RN].
Qed.

Lemma rlon_antimeridian x : x < 0 -> rlon x 0 = 0.
Proof. intros H. unfold rlon, sgn. destruct (Rlt_dec 0 0); [lra|]. ring. Qed.

(** on the axis there is no longitude *)
Lemma np_lon_axis radius thr low z : fst (@xyz2lonlat_at _ RN radius thr low (Some 0, Some 0, z)) = None.
Proof.
  unfold xyz2lonlat_at. cbn [fst nmul nadd ndiv nsqrt nacos RN lift2]. replace (0 * 0 + 0 * 0) with 0 by ring.
  rewrite RNsqrt_some by lra. rewrite sqrt_0. unfold RNdiv. destruct (Req_EM_T 0 0); [|lra]. reflexivity.
Qed.

(** the threshold conditions: |z/R| < thr and -thr R < z < thr R *)
Lemma thr_cond z thr r : 0 < r -> Rltb (Rabs (z / r)) thr = (Rltb z (thr * r) && Rltb (- (thr * r)) z)%bool.
Proof.
  intros Hr. destruct (Rltb (Rabs (z / r)) thr) eqn:E; symmetry.
  - apply Rltb_true in E. apply Rabs_def2 in E. destruct E as [E1 E2].
    apply andb_true_iff. split; apply Rltb_true.
    + apply Rmult_lt_compat_r with (r := r) in E1; [|exact Hr]. replace (z / r * r) with z in E1 by (field; lra). exact E1.
    + apply Rmult_lt_compat_r with (r := r) in E2; [|exact Hr]. replace (z / r * r) with z in E2 by (field; lra). lra.
  - apply Rltb_false in E. apply andb_false_iff.
    destruct (Rlt_dec z (thr * r)) as [H1|H1]; [|left; apply Rltb_false; lra].
    destruct (Rlt_dec (- (thr * r)) z) as [H2|H2]; [|right; apply Rltb_false; lra].
    exfalso. assert (Rabs (z / r) < thr); [|lra]. apply Rabs_def1.
    + apply Rmult_lt_reg_r with r; [exact Hr|]. replace (z / r * r) with z by (field; lra). exact H1.
    + apply Rmult_lt_reg_r with r; [exact Hr|]. replace (z / r * r) with z by (field; lra). lra.
Qed.

Lemma mean_radius_RN : @MEAN_EARTH_RADIUS _ RN = Some (63710087714 / 10000).
Proof. unfold MEAN_EARTH_RADIUS. cbn [ndiv nz RN]. apply RNdiv_some. lra. Qed.

Lemma vii_agrees thr p : @vii_xyz2lonlat _ RN thr p = @xyz2lonlat_at _ RN (@MEAN_EARTH_RADIUS _ RN) thr true p.
Proof.
  destruct p as [[x y] z]. unfold vii_xyz2lonlat, xyz2lonlat_at. f_equal. rewrite mean_radius_RN.
  set (r := 63710087714 / 10000). assert (Hr : 0 < r) by (unfold r; lra).
  destruct z as [z|].
  - cbn [ndiv RN]. rewrite RNdiv_some by lra. rewrite np_abs_RN.
    destruct thr as [thr|].
    + cbn [nltb nsub nz nmul RN lift2 liftb]. rewrite Rminus_0_l, thr_cond by exact Hr. reflexivity.
    + cbn [nltb nsub nz nmul RN lift2 liftb]. reflexivity.
  - destruct thr; reflexivity.
Qed.

Lemma cy_agrees low thr x y z :
  @cy_xyz2lonlat _ RN low thr (x, y, Some z) = @xyz2lonlat_at _ RN (@EARTH_RADIUS _ RN) thr low (x, y, Some z).
Proof.
  unfold cy_xyz2lonlat, xyz2lonlat_at, EARTH_RADIUS. cbn [nst nz RN].
  set (r := 6370997). assert (Hr : 0 < r) by (unfold r; lra).
  f_equal.
  - (* longitude *)
    destruct y as [y|]; [now rewrite c_sign_RN, np_sign_RN|].
    destruct x; cbn; reflexivity.
  - rewrite c_sign_RN, np_sign_RN. destruct low; [|reflexivity]. cbn [ndiv RN]. rewrite RNdiv_some by lra. rewrite np_abs_RN.
    destruct thr as [thr|]; [|reflexivity].
    cbn [nltb nmul RN lift2 liftb andb]. rewrite thr_cond by exact Hr.
    replace (-1 * thr * r) with (- (thr * r)) by ring. reflexivity.
Qed.

(** with a missing z the Cython version gives latitude 0 *)
Lemma cy_missing_z low thr x y : x * x + y * y <= 6370997 * 6370997 ->
  snd (@cy_xyz2lonlat _ RN low thr (Some x, Some y, None)) = Some 0 /\
  snd (@xyz2lonlat_at _ RN (@EARTH_RADIUS _ RN) thr low (Some x, Some y, None)) = None.
Proof.
  intros H. split.
  - unfold cy_xyz2lonlat. cbn [snd nst RN].
    replace ((low && _) && _)%bool with false.
    2:{ destruct low; [|reflexivity]. cbn. reflexivity. }
    cbn [nmul nadd ndiv nsqrt nasin nz nsub RN lift2]. unfold EARTH_RADIUS. cbn [nz RN].
    rewrite RNsqrt_some by nra. fold (rho x y). rewrite RNdiv_some by lra.
    assert (B : 0 <= rho x y <= 6370997).
    { split; [apply rho_nonneg|]. pose proof (rho_sq x y). pose proof (rho_nonneg x y). nra. }
    rewrite RNdom_some.
    + rewrite rad2deg_RN. cbn [lift2]. unfold c_sign. cbn [nltb nz RN liftb lift2]. f_equal. ring.
    + split; apply Rmult_le_reg_r with 6370997; try lra; replace (rho x y / 6370997 * 6370997) with (rho x y) by field; lra.
  - unfold xyz2lonlat_at. cbn [snd]. destruct low; [|reflexivity]. cbn. reflexivity.
Qed.
