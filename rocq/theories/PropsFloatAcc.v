(** C72: rounding errors of the conversion to longitude and latitude. *)
From Coq Require Import ZArith Lia Bool Reals Lra.
From Flocq.Core Require Import Core.
From Verif Require Import Base Num Geo GeoProofs Float PiBound FloatGeo FloatAcc PropsFloat.
Open Scope R_scope.

(** ** Specification *)
(** [ll] differs by at most [e] degrees from the result of exact arithmetic at the position,
    where the threshold between the two latitude formulas may differ from [t] by 10^-6 *)
Definition near_exact (r t e x y z : R) (ll : option R * option R) : Prop :=
  exists thr lon lat lon0 lat0, Rabs (thr - t) <= / 1000000 /\
    @xyz2lonlat_at _ RN (Some r) (Some thr) true (Some x, Some y, Some z) = (Some lon0, Some lat0) /\
    ll = (Some lon, Some lat) /\ Rabs (lon - lon0) <= e /\ Rabs (lat - lat0) <= e.

Lemma exact_low r thr x y z : 0 < r -> x * x + y * y <> 0 -> Rabs (z / r) < thr -> thr <= 1 ->
  @xyz2lonlat_at _ RN (Some r) (Some thr) true (Some x, Some y, Some z) = (Some (rlon x y), Some (rlat_z r z)).
Proof.
  intros HR Hxy Hz Ht. unfold xyz2lonlat_at. cbn [nmul nadd nsub ndiv nsqrt nacos nz nltb RN lift2].
  assert (P : 0 < rho x y) by now apply rho_pos.
  rewrite (RNsqrt_some (x * x + y * y)) by nra. fold (rho x y). rewrite !RNdiv_some by lra.
  rewrite (RNdom_some acos) by (apply rho_ratio; assumption). rewrite rad2deg_RN, np_sign_RN, np_abs_RN.
  cbn [lift2 liftb]. unfold Rltb. destruct (Rlt_dec (Rabs (z / r)) thr) as [_|N]; [|contradiction].
  assert (B : -1 <= z / r <= 1) by (apply Rabs_le_inv; lra).
  rewrite (RNdom_some acos) by exact B. rewrite rad2deg_RN. reflexivity.
Qed.
Lemma exact_high r thr x y z : 0 < r -> x * x + y * y <> 0 -> thr <= Rabs (z / r) -> rho x y <= r ->
  @xyz2lonlat_at _ RN (Some r) (Some thr) true (Some x, Some y, Some z) = (Some (rlon x y), Some (rlat_xy r x y z)).
Proof.
  intros HR Hxy Hz Hn. unfold xyz2lonlat_at. cbn [nmul nadd nsub ndiv nsqrt nasin nacos nz nltb RN lift2].
  assert (P : 0 < rho x y) by now apply rho_pos.
  rewrite (RNsqrt_some (x * x + y * y)) by nra. fold (rho x y). rewrite !RNdiv_some by lra.
  rewrite (RNdom_some acos) by (apply rho_ratio; assumption). rewrite rad2deg_RN, !np_sign_RN, np_abs_RN.
  cbn [lift2 liftb]. unfold Rltb. destruct (Rlt_dec (Rabs (z / r)) thr) as [N|_]; [lra|].
  assert (B : -1 <= rho x y / r <= 1).
  { split; [apply Rle_trans with 0; [lra|]; unfold Rdiv; apply Rmult_le_pos; [lra|]; apply Rlt_le, Rinv_0_lt_compat; lra|].
    apply (Rmult_le_reg_r r); [lra|]. unfold Rdiv. rewrite Rmult_assoc, Rinv_l by lra. lra. }
  rewrite (RNdom_some asin) by exact B. rewrite rad2deg_RN. reflexivity.
Qed.

Lemma rlat_z_bound r z : Rabs (rlat_z r z) <= 90.
Proof.
  unfold rlat_z. pose proof (acos_bound (z / r)). pose proof PI_RGT_0. pose proof deg_factor_pos.
  assert (0 <= acos (z / r) * (180 / PI) <= 180).
  { split; [apply Rmult_le_pos; lra|]. replace 180 with (PI * (180 / PI)) at 2 by (field; lra). apply Rmult_le_compat_r; lra. }
  apply Rabs_le. lra.
Qed.
Lemma rlat_xy_bound r x y z : 0 < r -> Rabs (rlat_xy r x y z) <= 90.
Proof.
  intros Hr. unfold rlat_xy. pose proof PI_RGT_0. pose proof deg_factor_pos.
  set (w := rho x y / r). assert (W : 0 <= w).
  { unfold w, Rdiv. apply Rmult_le_pos; [apply sqrt_pos|]. apply Rlt_le, Rinv_0_lt_compat, Hr. }
  assert (B : 0 <= asin w <= PI / 2).
  { split; [|apply asin_bound]. destruct (Rle_dec 1 w) as [L|L].
    - unfold asin. destruct (Rle_dec w (-1)); [lra|]. destruct (Rle_dec 1 w); [|contradiction]. lra.
    - rewrite <- asin_0. destruct (Req_dec w 0) as [->|N]; [rewrite asin_0; lra|]. apply Rlt_le.
      destruct (Rlt_dec 0 (asin w)) as [|K]; [rewrite asin_0; assumption|exfalso]. pose proof (asin_bound w).
      assert (S : sin (asin w) <= 0); [|rewrite sin_asin in S; lra].
      destruct (Req_dec (asin w) 0) as [->|]; [rewrite sin_0; lra|]. apply Rlt_le, sin_lt_0_var; lra. }
  assert (0 <= asin w * (180 / PI) <= 90).
  { split; [apply Rmult_le_pos; lra|]. rewrite <- half_pi_deg. apply Rmult_le_compat_r; lra. }
  rewrite Rabs_mult. pose proof (sgn_bound z). pose proof (Rabs_pos (sgn z)).
  assert (Rabs (90 - asin w * (180 / PI)) <= 90) by (apply Rabs_le; lra).
  pose proof (Rabs_pos (90 - asin w * (180 / PI))). nra.
Qed.

Section Assemble.
Variables (f s : format) (c : R) (m : libm).
Hypothesis G : good f.
Hypothesis P24 : (24 <= fprec f)%Z.
Hypothesis E1 : (femin f + fprec f - 1 <= -120)%Z.
Hypothesis M1 : (50 < femax f)%Z.
Hypothesis Hc : consts f c.
Hypothesis Cpi : Rabs (c - PI) <= bpow radix2 (- fprec f) * PI.
Hypothesis Hr : in_range f c m.
Hypothesis Ha : accurate f m.
Notation u := (bpow radix2 (- fprec f)).
Let N := FN f s c m.
#[local] Existing Instance N.

(** the branch [b] taken is one that exact arithmetic takes for some threshold close to [t] *)
Definition branch (b : bool) (r t z : R) : Prop :=
  if b then Rabs (z / r) < t + / 1000000 else t - / 1000000 <= Rabs (z / r).

Lemma assemble r t x y z b : generic_format radix2 (FLT_exp (femin f) (fprec f)) r -> 1000 <= r <= 7000000 ->
  7 / 10 <= t <= 9 / 10 -> position f r x y z -> branch b r t z ->
  exists thr lon lat lon0 lat0, Rabs (thr - t) <= / 1000000 /\
    @xyz2lonlat_at _ RN (Some r) (Some thr) true (Some x, Some y, Some z) = (Some lon0, Some lat0) /\
    nmul (rad2deg (nacos (ndiv (Some x) (nsqrt (nadd (nmul (Some x) (Some x)) (nmul (Some y) (Some y))))))) (Some (sgn y)) = Some lon /\
    (if b then nsub (nz 90) (rad2deg (nacos (ndiv (Some z) (Some r))))
     else nmul (Some (sgn z)) (nsub (nz 90) (rad2deg (nasin
      (ndiv (nsqrt (nadd (nmul (Some x) (Some x)) (nmul (Some y) (Some y)))) (Some r)))))) = Some lat /\
    fl f lon /\ fl f lat /\ Rabs (lon - lon0) <= tol1 f /\ Rabs (lat - lat0) <= tol1 f /\ Rabs lon0 <= 180 /\ Rabs lat0 <= 90.
Proof.
  intros Fr Br Bt Hp Hb. destruct (position_sized f r x y z P24 E1 M1 ltac:(lra) Hp) as [Hs Hz].
  destruct (lon_acc f s c m G P24 Hc Cpi Hr Ha x y 23 (-60) Hs) as (d & Ed & Fd & Dd).
  change (FD f s c m) with N in Ed.
  destruct (norm2_acc f G P24 x y (-60)) as [N0 _]; [apply Hs|apply Hs|].
  destruct Hp as (_ & _ & _ & Hball & _).
  rewrite Ed. destruct (sgn_mul f s c m d y Fd) as [Em _]. change (FD f s c m) with N in Em. rewrite Em.
  assert (Tl : tol f <= tol1 f).
  { unfold tol, tol1. destruct (sqrt_u f P24) as [[S0 _] _]. lra. }
  assert (Dlon : Rabs (d * sgn y - rlon x y) <= tol1 f).
  { unfold rlon. rewrite <- Rmult_minus_distr_r, Rabs_mult. pose proof (sgn_bound y). pose proof (Rabs_pos (sgn y)).
    pose proof (Rabs_pos (d - acos (x / rho x y) * (180 / PI))). nra. }
  assert (Flon : fl f (d * sgn y)) by (cbn [nmul N FN bind2] in Em; apply (fit_inv f G _ _ Em)).
  assert (Rz : Rabs (z / r) * r = Rabs z).
  { unfold Rdiv. rewrite Rabs_mult, Rabs_inv, (Rabs_pos_eq r) by lra. field. lra. }
  assert (Blon : Rabs (rlon x y) <= 180) by (apply Rabs_le, rlon_bound).
  destruct b; cbn [branch] in Hb.
  - exists (t + / 1000000).
    destruct (lat_low_acc f s c m G P24 Hc Cpi Hr Ha z r) as (lat & El & Fl & Dl); [nra|lra|].
    change (FD f s c m) with N in El. exists (d * sgn y), lat, (rlon x y), (rlat_z r z).
    split; [apply Rabs_le; lra|]. split; [apply exact_low; auto; lra|].
    pose proof (rlat_z_bound r z). auto 15.
  - exists (t - / 1000000).
    assert (Z6 : 6 / 10 * r <= Rabs z) by nra.
    pose proof (high_cap r x y z ltac:(lra) Hball Z6) as Cap.
    assert (Rr : rho x y <= r).
    { rewrite <- (sqrt_square r) by lra. apply sqrt_le_1_alt. nra. }
    destruct (lat_high_acc f s c m G P24 Hc Cpi Hr Ha x y z r 23 (-60) Hs ltac:(lra) Rr) as (lat & El & Fl & Dl).
    { apply norm2_le; auto. lra. }
    change (FD f s c m) with N in El. exists (d * sgn y), lat, (rlon x y), (rlat_xy r x y z).
    split; [apply Rabs_le; lra|]. split; [apply exact_high; auto; lra|].
    assert (0 <= rho x y) by apply sqrt_pos. pose proof (rlat_xy_bound r x y z ltac:(lra)). auto 15.
Qed.
End Assemble.

Lemma tol_64 : tol1 b64 <= 5 / 1000000.
Proof.
  unfold tol1. cbn [fprec b64]. assert (L : sqrt (bpow radix2 (- (53))) <= 12 / 1000000000); [|lra].
  rewrite <- (sqrt_square (12 / 1000000000)) by lra. apply sqrt_le_1_alt. bp. change (2 ^ (- - (53)))%Z with 9007199254740992%Z. lra.
Qed.
Lemma tol_32 : tol1 b32 <= 95 / 1000.
Proof.
  unfold tol1. cbn [fprec b32]. assert (L : sqrt (bpow radix2 (- (24))) <= / 4096); [|lra].
  rewrite <- (sqrt_square (/ 4096)) by lra. apply sqrt_le_1_alt. bp. change (2 ^ (- - (24)))%Z with 16777216%Z. lra.
Qed.
Lemma Cpi_64 : Rabs (pi64 - PI) <= bpow radix2 (- fprec b64) * PI.
Proof.
  pose proof PI_bounds. cbn [fprec b64]. bp. change (2 ^ (- - (53)))%Z with 9007199254740992%Z. unfold pi64. apply Rabs_le. lra.
Qed.
Lemma Cpi_32 : Rabs (pi32 - PI) <= bpow radix2 (- fprec b32) * PI.
Proof.
  pose proof PI_bounds. cbn [fprec b32]. bp. change (2 ^ (- - (24)))%Z with 16777216%Z. unfold pi32. apply Rabs_le. lra.
Qed.

Section Versions.
Variable m : libm.

(** the threshold test on the normalised z *)
Lemma branch_norm f r t z : good f -> (24 <= fprec f)%Z -> 7 / 10 <= t <= 9 / 10 -> 0 < r ->
  branch (Rltb (Rabs (rd f (z / r))) (rd f t)) r t z.
Proof.
  intros G P24 Bt Hr. pose proof (u_pos f) as U0. pose proof (u_small f P24) as U1.
  assert (K : forall w, 1 / 2 <= w <= 1 -> Rabs (rd f w - w) <= / 10000000).
  { intros w Hw. eapply Rle_trans; [apply (rd_err1 f G P24 w 1)|]; [rewrite Rabs_pos_eq; lra|lra|lra]. }
  rewrite rd_abs by assumption. set (w := Rabs (z / r)). pose proof (K t ltac:(lra)) as Kt. apply Rabs_le_inv in Kt.
  unfold branch. destruct (Rltb (rd f w) (rd f t)) eqn:E; fold w.
  - apply Rltb_true in E. destruct (Rlt_dec w (t + / 1000000)) as [|L]; [assumption|exfalso].
    pose proof (K (t + / 1000000) ltac:(lra)) as K2. apply Rabs_le_inv in K2.
    pose proof (rd_le f G (t + / 1000000) w ltac:(lra)). lra.
  - apply Rltb_false in E. destruct (Rle_dec (t - / 1000000) w) as [|L]; [assumption|exfalso].
    pose proof (K (t - / 1000000) ltac:(lra)) as K2. apply Rabs_le_inv in K2.
    pose proof (rd_le f G w (t - / 1000000) ltac:(lra)). lra.
Qed.
(** the threshold test on z itself *)
Lemma branch_z r a t z : 1000 <= r -> Rabs (a - t * r) <= / 10000000 * (5 * r) ->
  branch (Rltb z a && Rltb (- a) z) r t z.
Proof.
  intros Hr Ha. apply Rabs_le_inv in Ha.
  assert (Rz : Rabs (z / r) * r = Rabs z).
  { unfold Rdiv. rewrite Rabs_mult, Rabs_inv, (Rabs_pos_eq r) by lra. field. lra. }
  unfold branch. set (w := Rabs (z / r)) in *. destruct (Rltb z a && Rltb (- a) z) eqn:E.
  - apply andb_true_iff in E. destruct E as [E1 E2]. apply Rltb_true in E1, E2.
    assert (Rabs z < a) by (apply Rabs_def1; lra).
    destruct (Rlt_dec w (t + / 1000000)) as [|L]; [assumption|exfalso]. apply Rnot_lt_le in L.
    assert ((t + / 1000000) * r <= w * r) by (apply Rmult_le_compat_r; lra). lra.
  - assert (a <= Rabs z).
    { apply andb_false_iff in E. destruct E as [E|E]; apply Rltb_false in E; [pose proof (Rle_abs z)|pose proof (Rle_abs (- z)) as Q; rewrite Rabs_Ropp in Q]; lra. }
    destruct (Rle_dec (t - / 1000000) w) as [|L]; [assumption|exfalso]. apply Rnot_le_lt in L.
    assert (w * r <= (t - / 1000000) * r) by (apply Rmult_le_compat_r; lra). lra.
Qed.

Lemma numpy_near f c : good f -> (24 <= fprec f)%Z -> (femin f + fprec f - 1 <= -120)%Z -> (50 < femax f)%Z -> consts f c ->
  Rabs (c - PI) <= bpow radix2 (- fprec f) * PI -> in_range f c m -> accurate f m ->
  forall x y z, position f 6370997 x y z ->
  near_exact 6370997 (8 / 10) (tol1 f) x y z (@xyz2lonlat _ (FN f f c m) (Some x, Some y, Some z)).
Proof.
  intros G P E M C Cp HR HA x y z Hp. set (N := FN f f c m). unfold xyz2lonlat.
  assert (ER : @EARTH_RADIUS _ N = Some 6370997) by (unfold EARTH_RADIUS; apply (fit_IZR f 6370997); auto; lia).
  assert (T : @ndiv _ N (nz 8) (nz 10) = Some (rd f (8 / 10))).
  { cbn [ndiv nz N FN]. rewrite (fit_IZR f 8), (fit_IZR f 10) by (auto; lia). cbn [bind2].
    destruct (Req_EM_T 10 0) as [D|_]; [lra|]. apply (fit_bound f (8 / 10) 1); auto; [lia|]. rewrite Rabs_pos_eq; lra. }
  rewrite ER, T.
  destruct (assemble f f c m G P E M C Cp HR HA 6370997 (8 / 10) x y z (Rltb (Rabs (rd f (z / 6370997))) (rd f (8 / 10))))
    as (thr & lon & lat & lon0 & lat0 & H1 & H2 & H3 & H4 & H5 & H6 & H7 & H8 & H9 & H10); auto; try lra.
  { apply gfI; auto. lia. }
  { apply branch_norm; auto; lra. }
  exists thr, lon, lat, lon0, lat0. split; [exact H1|]. split; [exact H2|]. split; [|auto].
  unfold xyz2lonlat_at. change (FN f f c m) with N in H3, H4.
  pose proof (sgn_np f f c m G P) as Sg. change (FD f f c m) with N in Sg. rewrite !Sg, H3. f_equal.
  assert (Bz : Rabs z <= 7200000).
  { destruct Hp as (_ & _ & _ & Hb & _). apply Rabs_le. nra. }
  assert (Bq : Rabs (z / 6370997) <= 2).
  { unfold Rdiv. rewrite Rabs_mult, (Rabs_pos_eq (/ 6370997)) by lra. lra. }
  destruct (fit_bound f (z / 6370997) 2 G P ltac:(lia) Bq) as [Fq Bq2].
  assert (Eq : @ndiv _ N (Some z) (Some 6370997) = Some (rd f (z / 6370997))).
  { cbn [ndiv N FN bind2]. destruct (Req_EM_T 6370997 0) as [D|_]; [lra|exact Fq]. }
  rewrite Eq. set (q := rd f (z / 6370997)) in *.
  assert (Ea : @np_abs _ N (Some q) = Some (Rabs q)).
  { unfold np_abs. assert (Z0 : @nz _ N 0 = Some 0) by (apply (fit_IZR f 0); auto; lia). rewrite Z0.
    cbn [nltb nsub N FN liftb bind2]. unfold Rltb. destruct (Rlt_dec q 0) as [L|L].
    - rewrite Rabs_left by assumption. replace (0 - q) with (- q) by ring. apply fit_fl.
      destruct (fit_inv f G _ _ Fq) as [_ [F1 F2]]. split; [now apply generic_format_opp|now rewrite Rabs_Ropp].
    - rewrite Rabs_pos_eq by lra. reflexivity. }
  rewrite Ea. cbn [nltb N FN liftb]. fold N. rewrite Eq in H4. exact H4.
Qed.

Lemma st_acc s v : good s -> (24 <= fprec s)%Z -> Rabs v <= 181 ->
  fit s v = Some (rd s v) /\ Rabs (rd s v - v) <= 182 * bpow radix2 (- fprec s).
Proof.
  intros G P B. destruct (fit_bound s v 181 G P ltac:(lia) B) as [F _]. split; [exact F|].
  eapply Rle_trans; [apply (rd_err1 s G P v 181)|]; try lra. pose proof (u_pos s). lra.
Qed.

Lemma cython_near s : good s -> (24 <= fprec s)%Z ->
  (forall x, generic_format radix2 (FLT_exp (femin s) (fprec s)) x -> generic_format radix2 (FLT_exp (femin b64) (fprec b64)) x) ->
  (forall x, fl s x -> fl b64 x) ->
  in_range b64 pi64 m -> accurate b64 m -> forall x y z, position s 6370997 x y z ->
  near_exact 6370997 (8 / 10) (tol1 b64 + 182 * bpow radix2 (- fprec s)) x y z
    (let N := FN b64 s pi64 m in @cy_xyz2lonlat _ N true (nst (ndiv (nz 8) (nz 10))) (Some x, Some y, Some z)).
Proof.
  intros G P L1 L2 HR HA x y z (Fx & Fy & Fz & Hb & Ho). cbv zeta. set (N := FN b64 s pi64 m).
  assert (G64 : good b64) by apply good_b64. assert (P64 : (24 <= fprec b64)%Z) by (cbn; lia).
  assert (Hp : position b64 6370997 x y z) by (repeat split; auto; apply L2; auto).
  assert (T : exists t, @nst _ N (ndiv (nz 8) (nz 10)) = Some t /\ Rabs (t - 8 / 10) <= 2 / 10000000 /\
                        generic_format radix2 (FLT_exp (femin b64) (fprec b64)) t).
  { cbn [ndiv nz nst N FN]. rewrite (fit_IZR b64 8), (fit_IZR b64 10) by (auto; cbn; lia). cbn [bind2].
    destruct (Req_EM_T 10 0) as [D|_]; [lra|].
    pose proof (rd_err1 b64 G64 P64 (8 / 10) 1 ltac:(rewrite Rabs_pos_eq; lra) ltac:(lra)) as K.
    pose proof (u_small b64 P64). pose proof (u_small s P). apply Rabs_le_inv in K.
    rewrite fit_rd by (auto; rewrite Rabs_pos_eq; lra). cbn [bind1].
    set (t := rd b64 (8 / 10)) in *.
    pose proof (rd_err1 s G P t 1 ltac:(rewrite Rabs_pos_eq; lra) ltac:(lra)) as K2.
    apply Rabs_le_inv in K2. exists (rd s t). split; [apply fit_rd; auto; rewrite Rabs_pos_eq; lra|]. split; [apply Rabs_le; lra|].
    apply L1. apply rd_gf; auto. }
  destruct T as (t & Et & Bt & Ft). rewrite Et. apply Rabs_le_inv in Bt.
  set (R0 := 6370997) in *.
  assert (FR : generic_format radix2 (FLT_exp (femin b64) (fprec b64)) R0) by (apply gfI; auto; lia).
  assert (P1 : @nmul _ N (Some t) (Some R0) = Some (rd b64 (t * R0))).
  { cbn [nmul N FN bind2]. apply (fit_bound b64 (t * R0) 6370997); auto; [cbn; lia|]. unfold R0. rewrite Rabs_pos_eq; lra. }
  assert (P2 : @nmul _ N (Some (-1)) (Some t) = Some (- t)).
  { cbn [nmul N FN bind2]. replace (-1 * t) with (- t) by ring.
    rewrite <- (rd_id b64 (- t)) at 2 by (now apply generic_format_opp).
    apply (fit_bound b64 (- t) 1); auto; [cbn; lia|]. rewrite Rabs_Ropp, Rabs_pos_eq; lra. }
  assert (P3 : @nmul _ N (Some (- t)) (Some R0) = Some (- rd b64 (t * R0))).
  { cbn [nmul N FN bind2]. replace (- t * R0) with (- (t * R0)) by ring. rewrite <- rd_opp.
    apply (fit_bound b64 (- (t * R0)) 6370997); auto; [cbn; lia|]. unfold R0. rewrite Rabs_Ropp, Rabs_pos_eq; lra. }
  set (a := rd b64 (t * R0)) in *.
  destruct (assemble b64 s pi64 m G64 P64 ltac:(cbn; lia) ltac:(cbn; lia) consts_64 Cpi_64 HR HA R0 (8 / 10) x y z (Rltb z a && Rltb (- a) z))
    as (thr & lon & lat & lon0 & lat0 & H1 & H2 & H3 & H4 & H5 & H6 & H7 & H8 & H9 & H10); auto; try (unfold R0; lra).
  { apply branch_z; [unfold R0; lra|].
    pose proof (rd_err1 b64 G64 P64 (t * R0) R0 ltac:(rewrite Rabs_pos_eq; unfold R0; lra) ltac:(unfold R0; lra)) as K. fold a in K.
    pose proof (u_small b64 P64). apply Rabs_le_inv in K. apply Rabs_le. unfold R0 in *. lra. }
  change (FN b64 s pi64 m) with N in H3, H4.
  pose proof tol_64 as T64.
  assert (K : forall v v0, Rabs (v - v0) <= tol1 b64 -> Rabs v0 <= 180 -> Rabs v <= 181).
  { intros v v0 A B. apply Rabs_le_inv in A, B. apply Rabs_le. lra. }
  destruct (st_acc s lon G P (K lon lon0 H7 H9)) as [S1 S2].
  destruct (st_acc s lat G P (K lat lat0 H8 ltac:(lra))) as [S3 S4].
  exists thr, (rd s lon), (rd s lat), lon0, lat0. split; [exact H1|]. split; [exact H2|]. split.
  - unfold cy_xyz2lonlat, EARTH_RADIUS. pose proof (sgn_c b64 s pi64 m G64 P64) as Sg. change (FD b64 s pi64 m) with N in Sg.
    pose proof (nz_small b64 s pi64 m G64 P64) as Nz. change (FI b64 s pi64 m) with N in Nz.
    rewrite !Sg, (Nz 6370997%Z), (Nz (-1)%Z) by lia. fold R0. rewrite P1, P2, P3, H3. cbn [nltb N FN liftb andb]. fold N. rewrite H4.
    cbn [nst N FN bind1]. now rewrite S1, S3.
  - split.
    + replace (rd s lon - lon0) with ((rd s lon - lon) + (lon - lon0)) by ring. eapply Rle_trans; [apply Rabs_triang|]. lra.
    + replace (rd s lat - lat0) with ((rd s lat - lat) + (lat - lat0)) by ring. eapply Rle_trans; [apply Rabs_triang|]. lra.
Qed.

Lemma vii_radius : exists r, @MEAN_EARTH_RADIUS _ (F64 m) = Some r /\ 6371008 <= r <= 6371009 /\
  Rabs (r - 63710087714 / 10000) <= / 1000000000 /\ generic_format radix2 (FLT_exp (femin b64) (fprec b64)) r.
Proof.
  unfold MEAN_EARTH_RADIUS. cbn [ndiv nz F64 FN]. rewrite (fit_IZR b64 10000) by (auto using good_b64; cbn; lia).
  assert (F : fit b64 (IZR 63710087714) = Some (IZR 63710087714)).
  { apply fit_fl. split; [apply gf_IZR; [apply good_b64|cbn; lia]|].
    rewrite Rabs_pos_eq by lra. eapply Rlt_le_trans; [|apply (bpow_le radix2 40); cbn; lia].
    bp. change (2 ^ 40)%Z with 1099511627776%Z. lra. }
  rewrite F. cbn [bind2]. destruct (Req_EM_T 10000 0) as [D|_]; [lra|].
  assert (L : 6371008 <= rd b64 (63710087714 / 10000)).
  { apply rd_ge_gf; [apply good_b64| |lra]. apply gfI; auto using good_b64; cbn; lia. }
  assert (U : rd b64 (63710087714 / 10000) <= 6371009).
  { apply rd_le_gf; [apply good_b64| |lra]. apply gfI; auto using good_b64; cbn; lia. }
  exists (rd b64 (63710087714 / 10000)). split; [|split; [lra|split]].
  - apply (fit_bound b64 (63710087714 / 10000) 6371009); auto using good_b64; try (cbn; lia). rewrite Rabs_pos_eq; lra.
  - eapply Rle_trans; [apply (rd_err1 b64 good_b64 ltac:(cbn; lia) (63710087714 / 10000) 6371009); [rewrite Rabs_pos_eq; lra|lra]|].
    cbn [fprec b64]. bp. change (2 ^ (- - (53)))%Z with 9007199254740992%Z. lra.
  - apply rd_gf, good_b64.
Qed.

Lemma vii_near t : in_range b64 pi64 m -> accurate b64 m -> 7 / 10 <= t <= 9 / 10 ->
  forall x y z, position b64 6371008 x y z ->
  exists r, @MEAN_EARTH_RADIUS _ (F64 m) = Some r /\ Rabs (r - 63710087714 / 10000) <= / 1000000000 /\
    near_exact r t (tol1 b64) x y z (@vii_xyz2lonlat _ (F64 m) (Some t) (Some x, Some y, Some z)).
Proof.
  intros HR HA Ht x y z Hp. destruct vii_radius as (r & Er & Br & Dr & Fr). exists r. split; [exact Er|]. split; [exact Dr|].
  assert (G64 : good b64) by apply good_b64. assert (P64 : (24 <= fprec b64)%Z) by (cbn; lia).
  assert (Hp' : position b64 r x y z).
  { destruct Hp as (Fx & Fy & Fz & Hb & Ho). repeat split; try apply Fx; try apply Fy; try apply Fz; auto. nra. }
  set (N := F64 m) in *.
  assert (P1 : @nmul _ N (Some t) (Some r) = Some (rd b64 (t * r))).
  { cbn [nmul N F64 FN bind2]. apply (fit_bound b64 (t * r) 7000000); auto; [cbn; lia|]. rewrite Rabs_pos_eq; nra. }
  set (a := rd b64 (t * r)) in *.
  assert (P3 : @nsub _ N (@nz _ N 0) (Some a) = Some (- a)).
  { pose proof (nz_small b64 b64 pi64 m G64 P64) as Nz. change (FI b64 b64 pi64 m) with N in Nz. rewrite Nz by lia.
    cbn [nsub N F64 FN bind2]. replace (0 - a) with (- a) by ring. apply fit_fl. unfold a.
    destruct (fit_bound b64 (t * r) 7000000 G64 P64 ltac:(cbn; lia)) as [F _]; [rewrite Rabs_pos_eq; nra|].
    destruct (fit_inv b64 G64 _ _ F) as [_ [F1 F2]]. split; [now apply generic_format_opp|now rewrite Rabs_Ropp]. }
  destruct (assemble b64 b64 pi64 m G64 P64 ltac:(cbn; lia) ltac:(cbn; lia) consts_64 Cpi_64 HR HA r t x y z (Rltb z a && Rltb (- a) z))
    as (thr & lon & lat & lon0 & lat0 & H1 & H2 & H3 & H4 & H5 & H6 & H7 & H8 & _); auto; try lra.
  { apply branch_z; [lra|].
    pose proof (rd_err1 b64 G64 P64 (t * r) r ltac:(rewrite Rabs_pos_eq; nra) ltac:(lra)) as K. fold a in K.
    pose proof (u_small b64 P64). apply Rabs_le_inv in K. apply Rabs_le. nra. }
  change (FN b64 b64 pi64 m) with N in H3, H4.
  exists thr, lon, lat, lon0, lat0. split; [exact H1|]. split; [exact H2|]. split; [|auto].
  unfold vii_xyz2lonlat. pose proof (sgn_np b64 b64 pi64 m G64 P64) as Sg. change (FD b64 b64 pi64 m) with N in Sg.
  rewrite !Sg, Er, P1, P3, H3. cbn [nltb N F64 FN liftb andb]. fold N. now rewrite H4.
Qed.
End Versions.

Lemma near_weaken r t e e' x y z ll : e <= e' -> near_exact r t e x y z ll -> near_exact r t e' x y z ll.
Proof.
  intros L (thr & lon & lat & lon0 & lat0 & H1 & H2 & H3 & H4 & H5). exists thr, lon, lat, lon0, lat0. repeat split; auto; lra.
Qed.

(** ** C72 *)
(** geointerpolator.xyz2lonlat on double and on float arrays *)
Theorem C72_numpy : forall m x y z,
  (in_range b64 pi64 m -> accurate b64 m -> position b64 6370997 x y z ->
   near_exact 6370997 (8 / 10) (5 / 1000000) x y z (@xyz2lonlat _ (F64 m) (Some x, Some y, Some z))) /\
  (in_range b32 pi32 m -> accurate b32 m -> position b32 6370997 x y z ->
   near_exact 6370997 (8 / 10) (1 / 10) x y z (@xyz2lonlat _ (F32 m) (Some x, Some y, Some z))).
Proof.
  intros m x y z. split; intros HR HA Hp.
  - apply (near_weaken _ _ (tol1 b64)); [apply tol_64|].
    apply (numpy_near m b64 pi64); auto using good_b64, consts_64, Cpi_64; cbn; lia.
  - apply (near_weaken _ _ (tol1 b32)); [pose proof tol_32; lra|].
    apply (numpy_near m b32 pi32); auto using good_b32, consts_32, Cpi_32; cbn; lia.
Qed.
Print Assumptions C72_numpy.

(** xyz2lonlat of _modis_utils.pyx on double and on float arrays *)
Theorem C72_cython : forall m x y z, in_range b64 pi64 m -> accurate b64 m ->
  (position b64 6370997 x y z ->
   near_exact 6370997 (8 / 10) (5 / 1000000) x y z
     (let N := F64 m in @cy_xyz2lonlat _ N true (nst (ndiv (nz 8) (nz 10))) (Some x, Some y, Some z))) /\
  (position b32 6370997 x y z ->
   near_exact 6370997 (8 / 10) (16 / 1000000) x y z
     (let N := F64_32 m in @cy_xyz2lonlat _ N true (nst (ndiv (nz 8) (nz 10))) (Some x, Some y, Some z))).
Proof.
  intros m x y z HR HA. split; intros Hp.
  - eapply near_weaken; [|apply (cython_near m b64); auto using good_b64; cbn; lia].
    cbn [fprec b64]. unfold tol1. cbn [fprec b64]. assert (L : sqrt (bpow radix2 (- (53))) <= 12 / 1000000000).
    { rewrite <- (sqrt_square (12 / 1000000000)) by lra. apply sqrt_le_1_alt. bp. change (2 ^ (- - (53)))%Z with 9007199254740992%Z. lra. }
    assert (bpow radix2 (- (53)) <= / 1000000000000000); [|lra]. bp. change (2 ^ (- - (53)))%Z with 9007199254740992%Z. lra.
  - eapply near_weaken; [|apply (cython_near m b32); auto using good_b32, gf_larger, fl_larger; cbn; lia].
    pose proof tol_64. cbn [fprec b32]. assert (bpow radix2 (- (24)) <= 6 / 100000000); [|lra].
    bp. change (2 ^ (- - (24)))%Z with 16777216%Z. lra.
Qed.
Print Assumptions C72_cython.

(** _xyz2lonlat of viiinterpolator.py on double arrays; [r] is the rounded mean Earth radius *)
Theorem C72_vii : forall m t x y z, in_range b64 pi64 m -> accurate b64 m -> 7 / 10 <= t <= 9 / 10 -> position b64 6371008 x y z ->
  exists r, Rabs (r - 63710087714 / 10000) <= / 1000000000 /\
    near_exact r t (5 / 1000000) x y z (@vii_xyz2lonlat _ (F64 m) (Some t) (Some x, Some y, Some z)).
Proof.
  intros m t x y z HR HA Ht Hp. destruct (vii_near m t HR HA Ht x y z Hp) as (r & _ & Dr & H). exists r. split; [exact Dr|].
  eapply near_weaken; [apply tol_64|exact H].
Qed.
Print Assumptions C72_vii.

(** a correctly rounding library is accurate *)
Theorem C72_exact_libm : accurate b64 exact_libm /\ accurate b32 exact_libm.
Proof.
  assert (K : forall f, good f -> (24 <= fprec f)%Z -> (femin f <= -140)%Z -> accurate f exact_libm).
  { intros f G P E. pose proof (u_pos f) as U.
    assert (T : bpow radix2 (femin f) / 2 <= bpow radix2 (-140)).
    { pose proof (bpow_le radix2 _ _ E). pose proof (bpow_gt_0 radix2 (femin f)). lra. }
    pose proof (u_small f P) as US.
    assert (W : forall v, Rabs v <= 4 -> Rabs (rd f v - v) <= 8 * bpow radix2 (- fprec f)).
    { intros v Hv. eapply Rle_trans; [apply (rd_err1 f G P v 4); lra|]. lra. }
    unfold accurate. cbn [m_cos m_sin m_acos m_asin exact_libm]. pose proof PI_4. 
    split; [|split; [|split]].
    - intros a _ _. eapply Rle_trans; [apply rd_err; auto|]. pose proof (Rabs_pos (cos a)). nra.
    - intros a _ _. eapply Rle_trans; [apply rd_err; auto|]. pose proof (Rabs_pos (sin a)). nra.
    - intros q _ _. apply W. pose proof (acos_bound q). rewrite Rabs_pos_eq; lra.
    - intros q _ _. apply W. pose proof (asin_bound q). apply Rabs_le. lra. }
  split; apply K; auto using good_b64, good_b32; cbn; lia.
Qed.
Print Assumptions C72_exact_libm.
Example C72_position : position b32 6370997 3185498 (-3185498) 4505176 /\ position b64 6371008 (-6371008) 0 0 /\
  in_range b64 pi64 exact_libm /\ in_range b32 pi32 exact_libm.
Proof. destruct C71_position, C71_exact_libm. auto. Qed.

(** The error on float arrays is no artefact of the proof: on the equator every point within
    1000 m of the prime meridian gets longitude 0. *)
Theorem C72_float_meridian : forall m y z, rd b32 (m_acos m 1) = 0 -> fl b32 y -> Rabs y <= 1000 ->
  fst (@xyz2lonlat _ (F32 m) (Some 6370997, Some y, z)) = Some 0.
Proof.
  intros m y z A Fy By. assert (G : good b32) by apply good_b32.
  assert (Small : forall v, Rabs v <= 2 ^ 47 -> fit b32 v = Some (rd b32 v)).
  { intros v Hv. apply (fit_some b32 good_b32 v 47); [cbn; lia|]. eapply Rle_trans; [exact Hv|].
    bp. change (2 ^ 47)%Z with 140737488355328%Z. lra. }
  assert (E1 : rd b32 (6370997 * 6370997) = 9677315 * 4194304).
  { rewrite (rd_eq b32 _ 46 9677315); cbn [fprec femin b32]; [..|lia|].
    - bp. change (2 ^ (46 - 24))%Z with 4194304%Z. reflexivity.
    - bp. change (2 ^ (46 - 1))%Z with 35184372088832%Z. change (2 ^ 46)%Z with 70368744177664%Z. lra.
    - bp. change (2 ^ (- (24 - 46)))%Z with 4194304%Z. apply Rabs_def1; lra. }
  apply Rabs_le_inv in By.
  assert (E2 : 0 <= rd b32 (y * y) <= 1000000).
  { split; [apply rd_ge_gf; auto; [apply generic_format_0|nra]|]. apply rd_le_gf; auto; [|nra]. apply gfI; auto; cbn; lia. }
  assert (E3 : rd b32 (9677315 * 4194304 + rd b32 (y * y)) = 9677315 * 4194304).
  { rewrite (rd_eq b32 _ 46 9677315); cbn [fprec femin b32]; [..|lia|].
    - bp. change (2 ^ (46 - 24))%Z with 4194304%Z. reflexivity.
    - bp. change (2 ^ (46 - 1))%Z with 35184372088832%Z. change (2 ^ 46)%Z with 70368744177664%Z. lra.
    - bp. change (2 ^ (- (24 - 46)))%Z with 4194304%Z. apply Rabs_def1; lra. }
  assert (S : 6370996.8 <= sqrt (9677315 * 4194304) <= 6370996.9).
  { split; [rewrite <- (sqrt_square 6370996.8) by lra|rewrite <- (sqrt_square 6370996.9) by lra]; apply sqrt_le_1_alt; lra. }
  assert (E4 : rd b32 (sqrt (9677315 * 4194304)) = 6370997).
  { rewrite (rd_eq b32 _ 23 12741994); cbn [fprec femin b32]; [..|lia|].
    - bp. change (2 ^ (- (23 - 24)))%Z with 2%Z. lra.
    - bp. change (2 ^ (23 - 1))%Z with 4194304%Z. change (2 ^ 23)%Z with 8388608%Z. lra.
    - bp. change (2 ^ (24 - 23))%Z with 2%Z. apply Rabs_def1; lra. }
  unfold xyz2lonlat, xyz2lonlat_at. cbn [fst]. set (N := F32 m).
  cbn [nmul nadd nsqrt ndiv nacos N F32 FN bind2 bind1].
  rewrite (Small (6370997 * 6370997)) by (rewrite Rabs_pos_eq; lra). rewrite E1.
  rewrite (Small (y * y)) by (rewrite Rabs_pos_eq; nra). cbn [bind2].
  rewrite Small by (rewrite Rabs_pos_eq; lra). rewrite E3. cbn [bind1].
  destruct (Rlt_dec (9677315 * 4194304) 0) as [L|_]; [lra|].
  rewrite Small by (rewrite Rabs_pos_eq; lra). rewrite E4. destruct (Req_EM_T 6370997 0) as [L|_]; [lra|].
  replace (6370997 / 6370997) with 1 by lra. rewrite Small by (rewrite Rabs_pos_eq; lra).
  rewrite (rd_id b32 1) by (apply (gfI b32 1); auto; cbn; lia). 
  cbn [bind1]. destruct (Rle_dec (Rabs 1) 1) as [_|L]; [|rewrite Rabs_R1 in L; lra].
  assert (F0 : fit b32 (m_acos m 1) = Some 0).
  { unfold fit. rewrite A, Rabs_R0. destruct (Rlt_dec 0 _) as [_|L]; [reflexivity|]. exfalso. apply L, bpow_gt_0. }
  rewrite F0.
  pose proof (sgn_np b32 b32 pi32 m G ltac:(cbn; lia) y) as Sg. change (FD b32 b32 pi32 m) with N in Sg. rewrite Sg.
  destruct (r2d_acc b32 b32 pi32 m G ltac:(cbn; lia) consts_32 Cpi_32) as (k & _ & _ & Er).
  change (FD b32 b32 pi32 m) with N in Er. rewrite Er, Rmult_0_l.
  assert (F : fit b32 0 = Some 0) by (rewrite Small by (rewrite Rabs_R0; lra); now rewrite rd_0).
  rewrite F. cbn [nmul N F32 FN bind2]. rewrite Rmult_0_l. exact F.
Qed.
Print Assumptions C72_float_meridian.
(** whereas 1000 m are 0.0089 degrees *)
Example C72_float_meridian_case : rd b32 (m_acos exact_libm 1) = 0 /\ fl b32 1000 /\
  exists lon, fst (@xyz2lonlat _ RN (Some 6370997, Some 1000, Some 0)) = Some lon /\ 89 / 10000 < lon.
Proof.
  cbn [m_acos exact_libm]. rewrite acos_1, rd_0. split; [reflexivity|]. split.
  { split; [apply (gfI b32 1000); auto using good_b32; cbn; lia|]. rewrite Rabs_pos_eq by lra.
    eapply Rlt_le_trans; [|apply (bpow_le radix2 10); cbn; lia]. bp. change (2 ^ 10)%Z with 1024%Z. lra. }
  exists (rlon 6370997 1000). split.
  - unfold xyz2lonlat. assert (E : @EARTH_RADIUS _ RN = Some 6370997) by reflexivity. rewrite E.
    assert (T : @ndiv _ RN (@nz _ RN 8) (@nz _ RN 10) = Some (8 / 10)) by (apply RNdiv_some; lra). rewrite T, exact_low; try lra; [reflexivity|].
    unfold Rdiv. rewrite Rmult_0_l, Rabs_R0. lra.
  - destruct (rlon_direction 6370997 1000) as [_ D]; [lra|lra|]. pose proof (rlon_bound 6370997 1000) as B.
    assert (P : 3.1415 < PI < 3.1416) by (pose proof PI_bounds; lra). set (l := rlon 6370997 1000) in *.
    assert (R1 : rho 6370997 1000 <= 6370998).
    { unfold rho. rewrite <- (sqrt_square 6370998) by lra. apply sqrt_le_1_alt. lra. }
    assert (R0 : 0 < rho 6370997 1000) by (apply rho_pos; lra).
    assert (S0 : 0 < sin (l * (PI / 180))) by (apply (Rmult_lt_reg_l (rho 6370997 1000)); lra).
    assert (L0 : 0 < l * (PI / 180)).
    { destruct (Rlt_dec 0 (l * (PI / 180))) as [|K]; [assumption|exfalso].
      destruct (Req_dec (l * (PI / 180)) 0) as [Z|Z]; [rewrite Z, sin_0 in S0; lra|].
      assert (-PI <= l * (PI / 180)) by nra.
      pose proof (sin_le_0 (- (l * (PI / 180)))) as Q. 
      assert (sin (l * (PI / 180)) <= 0); [|lra].
      rewrite <- (Ropp_involutive (l * (PI / 180))), sin_neg. pose proof (sin_ge_0 (- (l * (PI / 180))) ltac:(lra) ltac:(lra)). lra. }
    pose proof (sin_lt_x _ L0) as Sx. nra.
Qed.

