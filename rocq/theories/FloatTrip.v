(** Lemmas for the round trip from longitude/latitude to cartesian coordinates and back in IEEE arithmetic. *)
From Coq Require Import ZArith Lia Bool Reals Lra.
From Flocq.Core Require Import Core.
From Verif Require Import Base Num Geo GeoProofs Float PiBound FloatGeo FloatAcc.
Open Scope R_scope.

(** ** Angles of perturbed positions *)
Lemma PI_b : 3.1415 < PI < 3.1416.
Proof. pose proof PI_bounds. lra. Qed.

Lemma angle_small d e : - PI <= d <= PI -> 0 < cos d -> Rabs (sin d) <= e -> Rabs d <= PI / 2 * e.
Proof.
  intros Hd Hc Hs. pose proof PI_b as P.
  assert (K : forall a, 0 <= a <= PI -> 0 < cos a -> Rabs (sin a) <= e -> a <= PI / 2 * e).
  { clear - P. intros a Ha Hc Hs. destruct (Rle_dec a (PI / 2)) as [L|L].
    - pose proof (sin_chord a ltac:(lra)) as C. pose proof (sin_ge_0 a ltac:(lra) ltac:(lra)). rewrite Rabs_pos_eq in Hs by lra.
      replace a with (PI / 2 * (2 / PI * a)) by (field; lra). apply Rmult_le_compat_l; lra.
    - exfalso. pose proof (cos_le_0 a ltac:(lra) ltac:(lra)). lra. }
  unfold Rabs at 1. destruct (Rcase_abs d) as [L|L].
  - apply K; [lra|now rewrite cos_neg|now rewrite sin_neg, Rabs_Ropp].
  - apply K; auto. lra.
Qed.

Lemma wrap d : - (3 * PI) <= d <= 3 * PI -> exists k, (-1 <= k <= 1)%Z /\ - PI <= d - 2 * IZR k * PI <= PI.
Proof.
  intros H. pose proof PI_b. destruct (Rle_dec d PI) as [L|L]; [destruct (Rle_dec (- PI) d) as [L2|L2]|].
  - exists 0%Z. split; [lia|]. lra.
  - exists (-1)%Z. split; [lia|]. lra.
  - exists 1%Z. split; [lia|]. lra.
Qed.

Lemma rlon_sign x y : (0 <= y -> 0 <= rlon x y) /\ (y <= 0 -> rlon x y <= 0).
Proof.
  unfold rlon. pose proof (acos_bound (x / rho x y)) as B. pose proof deg_factor_pos as D.
  assert (0 <= acos (x / rho x y) * (180 / PI)) by (apply Rmult_le_pos; lra).
  unfold sgn. split; intros Hy.
  - destruct (Rlt_dec 0 y); [|destruct (Rlt_dec y 0)]; lra.
  - destruct (Rlt_dec 0 y); [|destruct (Rlt_dec y 0)]; lra.
Qed.

Section Perturbed.
Variables (K lam e1 e2 ep : R).
Hypothesis HK : 0 < K.
Hypothesis Hl : Rabs lam <= 4.
Hypothesis H1 : Rabs e1 <= ep.
Hypothesis H2 : Rabs e2 <= ep.
Hypothesis He : ep <= / 100.
Let x := K * (cos lam + e1).
Let y := K * (sin lam + e2).

Lemma pert_rho : x * x + y * y <> 0 /\ Rabs (rho x y - K) <= 21 / 10 * ep * K.
Proof.
  pose proof (COS_bound lam) as Bc. pose proof (SIN_bound lam) as Bs. pose proof (sin2_cos2 lam) as T. unfold Rsqr in T.
  apply Rabs_le_inv in H1, H2.
  assert (E : x * x + y * y = K * K * (1 + 2 * (e1 * cos lam + e2 * sin lam) + e1 * e1 + e2 * e2)).
  { unfold x, y. replace 1 with (sin lam * sin lam + cos lam * cos lam) by exact T. ring. }
  assert (P1 : Rabs (e1 * cos lam + e2 * sin lam) <= 2 * ep).
  { eapply Rle_trans; [apply Rabs_triang|]. rewrite !Rabs_mult.
    assert (Rabs (cos lam) <= 1) by (apply Rabs_le; lra). assert (Rabs (sin lam) <= 1) by (apply Rabs_le; lra).
    assert (Rabs e1 <= ep) by (apply Rabs_le; lra). assert (Rabs e2 <= ep) by (apply Rabs_le; lra).
    pose proof (Rabs_pos e1). pose proof (Rabs_pos e2). pose proof (Rabs_pos (cos lam)). pose proof (Rabs_pos (sin lam)). nra. }
  apply Rabs_le_inv in P1. assert (0 <= ep) by lra.
  assert (Q : (1 - 2 * ep) * (1 - 2 * ep) - 4 * ep * ep <= 1 + 2 * (e1 * cos lam + e2 * sin lam) + e1 * e1 + e2 * e2 <= (1 + 2 * ep) * (1 + 2 * ep)) by nra.
  assert (K2 : 0 < K * K) by nra.
  assert (N : 0 < x * x + y * y) by (rewrite E; apply Rmult_lt_0_compat; nra).
  split; [lra|]. unfold rho. apply Rabs_le.
  assert (S1 : sqrt (x * x + y * y) <= K * (1 + 2 * ep)).
  { rewrite <- (sqrt_square (K * (1 + 2 * ep))) by nra. apply sqrt_le_1_alt. rewrite E. nra. }
  assert (S2 : K * (1 - 21 / 10 * ep) <= sqrt (x * x + y * y)).
  { rewrite <- (sqrt_square (K * (1 - 21 / 10 * ep))) by nra. apply sqrt_le_1_alt. rewrite E.
    replace (K * (1 - 21 / 10 * ep) * (K * (1 - 21 / 10 * ep))) with (K * K * ((1 - 21 / 10 * ep) * (1 - 21 / 10 * ep))) by ring.
    apply Rmult_le_compat_l; [lra|]. nra. }
  nra.
Qed.

Lemma lon_wrap : y <> 0 \/ 0 < x ->
  exists k, (-1 <= k <= 1)%Z /\ Rabs (rlon x y * (PI / 180) - lam - 2 * IZR k * PI) <= 33 / 10 * ep.
Proof.
  intros Hxy. pose proof PI_b as P. destruct pert_rho as [N Hr].
  destruct (rlon_direction x y N Hxy) as [Dc Ds]. pose proof (rlon_bound x y) as B.
  set (th := rlon x y * (PI / 180)) in *.
  assert (Bt : - PI <= th <= PI).
  { assert (0 < PI / 180) by lra. unfold th. replace PI with (180 * (PI / 180)) at 1 4 by field. nra. }
  assert (Bd : - (3 * PI) <= th - lam <= 3 * PI) by (apply Rabs_le_inv in Hl; lra).
  destruct (wrap _ Bd) as (k & Hk & Hw). exists k. split; [exact Hk|].
  set (d := th - lam - 2 * IZR k * PI) in *.
  assert (Ed : sin d = sin (th - lam) /\ cos d = cos (th - lam)).
  { replace (th - lam) with (d + 2 * IZR k * PI) by (unfold d; ring).
    assert (Kk : k = 0%Z \/ k = 1%Z \/ k = (-1)%Z) by lia. destruct Kk as [->|[->| ->]].
    - replace (d + 2 * 0 * PI) with d by ring. auto.
    - replace (d + 2 * 1 * PI) with (d + 2 * PI) by ring. rewrite sin_plus, cos_plus, sin_2PI, cos_2PI. split; ring.
    - replace (d + 2 * -1 * PI) with (d - 2 * PI) by ring. rewrite sin_minus, cos_minus, sin_2PI, cos_2PI. split; ring. }
  destruct Ed as [Es Ec]. rewrite sin_minus in Es. rewrite cos_minus in Ec.
  pose proof (COS_bound lam) as Bc. pose proof (SIN_bound lam) as Bs. pose proof (sin2_cos2 lam) as T. unfold Rsqr in T.
  assert (A : forall a b v w, Rabs a <= ep -> Rabs b <= ep -> -1 <= v <= 1 -> -1 <= w <= 1 -> Rabs (a * v + b * w) <= 2 * ep).
  { clear. intros a b v w Ha Hb Hv Hw. eapply Rle_trans; [apply Rabs_triang|]. rewrite !Rabs_mult.
    assert (Rabs v <= 1) by (apply Rabs_le; lra). assert (Rabs w <= 1) by (apply Rabs_le; lra).
    pose proof (Rabs_pos a). pose proof (Rabs_pos b). pose proof (Rabs_pos v). pose proof (Rabs_pos w). nra. }
  assert (R0 : 0 < rho x y) by now apply rho_pos. apply Rabs_le_inv in Hr.
  assert (0 <= ep) by (pose proof (Rabs_pos e1); lra).
  assert (Sd : rho x y * sin d = K * (e2 * cos lam + e1 * (- sin lam))).
  { rewrite Es. replace (rho x y * (sin th * cos lam - cos th * sin lam)) with (rho x y * sin th * cos lam - rho x y * cos th * sin lam) by ring.
    rewrite Ds, Dc. unfold x, y. ring. }
  assert (Cd : rho x y * cos d = K * (1 + (e1 * cos lam + e2 * sin lam))).
  { rewrite Ec. replace (rho x y * (cos th * cos lam + sin th * sin lam)) with (rho x y * cos th * cos lam + rho x y * sin th * sin lam) by ring.
    rewrite Ds, Dc. unfold x, y. replace 1 with (sin lam * sin lam + cos lam * cos lam) by exact T. ring. }
  pose proof (A e2 e1 (cos lam) (- sin lam) H2 H1 ltac:(lra) ltac:(lra)) as A1.
  pose proof (A e1 e2 (cos lam) (sin lam) H1 H2 ltac:(lra) ltac:(lra)) as A2. apply Rabs_le_inv in A2.
  assert (Cp : 0 < cos d) by (apply (Rmult_lt_reg_l (rho x y)); [assumption|]; rewrite Cd, Rmult_0_r; apply Rmult_lt_0_compat; lra).
  assert (Sp : Rabs (sin d) <= 21 / 10 * ep).
  { apply (Rmult_le_reg_l (rho x y)); [assumption|]. rewrite <- (Rabs_pos_eq (rho x y)) at 1 by lra. rewrite <- Rabs_mult, Sd, Rabs_mult, (Rabs_pos_eq K) by lra.
    assert (K * Rabs (e2 * cos lam + e1 * - sin lam) <= K * (2 * ep)) by (apply Rmult_le_compat_l; lra).
    assert ((979 / 1000 * K) * (21 / 10 * ep) <= rho x y * (21 / 10 * ep)); [|nra].
    apply Rmult_le_compat_r; [lra|]. assert (ep * K <= / 100 * K) by (apply Rmult_le_compat_r; lra). lra. }
  pose proof (angle_small d (21 / 10 * ep) Hw Cp Sp) as Z. nra.
Qed.

Lemma lon_near : y <> 0 \/ 0 < x -> Rabs lam <= PI ->
  (0 <= y /\ 0 <= lam \/ y <= 0 /\ lam <= 0 \/ Rabs lam <= 1) ->
  Rabs (rlon x y * (PI / 180) - lam) <= 33 / 10 * ep.
Proof.
  intros Hxy Lp Hs. destruct (lon_wrap Hxy) as (k & Hk & Hd). pose proof PI_b as P.
  assert (P18 : 0 < PI / 180) by lra. pose proof (rlon_bound x y) as B.
  assert (0 <= ep) by (pose proof (Rabs_pos e1); lra).
  set (th := rlon x y * (PI / 180)) in *.
  assert (Bt : - PI <= th <= PI).
  { unfold th. replace PI with (180 * (PI / 180)) at 1 4 by field. nra. }
  assert (D : Rabs (th - lam) <= PI).
  { apply Rabs_le_inv in Lp. destruct (rlon_sign x y) as [S1 S2]. destruct Hs as [[Hy L]|[[Hy L]|L]].
    - specialize (S1 Hy). assert (0 <= th) by (apply Rmult_le_pos; lra). apply Rabs_le; lra.
    - specialize (S2 Hy). assert (th <= 0) by (unfold th; nra). apply Rabs_le; lra.
    - apply Rabs_le_inv in L. destruct pert_rho as [N _].
      assert (C1 : / 2 < cos lam).
      { assert (Q : forall a, 0 <= a <= 1 -> / 2 < cos a).
        { intros a Ha. replace (/ 2) with (cos (PI / 3)) by (rewrite cos_PI3; lra). apply cos_decreasing_1; lra. }
        destruct (Rle_dec 0 lam); [apply Q; lra|]. rewrite <- cos_neg. apply Q; lra. }
      assert (X0 : 0 < x) by (unfold x; apply Rmult_lt_0_compat; [lra|]; apply Rabs_le_inv in H1; lra).
      destruct (rlon_direction x y N Hxy) as [Dc _]. fold th in Dc.
      assert (R0 : 0 < rho x y) by now apply rho_pos.
      assert (Ct : 0 < cos th) by (apply (Rmult_lt_reg_l (rho x y)); lra).
      assert (Bt2 : - (PI / 2) <= th <= PI / 2).
      { split.
        - destruct (Rle_dec (- (PI / 2)) th) as [|Q]; [assumption|exfalso]. pose proof (cos_le_0 (- th) ltac:(lra) ltac:(lra)) as Z.
          rewrite cos_neg in Z. lra.
        - destruct (Rle_dec th (PI / 2)) as [|Q]; [assumption|exfalso]. pose proof (cos_le_0 th ltac:(lra) ltac:(lra)). lra. }
      apply Rabs_le. lra. }
  assert (k = 0%Z).
  { apply Rabs_le_inv in D, Hd. assert (Kk : k = 0%Z \/ k = 1%Z \/ k = (-1)%Z) by lia. destruct Kk as [|[->| ->]]; [assumption|exfalso..]; lra. }
  subst k. replace (th - lam) with (th - lam - 2 * 0 * PI) by ring. exact Hd.
Qed.
End Perturbed.

Lemma acos_lip w a b : 0 < w -> a * a <= 1 - w * w -> b * b <= 1 - w * w -> Rabs (acos a - acos b) <= PI / (2 * w) * Rabs (a - b).
Proof.
  intros Hw.
  assert (B1 : forall a, a * a <= 1 - w * w -> -1 <= a <= 1) by (intros; nra).
  assert (K : forall a b, a * a <= 1 - w * w -> b * b <= 1 - w * w -> acos b <= acos a -> acos a - acos b <= PI / (2 * w) * Rabs (a - b)).
  { clear a b. intros a b Ha Hb L. pose proof PI_RGT_0 as P. pose proof (B1 a Ha) as Ha1. pose proof (B1 b Hb) as Hb1.
    pose proof (acos_bound a) as Ba. pose proof (acos_bound b) as Bb.
    assert (S : forall v, v * v <= 1 - w * w -> w <= sin (acos v)).
    { intros v Hv. rewrite sin_acos by (apply B1; assumption). rewrite <- (sqrt_square w) by lra. apply sqrt_le_1_alt. unfold Rsqr. lra. }
    pose proof (S a Ha) as Sa. pose proof (S b Hb) as Sb.
    set (s := (acos a + acos b) / 2). set (d := (acos a - acos b) / 2).
    assert (Ea : acos a = s + d) by (unfold s, d; field). assert (Eb : acos b = s - d) by (unfold s, d; field).
    assert (E : b - a = 2 * (sin s * sin d)).
    { rewrite <- (cos_acos a Ha1), <- (cos_acos b Hb1), Ea, Eb, cos_minus, cos_plus. ring. }
    assert (Hd : 0 <= d <= PI / 2) by (unfold d; lra).
    assert (Ss : w <= sin s).
    { rewrite Ea, sin_plus in Sa. rewrite Eb, sin_minus in Sb. pose proof (COS_bound d).
      assert (0 <= sin s) by (apply sin_ge_0; unfold s; lra). nra. }
    pose proof (sin_chord d Hd) as C.
    assert (Q : 0 <= 2 / PI * d) by (apply Rmult_le_pos; [apply Rlt_le, Rdiv_lt_0_compat; lra|lra]).
    rewrite Rabs_minus_sym, Rabs_pos_eq by (rewrite E; nra). rewrite E.
    replace (acos a - acos b) with (PI / (2 * w) * (2 * (w * (2 / PI * d)))) by (unfold d; field; lra).
    apply Rmult_le_compat_l; [apply Rlt_le, Rdiv_lt_0_compat; lra|]. nra. }
  intros Ha Hb. destruct (Rle_dec (acos b) (acos a)) as [L|L].
  - rewrite Rabs_pos_eq by lra. now apply K.
  - rewrite Rabs_minus_sym, Rabs_pos_eq by lra. rewrite (Rabs_minus_sym a b). apply K; auto. lra.
Qed.

Lemma sin_top a : 3 / 2 <= a <= 1.6 -> 95 / 100 <= sin a.
Proof.
  intros H. pose proof PI_b as P. destruct (Rle_dec a (PI / 2)) as [L|L].
  - eapply Rle_trans; [|apply sin_chord; lra]. apply (Rmult_le_reg_l PI); [lra|].
    replace (PI * (2 / PI * a)) with (2 * a) by (field; lra). lra.
  - rewrite <- sin_PI_x. eapply Rle_trans; [|apply sin_chord; lra]. apply (Rmult_le_reg_l PI); [lra|].
    replace (PI * (2 / PI * (PI - a))) with (2 * (PI - a)) by (field; lra). lra.
Qed.

Section Latitude.
Variables (R phi e3 ep : R).
Hypothesis HR : 0 < R.
Hypothesis Hp : Rabs phi <= 1.6.
Hypothesis H3 : Rabs e3 <= ep.
Hypothesis He : ep <= / 100.
Let z := R * (sin phi + e3).

Lemma z_quot : z / R = sin phi + e3.
Proof. unfold z. field. lra. Qed.

Lemma lat_z_near : Rabs (z / R) < 92 / 100 -> Rabs (rlat_z R z * (PI / 180) - phi) <= 6 * ep.
Proof.
  rewrite z_quot. intros Hz. pose proof PI_b as P. apply Rabs_def2 in Hz. apply Rabs_le_inv in H3.
  assert (Bp : - (3 / 2) <= phi <= 3 / 2).
  { apply Rabs_le_inv in Hp. split.
    - destruct (Rle_dec (- (3 / 2)) phi) as [|L]; [assumption|exfalso]. pose proof (sin_top (- phi) ltac:(lra)) as Q. rewrite sin_neg in Q. lra.
    - destruct (Rle_dec phi (3 / 2)) as [|L]; [assumption|exfalso]. pose proof (sin_top phi ltac:(lra)) as Q. lra. }
  unfold rlat_z. rewrite z_quot.
  assert (Ea : acos (sin phi) = PI / 2 - phi) by (rewrite <- cos_shift; apply acos_cos; lra).
  replace ((90 - acos (sin phi + e3) * (180 / PI)) * (PI / 180) - phi) with (acos (sin phi) - acos (sin phi + e3)) by (rewrite Ea; field; lra).
  eapply Rle_trans; [apply (acos_lip (31 / 100))|]; [lra|nra|nra|].
  replace (sin phi - (sin phi + e3)) with (- e3) by ring. rewrite Rabs_Ropp.
  assert (E3 : Rabs e3 <= ep) by (apply Rabs_le; lra). pose proof (Rabs_pos e3).
  assert (PI / (2 * (31 / 100)) <= 6) by lra. assert (0 < PI / (2 * (31 / 100))) by lra. nra.
Qed.

Lemma lat_xy_near rh de x y : Rabs phi <= PI / 2 + de -> 0 <= de <= / 100 -> rh = rho x y -> 0 <= rh ->
  Rabs (rh - R * Rabs (cos phi)) <= 21 / 10 * ep * (R * Rabs (cos phi)) -> 69 / 100 <= Rabs (z / R) ->
  Rabs (rlat_xy R x y z * (PI / 180) - phi) <= 6 * ep + 2 * de.
Proof.
  intros Bp Bd Er Hr0 Hr Hz. pose proof PI_b as P. rewrite z_quot in Hz.
  pose proof (sin2_cos2 phi) as T. unfold Rsqr in T. apply Rabs_le_inv in H3, Bp.
  assert (Sp : 68 / 100 <= Rabs (sin phi)).
  { pose proof (Rabs_triang (sin phi) e3) as Q. assert (Rabs e3 <= / 100) by (apply Rabs_le; lra). lra. }
  assert (Sq : Rabs (sin phi) * Rabs (sin phi) = sin phi * sin phi) by (rewrite <- Rabs_mult; apply Rabs_pos_eq; nra).
  set (k := Rabs (cos phi)) in *.
  assert (Ck : k * k = cos phi * cos phi) by (unfold k; rewrite <- Rabs_mult; apply Rabs_pos_eq; nra).
  assert (K0 : 0 <= k) by apply Rabs_pos. assert (K1 : k <= 74 / 100) by nra.
  assert (Q : Rabs (rh / R - k) <= 21 / 10 * ep * k).
  { replace (rh / R - k) with ((rh - R * k) / R) by (field; lra). unfold Rdiv. rewrite Rabs_mult, Rabs_inv, (Rabs_pos_eq R) by lra.
    apply (Rmult_le_reg_r R); [lra|]. rewrite Rmult_assoc, Rinv_l by lra. lra. }
  set (q := rh / R) in *. assert (0 <= ep) by lra.
  assert (Q' : Rabs (q - k) <= 21 / 10 * ep) by nra. pose proof Q' as Q2. apply Rabs_le_inv in Q2.
  assert (Q0 : 0 <= q) by (unfold q, Rdiv; apply Rmult_le_pos; [lra|]; apply Rlt_le, Rinv_0_lt_compat; lra).
  (* the complement *)
  assert (Ak : Rabs (PI / 2 - asin k - Rabs phi) <= 2 * de).
  { assert (Pa : 0 <= Rabs phi <= PI / 2 + de) by (split; [apply Rabs_pos|apply Rabs_le; lra]).
    assert (Ek : k = Rabs (cos (Rabs phi))).
    { unfold k. f_equal. unfold Rabs. destruct (Rcase_abs phi); [now rewrite cos_neg|reflexivity]. }
    destruct (Rle_dec (Rabs phi) (PI / 2)) as [L|L].
    - rewrite Ek, (Rabs_pos_eq (cos (Rabs phi))) by (apply cos_ge_0; lra). rewrite <- sin_shift, asin_sin by lra.
      replace (PI / 2 - (PI / 2 - Rabs phi) - Rabs phi) with 0 by ring. rewrite Rabs_R0. lra.
    - rewrite Ek, (Rabs_left1 (cos (Rabs phi))) by (apply cos_le_0; lra).
      replace (- cos (Rabs phi)) with (sin (Rabs phi - PI / 2)) by (rewrite <- (Ropp_involutive (Rabs phi - PI / 2)), sin_neg; f_equal; rewrite <- sin_shift; f_equal; ring).
      rewrite asin_sin by lra. apply Rabs_le. lra. }
  assert (Aq : Rabs (asin q - asin k) <= 6 * ep).
  { rewrite !asin_acos by lra. replace (PI / 2 - acos q - (PI / 2 - acos k)) with (- (acos q - acos k)) by ring. rewrite Rabs_Ropp.
    eapply Rle_trans; [apply (acos_lip (6 / 10)); nra|]. pose proof (Rabs_pos (q - k)).
    assert (PI / (2 * (6 / 10)) <= 2.62) by lra. assert (0 < PI / (2 * (6 / 10))) by lra. nra. }
  unfold rlat_xy. rewrite <- Er. fold q.
  replace (sgn z * (90 - asin q * (180 / PI)) * (PI / 180)) with (sgn z * (PI / 2 - asin q)) by (field; lra).
  (* signs *)
  assert (Sg : sgn z * Rabs phi = phi /\ Rabs (sgn z) <= 1).
  { split; [|apply sgn_bound]. unfold sgn. destruct (Rle_dec 0 phi) as [L|L].
    - rewrite Rabs_pos_eq by lra. assert (0 <= sin phi) by (apply sin_ge_0; lra). rewrite Rabs_pos_eq in Sp by lra.
      destruct (Rlt_dec 0 z) as [_|Nz]; [ring|exfalso]. apply Nz. unfold z. apply Rmult_lt_0_compat; lra.
    - rewrite Rabs_left by lra. assert (sin phi <= 0).
      { rewrite <- (Ropp_involutive phi), sin_neg. pose proof (sin_ge_0 (- phi) ltac:(lra) ltac:(lra)). lra. }
      rewrite Rabs_left1 in Sp by lra.
      assert (z < 0) by (unfold z; nra).
      destruct (Rlt_dec 0 z) as [Nz|_]; [lra|]. destruct (Rlt_dec z 0) as [_|Nz]; [ring|lra]. }
  destruct Sg as [Sg Sg1].
  replace (sgn z * (PI / 2 - asin q) - phi) with (sgn z * ((PI / 2 - asin k - Rabs phi) - (asin q - asin k))) by (transitivity (sgn z * (PI / 2 - asin q) - sgn z * Rabs phi); [ring|now rewrite Sg]).
  rewrite Rabs_mult. pose proof (Rabs_pos (sgn z)).
  assert (Rabs (PI / 2 - asin k - Rabs phi - (asin q - asin k)) <= 6 * ep + 2 * de).
  { unfold Rminus at 1. eapply Rle_trans; [apply Rabs_triang|]. rewrite Rabs_Ropp. lra. }
  pose proof (Rabs_pos (PI / 2 - asin k - Rabs phi - (asin q - asin k))). nra.
Qed.
End Latitude.

(** ** From longitude and latitude to the position *)
Lemma abs_step a b c e1 e2 : Rabs (a - b) <= e1 -> Rabs (b - c) <= e2 -> Rabs (a - c) <= e1 + e2.
Proof. intros H1 H2. replace (a - c) with ((a - b) + (b - c)) by ring. eapply Rle_trans; [apply Rabs_triang|lra]. Qed.

Definition fine (f : format) : Prop := good f /\ (24 <= fprec f <= 53)%Z /\ (femin f <= -149)%Z /\ (50 < femax f)%Z.
Lemma fine_64 : fine b64. Proof. split; [apply good_b64|]. cbn. lia. Qed.
Lemma fine_32 : fine b32. Proof. split; [apply good_b32|]. cbn. lia. Qed.

Section Product.
Variables f s : format.
Hypothesis Ff : fine f.
Hypothesis Fs : fine s.
Notation u := (bpow radix2 (- fprec f)).
Notation us := (bpow radix2 (- fprec s)).

Lemma fine_u g : fine g -> bpow radix2 (-53) <= bpow radix2 (- fprec g) <= / 16777216.
Proof.
  intros (_ & P & _). split; [apply bpow_le; lia|]. apply u_small. lia.
Qed.
Lemma fine_err g t : fine g -> Rabs (rd g t - t) <= bpow radix2 (- fprec g) * Rabs t + bpow radix2 (-150).
Proof.
  intros (G & P & E & _). eapply Rle_trans; [apply rd_err; auto; lia|].
  apply Rplus_le_compat_l.
  replace (bpow radix2 (-150)) with (bpow radix2 (-149) / 2) by (bp; change (2 ^ (- -149))%Z with (2 * 2 ^ 148)%Z; change (2 ^ (- -150))%Z with (2 * (2 * 2 ^ 148))%Z; rewrite !mult_IZR; field; apply IZR_neq; lia).
  pose proof (bpow_le radix2 _ _ E). lra.
Qed.

(** numbers of at least 2^-46: absolute errors of 2^-140 do not count *)
Lemma tiny A : bpow radix2 (-46) <= A -> bpow radix2 (-140) <= / 1000 * (u * A) /\ bpow radix2 (-150) <= / 1000 * (u * A).
Proof.
  intros HA. destruct (fine_u f Ff) as [U _].
  assert (B : bpow radix2 (-99) <= u * A).
  { change (-99)%Z with (-53 + -46)%Z. rewrite bpow_plus. apply Rmult_le_compat; auto using bpow_ge_0. }
  assert (T : bpow radix2 (-140) <= / 1000 * bpow radix2 (-99)).
  { change (-140)%Z with (-41 + -99)%Z. rewrite bpow_plus. apply Rmult_le_compat_r; [apply bpow_ge_0|].
    bp. change (2 ^ (- -41))%Z with 2199023255552%Z. lra. }
  pose proof (bpow_le radix2 (-150) (-140) ltac:(lia)). lra.
Qed.

Lemma cos_part r kap ca : 1000 <= r <= 7000000 -> bpow radix2 (-55) <= Rabs kap <= 1 ->
  Rabs (ca - kap) <= 2 * u * Rabs kap + bpow radix2 (-140) ->
  Rabs (rd f (r * ca) - r * kap) <= 301 / 100 * (u * (r * Rabs kap)).
Proof.
  intros Hr Hk Hc. set (A := r * Rabs kap). destruct (fine_u f Ff) as [U0 U1]. pose proof (bpow_gt_0 radix2 (- fprec f)) as Up.
  assert (HA : bpow radix2 (-46) <= A).
  { apply Rle_trans with (1000 * bpow radix2 (-55)); [|apply Rmult_le_compat; try lra; apply bpow_ge_0].
    change (-46)%Z with (9 + -55)%Z. rewrite bpow_plus. apply Rmult_le_compat_r; [apply bpow_ge_0|]. bp. change (2 ^ 9)%Z with 512%Z. lra. }
  destruct (tiny A HA) as [T1 T2]. pose proof (bpow_gt_0 radix2 (-46)).
  assert (T3 : bpow radix2 (-140) <= / 1000 * (u * Rabs kap)).
  { assert (B : bpow radix2 (-108) <= u * Rabs kap).
    { change (-108)%Z with (-53 + -55)%Z. rewrite bpow_plus. apply Rmult_le_compat; try apply bpow_ge_0; lra. }
    assert (T : bpow radix2 (-140) <= / 1000 * bpow radix2 (-108)).
    { change (-140)%Z with (-32 + -108)%Z. rewrite bpow_plus. apply Rmult_le_compat_r; [apply bpow_ge_0|].
      bp. change (2 ^ (- -32))%Z with 4294967296%Z. lra. }
    lra. }
  set (W := u * A) in *.
  assert (H1 : Rabs (r * ca - r * kap) <= 2001 / 1000 * W).
  { rewrite <- Rmult_minus_distr_l, Rabs_mult, (Rabs_pos_eq r) by lra.
    apply Rle_trans with (r * (2001 / 1000 * (u * Rabs kap))); [apply Rmult_le_compat_l; lra|]. unfold W, A. lra. }
  assert (WA : W <= / 16777216 * A) by (apply Rmult_le_compat_r; lra).
  assert (H2 : Rabs (r * ca) <= 1001 / 1000 * A).
  { replace (r * ca) with ((r * ca - r * kap) + r * kap) by ring. eapply Rle_trans; [apply Rabs_triang|].
    rewrite (Rabs_mult r kap), (Rabs_pos_eq r) by lra. fold A. lra. }
  assert (H3 : Rabs (rd f (r * ca) - r * ca) <= 1002 / 1000 * W).
  { eapply Rle_trans; [apply fine_err; auto|]. assert (u * Rabs (r * ca) <= 1001 / 1000 * W); [|lra].
    unfold W. apply Rle_trans with (u * (1001 / 1000 * A)); [apply Rmult_le_compat_l; lra|]. lra. }
  eapply Rle_trans; [apply (abs_step _ _ _ _ _ H3 H1)|]. assert (0 <= W) by (apply Rmult_le_pos; lra). lra.
Qed.

Lemma product r kap ca v w : 1000 <= r <= 7000000 -> bpow radix2 (-55) <= Rabs kap <= 1 ->
  Rabs (ca - kap) <= 2 * u * Rabs kap + bpow radix2 (-140) ->
  -1 <= v <= 1 -> Rabs (w - v) <= 2 * u * Rabs v + bpow radix2 (-140) ->
  let t1 := rd f (rd f (r * ca) * w) in
  Rabs (rd f (r * ca) * w) <= 102 / 100 * r /\ Rabs t1 <= 102 / 100 * r /\
  Rabs (rd s t1 - r * kap * v) <= (7 * u + 2 * us) * (r * Rabs kap).
Proof.
  intros Hr Hk Hc Hv Hw t1. pose proof (cos_part r kap ca Hr Hk Hc) as Hrc. set (A := r * Rabs kap) in *.
  destruct (fine_u f Ff) as [U0 U1]. pose proof (bpow_gt_0 radix2 (- fprec f)) as Up.
  destruct (fine_u s Fs) as [V0 V1]. pose proof (bpow_gt_0 radix2 (- fprec s)) as Vp.
  assert (HA : bpow radix2 (-46) <= A).
  { apply Rle_trans with (1000 * bpow radix2 (-55)); [|apply Rmult_le_compat; try lra; apply bpow_ge_0].
    change (-46)%Z with (9 + -55)%Z. rewrite bpow_plus. apply Rmult_le_compat_r; [apply bpow_ge_0|]. bp. change (2 ^ 9)%Z with 512%Z. lra. }
  destruct (tiny A HA) as [T1 T2]. pose proof (bpow_gt_0 radix2 (-46)).
  assert (A1 : A <= r) by (unfold A; nra).
  set (rc := rd f (r * ca)) in *. set (W := u * A) in *. assert (W0 : 0 <= W) by (apply Rmult_le_pos; lra).
  assert (WA : W <= / 16777216 * A) by (apply Rmult_le_compat_r; lra).
  assert (Hv1 : Rabs v <= 1) by (apply Rabs_le; lra). pose proof (Rabs_pos v) as Hv0.
  assert (Tu : bpow radix2 (-140) <= / 1000 * u).
  { apply Rle_trans with (/ 1000 * bpow radix2 (-53)); [|lra]. change (-140)%Z with (-87 + -53)%Z. rewrite bpow_plus. apply Rmult_le_compat_r; [apply bpow_ge_0|].
    apply Rle_trans with (bpow radix2 (-10)); [apply bpow_le; lia|]. bp. change (2 ^ (- -10))%Z with 1024%Z. lra. }
  assert (Hw1 : Rabs (w - v) <= 2001 / 1000 * u) by nra.
  assert (Wb : Rabs w <= 1001 / 1000).
  { replace w with ((w - v) + v) by ring. eapply Rle_trans; [apply Rabs_triang|]. lra. }
  assert (Rb : Rabs rc <= 1001 / 1000 * A).
  { replace rc with ((rc - r * kap) + r * kap) by ring. eapply Rle_trans; [apply Rabs_triang|].
    rewrite (Rabs_mult r kap), (Rabs_pos_eq r) by lra. fold A. lra. }
  pose proof (Rabs_pos w) as W00. pose proof (Rabs_pos rc) as R00.
  assert (S1 : Rabs (rc * w - r * kap * v) <= 502 / 100 * W).
  { replace (rc * w - r * kap * v) with (rc * (w - v) + (rc - r * kap) * v) by ring. eapply Rle_trans; [apply Rabs_triang|].
    rewrite !Rabs_mult. pose proof (Rabs_pos (w - v)). pose proof (Rabs_pos (rc - r * kap)).
    assert (Rabs rc * Rabs (w - v) <= (1001 / 1000 * A) * (2001 / 1000 * u)) by (apply Rmult_le_compat; lra).
    assert (Rabs (rc - r * kap) * Rabs v <= 301 / 100 * W * 1) by (apply Rmult_le_compat; lra).
    unfold W in *. lra. }
  assert (B1 : Rabs (rc * w) <= 1003 / 1000 * A).
  { rewrite Rabs_mult. assert (Rabs rc * Rabs w <= (1001 / 1000 * A) * (1001 / 1000)) by (apply Rmult_le_compat; lra). lra. }
  assert (S2 : Rabs (t1 - rc * w) <= 1005 / 1000 * W).
  { unfold t1. eapply Rle_trans; [apply fine_err; auto|]. assert (u * Rabs (rc * w) <= 1003 / 1000 * W); [|lra].
    unfold W. apply Rle_trans with (u * (1003 / 1000 * A)); [apply Rmult_le_compat_l; lra|]. lra. }
  assert (B2 : Rabs t1 <= 101 / 100 * A).
  { replace t1 with ((t1 - rc * w) + rc * w) by ring. eapply Rle_trans; [apply Rabs_triang|]. lra. }
  split; [lra|]. split; [lra|].
  assert (S3 : Rabs (rd s t1 - t1) <= 101 / 100 * (us * A) + / 1000 * W).
  { eapply Rle_trans; [apply fine_err; auto|]. assert (us * Rabs t1 <= 101 / 100 * (us * A)); [|lra].
    apply Rle_trans with (us * (101 / 100 * A)); [apply Rmult_le_compat_l; lra|]. lra. }
  eapply Rle_trans; [apply (abs_step _ _ _ _ _ S3 (abs_step _ _ _ _ _ S2 S1))|].
  assert (0 <= us * A) by (apply Rmult_le_pos; lra). unfold W in *. lra.
Qed.

(** the sign of a product survives *)
Lemma product_sign r kap ca v w : 1000 <= r <= 7000000 -> bpow radix2 (-55) <= Rabs kap <= 1 ->
  Rabs (ca - kap) <= 2 * u * Rabs kap + bpow radix2 (-140) ->
  bpow radix2 (-55) <= Rabs v -> Rabs (w - v) <= 2 * u * Rabs v + bpow radix2 (-140) ->
  0 < rd s (rd f (rd f (r * ca) * w)) * (kap * v).
Proof.
  intros Hr Hk Hc Hv Hw. pose proof (cos_part r kap ca Hr Hk Hc) as Hrc.
  destruct (fine_u f Ff) as [U0 U1]. pose proof (bpow_gt_0 radix2 (- fprec f)) as Up.
  set (rc := rd f (r * ca)) in *.
  pose proof (bpow_gt_0 radix2 (-55)) as B55.
  (* half of the size remains *)
  assert (Q : forall a b, b <> 0 -> Rabs (a - b) <= / 2 * Rabs b -> 0 < a * b /\ / 2 * Rabs b <= Rabs a).
  { clear. intros a b Nb H. destruct (Rlt_dec 0 b) as [L|L].
    - rewrite (Rabs_pos_eq b) in * by lra. apply Rabs_le_inv in H. rewrite Rabs_pos_eq; nra.
    - rewrite (Rabs_left b) in * by lra. apply Rabs_le_inv in H. rewrite Rabs_left; nra. }
  assert (Nk : kap <> 0) by (intros ->; rewrite Rabs_R0 in Hk; lra).
  assert (Nv : v <> 0) by (intros ->; rewrite Rabs_R0 in Hv; lra).
  destruct (Q rc (r * kap)) as [P1 P2]; [nra| |].
  { rewrite (Rabs_mult r kap), (Rabs_pos_eq r) by lra. eapply Rle_trans; [exact Hrc|]. pose proof (Rabs_pos kap).
    assert (0 <= r * Rabs kap) by nra. nra. }
  destruct (Q w v) as [P3 P4]; [exact Nv| |].
  { eapply Rle_trans; [exact Hw|].
    assert (bpow radix2 (-140) <= / 4 * bpow radix2 (-55)).
    { change (-140)%Z with (-85 + -55)%Z. rewrite bpow_plus. apply Rmult_le_compat_r; [apply bpow_ge_0|].
      apply Rle_trans with (bpow radix2 (-2)); [apply bpow_le; lia|]. bp. change (2 ^ (- -2))%Z with 4%Z. lra. }
    pose proof (Rabs_pos v). nra. }
  assert (Big : bpow radix2 (-110) <= Rabs (rc * w)).
  { rewrite Rabs_mult. rewrite (Rabs_mult r kap), (Rabs_pos_eq r) in P2 by lra.
    change (-110)%Z with (-55 + -55)%Z. rewrite bpow_plus. pose proof (Rabs_pos kap).
    assert (2 * Rabs kap <= Rabs rc) by nra. apply Rle_trans with (2 * bpow radix2 (-55) * (/ 2 * bpow radix2 (-55))); [lra|].
    apply Rmult_le_compat; lra. }
  destruct Ff as (G & _ & E & _). destruct Fs as (Gs & _ & Es & _).
  assert (Fb : generic_format radix2 (FLT_exp (femin f) (fprec f)) (bpow radix2 (-110))) by (apply gf_bpow; auto; lia).
  assert (Sb : generic_format radix2 (FLT_exp (femin s) (fprec s)) (bpow radix2 (-110))) by (apply gf_bpow; auto; lia).
  pose proof (bpow_gt_0 radix2 (-110)) as B110.
  assert (Sg : 0 < (rc * w) * (kap * v)).
  { replace (rc * w * (kap * v)) with ((rc * kap) * (w * v)) by ring. apply Rmult_lt_0_compat; [|assumption]. nra. }
  set (t := rc * w) in *. set (q := kap * v) in *.
  destruct (Rlt_dec 0 t) as [L|L].
  - rewrite (Rabs_pos_eq t) in Big by lra.
    assert (bpow radix2 (-110) <= rd s (rd f t)) by (apply rd_ge_gf; auto; apply rd_ge_gf; auto). nra.
  - assert (Lt : t < 0) by (destruct (Req_dec t 0) as [Z|]; [rewrite Z in Sg; lra|lra]).
    rewrite (Rabs_left t) in Big by lra.
    assert (rd s (rd f t) <= - bpow radix2 (-110)).
    { apply rd_le_gf; auto using gf_opp. apply rd_le_gf; auto using gf_opp. lra. }
    nra.
Qed.
End Product.

(** what is needed of the factor from degrees to radians: [cs] is the value of pi in the arrays *)
Definition factor (f s : format) (c cs d : R) : Prop :=
  fit f (c / 180) = Some d /\ 0 < d /\ Rabs (d - PI / 180) <= bpow radix2 (- fprec f) * (36 / 1000) /\
  rd s (rd f (180 * d)) = cs /\ rd s (rd f (90 * d)) = cs / 2 /\ 3 < cs < 3.15.

Section Forward.
Variables (f s : format) (c cs d : R) (m : libm).
Hypothesis Ff : fine f.
Hypothesis Fs : fine s.
Hypothesis Sub : forall v, fl s v -> fl f v.
Hypothesis Fd : factor f s c cs d.
Hypothesis Ha : accurate f m.
Notation u := (bpow radix2 (- fprec f)).
Notation us := (bpow radix2 (- fprec s)).
#[local] Instance FW : NumOps (option R) := FN f s c m.

(** the rounded angle *)
Definition ang (v : R) : R := rd s (rd f (v * d)).

Lemma ang_mono v w : v <= w -> ang v <= ang w.
Proof.
  intros H. destruct Ff as (G & _), Fs as (Gs & _), Fd as (_ & D & _). apply rd_le; auto. apply rd_le; auto. apply Rmult_le_compat_r; lra.
Qed.
Lemma ang_opp v : ang (- v) = - ang v.
Proof. unfold ang. rewrite <- rd_opp, <- rd_opp. do 2 f_equal. ring. Qed.
Lemma ang_180 v : Rabs v <= 180 -> Rabs (ang v) <= cs.
Proof.
  intros H. apply Rabs_le_inv in H. destruct Fd as (_ & _ & _ & E & _). fold (ang 180) in E.
  apply Rabs_le. rewrite <- E, <- ang_opp. split; apply ang_mono; lra.
Qed.
Lemma ang_90 v : Rabs v <= 90 -> Rabs (ang v) <= cs / 2.
Proof.
  intros H. apply Rabs_le_inv in H. destruct Fd as (_ & _ & _ & _ & E & _). fold (ang 90) in E.
  apply Rabs_le. rewrite <- E, <- ang_opp. split; apply ang_mono; lra.
Qed.
Lemma ang_err v : Rabs v <= 180 -> Rabs (ang v - v * (PI / 180)) <= 11 * u + 41 / 10 * us.
Proof.
  intros H. destruct Fd as (_ & D & Ed & _). pose proof PI_b as P.
  destruct (fine_u f Ff) as [U0 U1]. destruct (fine_u s Fs) as [V0 V1].
  pose proof (bpow_gt_0 radix2 (- fprec f)) as Up. pose proof (bpow_gt_0 radix2 (- fprec s)) as Vp.
  pose proof (Rabs_pos v) as Hv.
  assert (D1 : d <= 1746 / 100000) by (apply Rabs_le_inv in Ed; lra).
  assert (S1 : Rabs (v * d - v * (PI / 180)) <= 65 / 10 * u).
  { rewrite <- Rmult_minus_distr_l, Rabs_mult. apply Rle_trans with (180 * (u * (36 / 1000))); [apply Rmult_le_compat; try lra; apply Rabs_pos|lra]. }
  assert (B1 : Rabs (v * d) <= 4).
  { rewrite Rabs_mult, (Rabs_pos_eq d) by lra. assert (Rabs v * d <= 180 * (1746 / 100000)) by (apply Rmult_le_compat; lra). lra. }
  destruct Ff as (G & Pf & _), Fs as (Gs & Ps & _).
  pose proof (rd_err1 f G ltac:(lia) (v * d) 4 B1 ltac:(lra)) as S2.
  assert (B2 : Rabs (rd f (v * d)) <= 4).
  { rewrite rd_abs by auto. apply rd_le_gf; auto. apply (gfI f 4); auto; lia. }
  pose proof (rd_err1 s Gs ltac:(lia) (rd f (v * d)) 4 B2 ltac:(lra)) as S3.
  eapply Rle_trans; [apply (abs_step _ _ _ _ _ S3 (abs_step _ _ _ _ _ S2 S1))|]. lra.
Qed.
Lemma ang_fl v : Rabs v <= 180 -> fl s (ang v).
Proof.
  intros H. pose proof (ang_180 v H) as B. destruct Fd as (_ & _ & _ & _ & _ & C).
  split; [apply rd_gf, Fs|]. apply Rle_lt_trans with (bpow radix2 2); [bp; change (2 ^ 2)%Z with 4%Z; lra|].
  apply bpow_lt. destruct Fs as (_ & _ & _ & F). lia.
Qed.
Lemma ang_eq v : Rabs v <= 180 -> deg2rad (Some v) = Some (rd f (v * d)) /\ nst (deg2rad (Some v)) = Some (ang v).
Proof.
  intros H. pose proof (ang_fl v H) as F. pose proof (ang_180 v H) as B. destruct Fd as (Ed & D & Ed2 & _ & _ & C).
  destruct Ff as (G & Pf & _), Fs as (Gs & Ps & _). pose proof PI_b as P.
  pose proof (u_small f ltac:(lia)) as U1. pose proof (bpow_gt_0 radix2 (- fprec f)) as Up.
  assert (D1 : d <= 1746 / 100000) by (apply Rabs_le_inv in Ed2; lra).
  assert (B1 : Rabs (v * d) <= 4).
  { rewrite Rabs_mult, (Rabs_pos_eq d) by lra. pose proof (Rabs_pos v). assert (Rabs v * d <= 180 * (1746 / 100000)) by (apply Rmult_le_compat; lra). lra. }
  assert (E : deg2rad (Some v) = Some (rd f (v * d))).
  { unfold deg2rad. cbn [nmul ndiv npi nz FW FN]. rewrite (fit_IZR f 180) by (auto; lia). cbn [bind2].
    destruct (Req_EM_T 180 0) as [Z|_]; [lra|]. rewrite Ed. cbn [bind2]. apply (fit_bound f (v * d) 4); auto; lia. }
  split; [exact E|]. rewrite E. cbn [nst FW FN bind1]. fold (ang v). apply fit_rd; auto. fold (ang v). lra.
Qed.

(** lonlat2xyz with every stored intermediate value rounded to the format of the arrays *)
Definition fwd (r : R) (lon lat : option R) : option R * option R * option R :=
  (nst (nmul (nmul (Some r) (ncos (nst (deg2rad lat)))) (ncos (nst (deg2rad lon)))),
   nst (nmul (nmul (Some r) (ncos (nst (deg2rad lat)))) (nsin (nst (deg2rad lon)))),
   nst (nmul (Some r) (nsin (nst (deg2rad lat))))).

Lemma forward r lon lat : 1000 <= r <= 7000000 -> Rabs lon <= 180 -> Rabs lat <= 90 ->
  bpow radix2 (-55) <= Rabs (cos (ang lat)) ->
  exists x y z e1 e2 e3, fwd r (Some lon) (Some lat) = (Some x, Some y, Some z) /\ fl s x /\ fl s y /\ fl s z /\
    Rabs e1 <= 7 * u + 2 * us /\ Rabs e2 <= 7 * u + 2 * us /\ Rabs e3 <= 7 * u + 2 * us /\
    x = r * cos (ang lat) * (cos (ang lon) + e1) /\ y = r * cos (ang lat) * (sin (ang lon) + e2) /\ z = r * (sin (ang lat) + e3) /\
    (bpow radix2 (-55) <= Rabs (sin (ang lon)) -> 0 < y * (cos (ang lat) * sin (ang lon))).
Proof.
  intros Hr Hlon Hlat Hg.
  destruct (ang_eq lon Hlon) as [_ E1]. destruct (ang_eq lat ltac:(lra)) as [_ E2]. unfold fwd. rewrite E1, E2.
  pose proof (ang_fl lon Hlon) as F1. pose proof (ang_fl lat ltac:(lra)) as F2.
  pose proof (ang_180 lon Hlon) as B1. pose proof (ang_180 lat ltac:(lra)) as B2.
  destruct Fd as (_ & _ & _ & _ & _ & C). set (lam := ang lon) in *. set (phi := ang lat) in *.
  destruct Ha as (Ac & As & _). pose proof (Ac lam (Sub _ F1) ltac:(lra)) as Cl. pose proof (As lam (Sub _ F1) ltac:(lra)) as Sl.
  pose proof (Ac phi (Sub _ F2) ltac:(lra)) as Cp. pose proof (As phi (Sub _ F2) ltac:(lra)) as Sp.
  set (ca := rd f (m_cos m phi)) in *. set (sa := rd f (m_sin m phi)) in *.
  set (cb := rd f (m_cos m lam)) in *. set (sb := rd f (m_sin m lam)) in *.
  destruct (fine_u f Ff) as [U0 U1]. destruct (fine_u s Fs) as [V0 V1].
  pose proof (bpow_gt_0 radix2 (- fprec f)) as Up. pose proof (bpow_gt_0 radix2 (- fprec s)) as Vp.
  assert (Tu : bpow radix2 (-140) <= / 1000 * u).
  { apply Rle_trans with (/ 1000 * bpow radix2 (-53)); [|lra]. change (-140)%Z with (-87 + -53)%Z. rewrite bpow_plus. apply Rmult_le_compat_r; [apply bpow_ge_0|].
    apply Rle_trans with (bpow radix2 (-10)); [apply bpow_le; lia|]. bp. change (2 ^ (- -10))%Z with 1024%Z. lra. }
  assert (Ab : forall v, -1 <= v <= 1 -> Rabs v <= 1) by (intros; apply Rabs_le; lra).
  assert (Kb : bpow radix2 (-55) <= Rabs (cos phi) <= 1) by (split; [assumption|apply Ab, COS_bound]).
  assert (Tb : forall w v, -1 <= v <= 1 -> Rabs (w - v) <= 2 * u * Rabs v + bpow radix2 (-140) -> Rabs w <= 2).
  { intros w v Hv Hw. pose proof (Ab v Hv). replace w with ((w - v) + v) by ring. eapply Rle_trans; [apply Rabs_triang|]. nra. }
  destruct Ff as (G & Pf & _ & Mf), Fs as (Gs & Ps & _ & Ms).
  assert (Ec : forall v w, w = rd f (m_cos m v) -> Rabs w <= 2 -> ncos (Some v) = Some w).
  { intros v w -> Hw. cbn [ncos FW FN bind1]. apply fit_rd; auto. lra. }
  assert (Es : forall v w, w = rd f (m_sin m v) -> Rabs w <= 2 -> nsin (Some v) = Some w).
  { intros v w -> Hw. cbn [nsin FW FN bind1]. apply fit_rd; auto. lra. }
  rewrite (Ec phi ca eq_refl) by (apply (Tb _ (cos phi)); auto using COS_bound).
  rewrite (Ec lam cb eq_refl) by (apply (Tb _ (cos lam)); auto using COS_bound).
  rewrite (Es phi sa eq_refl) by (apply (Tb _ (sin phi)); auto using SIN_bound).
  rewrite (Es lam sb eq_refl) by (apply (Tb _ (sin lam)); auto using SIN_bound).
  destruct (product f s ltac:(assumption) ltac:(assumption) r (cos phi) ca (cos lam) cb Hr Kb Cp (COS_bound lam) Cl) as (X1 & X2 & X3).
  destruct (product f s ltac:(assumption) ltac:(assumption) r (cos phi) ca (sin lam) sb Hr Kb Cp (SIN_bound lam) Sl) as (Y1 & Y2 & Y3).
  assert (Bca : Rabs ca <= 2) by (apply (Tb _ (cos phi)); auto using COS_bound).
  assert (Bsa : Rabs sa <= 1001 / 1000).
  { pose proof (Ab (sin phi) (SIN_bound phi)). replace sa with ((sa - sin phi) + sin phi) by ring. eapply Rle_trans; [apply Rabs_triang|]. nra. }
  assert (Nm : forall a b, Rabs (a * b) <= 15000000 -> nmul (Some a) (Some b) = Some (rd f (a * b))).
  { intros a b H. cbn [nmul FW FN bind2]. apply (fit_bound f (a * b) 15000000); auto; lia. }
  assert (Ns : forall a, Rabs a <= 15000000 -> nst (Some a) = Some (rd s a) /\ fl s (rd s a)).
  { intros a H. destruct (fit_bound s a 15000000 Gs ltac:(lia) ltac:(lia) H) as [F _]. split; [exact F|]. apply (fit_inv s Gs _ _ F). }
  assert (Prod : forall a, Rabs a <= 2 -> Rabs (r * a) <= 15000000).
  { intros a H. rewrite Rabs_mult, (Rabs_pos_eq r) by lra. nra. }
  rewrite (Nm r ca (Prod ca Bca)), (Nm r sa (Prod sa ltac:(lra))).
  rewrite (Nm _ cb) by lra. rewrite (Nm _ sb) by lra.
  set (x1 := rd f (rd f (r * ca) * cb)) in *. set (y1 := rd f (rd f (r * ca) * sb)) in *. set (z1 := rd f (r * sa)) in *.
  assert (Ar : 0 < r) by lra.
  assert (Z0 : Rabs (r * sa - r * sin phi) <= r * (2001 / 1000 * u)).
  { rewrite <- Rmult_minus_distr_l, Rabs_mult, (Rabs_pos_eq r) by lra. apply Rmult_le_compat_l; [lra|]. pose proof (Ab (sin phi) (SIN_bound phi)).
    pose proof (Rabs_pos (sin phi)). nra. }
  assert (Bs : Rabs (r * sa) <= 1001 / 1000 * r) by (rewrite Rabs_mult, (Rabs_pos_eq r) by lra; nra).
  assert (T15 : bpow radix2 (-150) <= / 1000 * (u * r)).
  { pose proof (bpow_le radix2 (-150) (-140) ltac:(lia)). assert (u * 1 <= u * r) by (apply Rmult_le_compat_l; lra). lra. }
  assert (Z1 : Rabs (z1 - r * sa) <= 1002 / 1000 * (u * r)).
  { unfold z1. eapply Rle_trans; [apply fine_err; auto|]. assert (u * Rabs (r * sa) <= u * (1001 / 1000 * r)) by (apply Rmult_le_compat_l; lra). lra. }
  assert (UR : u * r <= / 16777216 * r) by (apply Rmult_le_compat_r; lra).
  assert (Bz : Rabs z1 <= 1002 / 1000 * r).
  { replace z1 with ((z1 - r * sa) + r * sa) by ring. eapply Rle_trans; [apply Rabs_triang|]. lra. }
  assert (Z2 : Rabs (rd s z1 - z1) <= 1002 / 1000 * (us * r) + / 1000 * (u * r)).
  { eapply Rle_trans; [apply fine_err; auto|]. assert (us * Rabs z1 <= us * (1002 / 1000 * r)) by (apply Rmult_le_compat_l; lra). lra. }
  pose proof (abs_step _ _ _ _ _ Z2 (abs_step _ _ _ _ _ Z1 Z0)) as Z3.
  destruct (Ns x1 ltac:(lra)) as [Ex Fx]. destruct (Ns y1 ltac:(lra)) as [Ey Fy]. destruct (Ns z1 ltac:(lra)) as [Ez Fz].
  assert (Kn : cos phi <> 0).
  { intros Z. rewrite Z, Rabs_R0 in Kb. pose proof (bpow_gt_0 radix2 (-55)). lra. }
  assert (Kp : 0 < r * Rabs (cos phi)) by (apply Rmult_lt_0_compat; [lra|]; now apply Rabs_pos_lt).
  assert (Rel : forall t v, Rabs (t - r * cos phi * v) <= (7 * u + 2 * us) * (r * Rabs (cos phi)) ->
                Rabs (t / (r * cos phi) - v) <= 7 * u + 2 * us).
  { intros t v H. replace (t / (r * cos phi) - v) with ((t - r * cos phi * v) / (r * cos phi)) by (field; split; lra).
    unfold Rdiv. rewrite Rabs_mult, Rabs_inv, (Rabs_mult r), (Rabs_pos_eq r) by lra.
    apply (Rmult_le_reg_r (r * Rabs (cos phi))); [assumption|]. rewrite Rmult_assoc, Rinv_l by lra. lra. }
  exists (rd s x1), (rd s y1), (rd s z1), (rd s x1 / (r * cos phi) - cos lam), (rd s y1 / (r * cos phi) - sin lam), (rd s z1 / r - sin phi).
  rewrite Ex, Ey, Ez. split; [reflexivity|]. split; [exact Fx|]. split; [exact Fy|]. split; [exact Fz|].
  split; [now apply Rel|]. split; [now apply Rel|]. split.
  { replace (rd s z1 / r - sin phi) with ((rd s z1 - r * sin phi) / r) by (field; lra). unfold Rdiv. rewrite Rabs_mult, Rabs_inv, (Rabs_pos_eq r) by lra.
    apply (Rmult_le_reg_r r); [assumption|]. rewrite Rmult_assoc, Rinv_l by lra. rewrite Rmult_1_r.
    assert (0 <= us * r) by (apply Rmult_le_pos; lra). assert (0 <= u * r) by (apply Rmult_le_pos; lra). lra. }
  split; [field; split; lra|]. split; [field; split; lra|]. split; [field; lra|].
  intros Hs. apply (product_sign f s); auto.
Qed.
End Forward.
