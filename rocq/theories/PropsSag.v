(** C95: interpolated cartesian positions lie below the sphere; what that does to longitudes and latitudes. *)
From Coq Require Import ZArith List Bool Arith Lia Reals Lra.
From Verif Require Import Spec Base Num Geo GeoProofs Chunks GridLinear PropsGeo PropsChunks PropsGridLinear.
Import ListNotations.
Open Scope R_scope.

Lemma cos_asin_ge w a : 0 < w -> a * a <= 1 - w * w -> w <= cos (asin a).
Proof.
  intros Hw Ha. assert (-1 <= a <= 1) by (split; nra). rewrite cos_asin by assumption.
  replace w with (sqrt (w * w)) by (apply sqrt_square; lra). apply sqrt_le_1_alt. unfold Rsqr. lra.
Qed.

Lemma asin_lip w a b : 0 < w -> a * a <= 1 - w * w -> b * b <= 1 - w * w -> w * Rabs (asin a - asin b) <= Rabs (a - b).
Proof.
  assert (G : forall a b, 0 < w -> a * a <= 1 - w * w -> b * b <= 1 - w * w -> a < b -> w * (asin b - asin a) <= b - a).
  { clear. intros a b Hw Ha Hb L. assert (-1 <= a <= 1) by (split; nra). assert (-1 <= b <= 1) by (split; nra).
    pose proof (asin_lt a b ltac:(lra) L ltac:(lra)) as L'. pose proof (asin_bound a) as Ba. pose proof (asin_bound b) as Bb.
    destruct (MVT_cor2 sin cos (asin a) (asin b) L') as (c & E & Hc).
    { intros c _. apply derivable_pt_lim_sin. }
    rewrite !sin_asin in E by assumption. rewrite E. apply Rmult_le_compat_r; [lra|].
    destruct (Rle_lt_dec 0 c) as [C|C].
    - apply Rle_trans with (cos (asin b)); [now apply cos_asin_ge|]. apply cos_decr_1; lra.
    - apply Rle_trans with (cos (asin a)); [now apply cos_asin_ge|]. rewrite <- (cos_neg (asin a)), <- (cos_neg c). apply cos_decr_1; lra. }
  intros Hw Ha Hb. destruct (Rtotal_order a b) as [L|[->|L]].
  - rewrite Rabs_minus_sym, (Rabs_minus_sym a). assert (0 < asin b - asin a) by (pose proof (asin_lt a b ltac:(nra) L ltac:(nra)); lra).
    rewrite !Rabs_right by lra. now apply G.
  - rewrite !Rminus_diag_eq, !Rabs_R0 by reflexivity. lra.
  - assert (0 < asin a - asin b) by (pose proof (asin_lt b a ltac:(nra) L ltac:(nra)); lra). rewrite !Rabs_right by lra. now apply G.
Qed.

(** ** The latitude of a position slightly below the sphere *)
Lemma shrink t radius d h : 0 < radius -> 0 <= h <= 1 / 100 -> (1 - h) * radius <= d -> d <= radius -> 0 <= t ->
  0 <= t / d - t / radius <= t / radius * (102 / 100 * h).
Proof.
  intros HR Hh H1 H2 Ht. assert (Hd : 0 < d) by nra.
  assert (E : t / d - t / radius = t / radius * ((radius - d) / d)) by (field; lra). rewrite E.
  assert (P : 0 <= t / radius) by (apply Rmult_le_pos; [lra|left; now apply Rinv_0_lt_compat]).
  assert (Q : 0 <= (radius - d) / d) by (apply Rmult_le_pos; [lra|left; now apply Rinv_0_lt_compat]).
  split; [now apply Rmult_le_pos|]. apply Rmult_le_compat_l; [exact P|].
  apply Rmult_le_reg_r with d; [exact Hd|]. replace ((radius - d) / d * d) with (radius - d) by (field; lra).
  assert (radius - d <= h * radius) by lra. nra.
Qed.

Theorem C95_latitude : forall radius x y z h,
  0 < radius -> 0 <= h <= 1 / 100 -> x * x + y * y <> 0 ->
  (1 - h) * (1 - h) * (radius * radius) <= x * x + y * y + z * z -> x * x + y * y + z * z <= radius * radius ->
  exists lat, snd (@xyz2lonlat_at _ RN (Some radius) (Some (8 / 10)) true (Some x, Some y, Some z)) = Some lat /\
    Rabs (lat - geocentric x y z) <= 3 / 2 * h * (180 / PI).
Proof.
  intros radius x y z h HR Hh Hxy Hlo Hhi. rewrite xyz2lonlat_RN by assumption. cbn [snd andb].
  destruct (dist0_facts x y z Hxy) as (P & Q & B). pose proof deg_factor_pos as D.
  assert (D1 : (1 - h) * radius <= dist0 x y z).
  { apply Rsqr_incr_0_var; [|lra]. unfold Rsqr. nra. }
  assert (D2 : dist0 x y z <= radius) by (apply Rsqr_incr_0_var; [unfold Rsqr; lra|lra]).
  assert (Iz : 0 < / radius) by now apply Rinv_0_lt_compat.
  assert (AZ : Rabs (z / radius) = Rabs z / radius) by (unfold Rdiv; rewrite Rabs_mult, (Rabs_right (/ radius)) by lra; reflexivity).
  destruct (Rlt_dec (Rabs (z / radius)) (8 / 10)) as [L|L]; eexists; (split; [reflexivity|]).
  - (* asin (z / radius) *)
    assert (Hz : Rabs z <= radius).
    { rewrite AZ in L. apply Rmult_le_reg_r with (/ radius); [exact Iz|]. rewrite Rinv_r by lra. unfold Rdiv at 1 in L. lra. }
    rewrite rlat_z_asin by assumption. unfold geocentric. rewrite <- Rmult_minus_distr_r, Rabs_mult, (Rabs_right (180 / PI)) by lra.
    apply Rmult_le_compat_r; [lra|].
    assert (S : Rabs (z / radius - z / dist0 x y z) <= 8 / 10 * (102 / 100 * h)).
    { pose proof (shrink (Rabs z) radius (dist0 x y z) h HR Hh D1 D2 (Rabs_pos z)) as [S1 S2].
      assert (E : Rabs (z / radius - z / dist0 x y z) = Rabs z / dist0 x y z - Rabs z / radius).
      { destruct (Rle_lt_dec 0 z) as [C|C].
        - rewrite (Rabs_right z) in * by lra. rewrite Rabs_minus_sym, Rabs_right by lra. reflexivity.
        - rewrite (Rabs_left z) in * by lra. rewrite Rabs_right.
          + field. lra.
          + replace (z / radius - z / dist0 x y z) with (- z / dist0 x y z - - z / radius) by (field; lra). lra. }
      rewrite E. apply Rle_trans with (1 := S2). apply Rmult_le_compat_r; [lra|].
      lra. }
    assert (A1 : Rabs (z / dist0 x y z) <= 809 / 1000).
    { replace (z / dist0 x y z) with (z / radius - (z / radius - z / dist0 x y z)) by ring.
      apply Rle_trans with (1 := Rabs_triang _ _). rewrite Rabs_Ropp. nra. }
    assert (A : forall t, Rabs t <= 809 / 1000 -> t * t <= 1 - 587 / 1000 * (587 / 1000)).
    { intros t Ht. assert (- (809 / 1000) <= t <= 809 / 1000) by (unfold Rabs in Ht; destruct (Rcase_abs t); lra). nra. }
    pose proof (asin_lip (587 / 1000) (z / radius) (z / dist0 x y z) ltac:(lra) ltac:(apply A; lra) ltac:(apply A; lra)) as AL. lra.
  - (* 90 degrees minus asin (rho / radius) *)
    apply Rnot_lt_le in L. pose proof (rho_pos x y Hxy) as Pr. pose proof (rho_sq x y) as Qr.
    assert (Z2 : 64 / 100 * (radius * radius) <= z * z).
    { assert (E : Rabs (z / radius) * Rabs (z / radius) = z * z / (radius * radius)).
      { rewrite <- Rabs_mult. rewrite Rabs_right; [field; lra|]. apply Rle_ge. pose proof (Rle_0_sqr (z / radius)) as X. exact X. }
      assert (64 / 100 <= Rabs (z / radius) * Rabs (z / radius)) by nra. rewrite E in H.
      apply Rmult_le_reg_r with (/ (radius * radius)); [apply Rinv_0_lt_compat; nra|].
      replace (64 / 100 * (radius * radius) * / (radius * radius)) with (64 / 100) by (field; lra). exact H. }
    assert (R6 : rho x y / radius <= 6 / 10).
    { apply Rmult_le_reg_r with radius; [exact HR|]. replace (rho x y / radius * radius) with (rho x y) by (field; lra).
      apply Rsqr_incr_0_var; [unfold Rsqr; nra|nra]. }
    pose proof (shrink (rho x y) radius (dist0 x y z) h HR Hh D1 D2 ltac:(lra)) as [S1 S2].
    assert (R0 : 0 <= rho x y / radius) by (apply Rmult_le_pos; lra).
    assert (Comp : PI / 2 - asin (rho x y / dist0 x y z) = Rabs (asin (z / dist0 x y z))).
    { apply asin_complement.
      - apply Rmult_le_pos; [lra|left; now apply Rinv_0_lt_compat].
      - apply Rmult_eq_reg_r with (dist0 x y z * dist0 x y z); [|nra].
        replace ((rho x y / dist0 x y z * (rho x y / dist0 x y z) + z / dist0 x y z * (z / dist0 x y z)) * (dist0 x y z * dist0 x y z))
          with (rho x y * rho x y + z * z) by (field; lra). rewrite Qr, Q. ring. }
    assert (Hz : z <> 0) by nra.
    assert (G : geocentric x y z = sgn z * (90 - asin (rho x y / dist0 x y z) * (180 / PI))).
    { unfold geocentric. rewrite <- half_pi_deg, <- Rmult_minus_distr_r, Comp, <- Rmult_assoc. f_equal. unfold sgn.
      assert (I : 0 < / dist0 x y z) by now apply Rinv_0_lt_compat.
      destruct (Rlt_dec 0 z); [|destruct (Rlt_dec z 0); [|lra]].
      - rewrite Rabs_right; [ring|]. apply Rle_ge, asin_pos. split; [unfold Rdiv; nra|lra].
      - rewrite Rabs_left; [ring|]. rewrite <- asin_0'. apply asin_lt; [lra| |lra]. unfold Rdiv. nra. }
    rewrite G. unfold rlat_xy. rewrite <- Rmult_minus_distr_l, Rabs_mult.
    assert (E1 : Rabs (sgn z) <= 1).
    { unfold sgn. destruct (Rlt_dec 0 z); [rewrite Rabs_R1; lra|destruct (Rlt_dec z 0); [rewrite Rabs_left by lra; lra|rewrite Rabs_R0; lra]]. }
    replace (90 - asin (rho x y / radius) * (180 / PI) - (90 - asin (rho x y / dist0 x y z) * (180 / PI)))
      with ((asin (rho x y / dist0 x y z) - asin (rho x y / radius)) * (180 / PI)) by ring.
    rewrite Rabs_mult, (Rabs_right (180 / PI)) by lra. rewrite <- Rmult_assoc.
    apply Rmult_le_compat_r; [lra|].
    assert (T : rho x y / dist0 x y z <= 61 / 100) by nra.
    pose proof (asin_lip (79 / 100) (rho x y / dist0 x y z) (rho x y / radius) ltac:(lra) ltac:(nra) ltac:(nra)) as AL.
    rewrite (Rabs_right (_ / _ - _)) in AL by lra.
    pose proof (Rabs_pos (asin (rho x y / dist0 x y z) - asin (rho x y / radius))) as AP. pose proof (Rabs_pos (sgn z)).
    assert (M : rho x y / radius * (102 / 100 * h) <= 6 / 10 * (102 / 100 * h)) by (apply Rmult_le_compat_r; lra).
    apply Rle_trans with (1 * Rabs (asin (rho x y / dist0 x y z) - asin (rho x y / radius))); [now apply Rmult_le_compat_r|]. lra.
Qed.
Print Assumptions C95_latitude.

(** ** The bilinear position of a cell in a cap *)
Definition dot (p q : R * R * R) : R := fst (fst p) * fst (fst q) + snd (fst p) * snd (fst q) + snd p * snd q.

(** a convex combination of points of norm [radius] within the cap [dot p u >= k * radius] around the unit vector [u] *)
Lemma convex_cap radius k u a b c d wa wb wc wd :
  0 < radius -> 0 < k -> dot u u = 1 ->
  0 <= wa -> 0 <= wb -> 0 <= wc -> 0 <= wd -> wa + wb + wc + wd = 1 ->
  (forall p, p = a \/ p = b \/ p = c \/ p = d -> dot p p = radius * radius /\ k * radius <= dot p u) ->
  let m f := wa * f a + wb * f b + wc * f c + wd * f d in
  let p := (m (fun p => fst (fst p)), m (fun p => snd (fst p)), m snd) in
  k * radius <= dot p u /\ k * k * (radius * radius) <= dot p p /\ dot p p <= radius * radius.
Proof.
  intros HR Hk Hu Ha Hb Hc Hd Hs H. destruct (H a ltac:(auto)) as [A1 A2]. destruct (H b ltac:(auto)) as [B1 B2].
  destruct (H c ltac:(auto)) as [C1 C2]. destruct (H d ltac:(auto)) as [D1 D2]. cbv zeta.
  destruct a as [[a1 a2] a3], b as [[b1 b2] b3], c as [[c1 c2] c3], d as [[d1 d2] d3], u as [[u1 u2] u3].
  unfold dot in *. cbn [fst snd] in *.
  set (p1 := wa * a1 + wb * b1 + wc * c1 + wd * d1). set (p2 := wa * a2 + wb * b2 + wc * c2 + wd * d2). set (p3 := wa * a3 + wb * b3 + wc * c3 + wd * d3).
  assert (E : k * radius <= p1 * u1 + p2 * u2 + p3 * u3).
  { replace (p1 * u1 + p2 * u2 + p3 * u3) with (wa * (a1 * u1 + a2 * u2 + a3 * u3) + wb * (b1 * u1 + b2 * u2 + b3 * u3)
      + wc * (c1 * u1 + c2 * u2 + c3 * u3) + wd * (d1 * u1 + d2 * u2 + d3 * u3)) by (unfold p1, p2, p3; ring).
    replace (k * radius) with (wa * (k * radius) + wb * (k * radius) + wc * (k * radius) + wd * (k * radius))
      by (rewrite <- !Rmult_plus_distr_r, Hs; ring).
    repeat apply Rplus_le_compat; apply Rmult_le_compat_l; assumption. }
  split; [exact E|].
  (* Cauchy-Schwarz, by Lagrange's identity *)
  assert (CS : forall s1 s2 s3 t1 t2 t3, (s1 * t1 + s2 * t2 + s3 * t3) * (s1 * t1 + s2 * t2 + s3 * t3) <=
    (s1 * s1 + s2 * s2 + s3 * s3) * (t1 * t1 + t2 * t2 + t3 * t3)).
  { intros. pose proof (Rle_0_sqr (s1 * t2 - s2 * t1)). pose proof (Rle_0_sqr (s1 * t3 - s3 * t1)). pose proof (Rle_0_sqr (s2 * t3 - s3 * t2)).
    unfold Rsqr in *. lra. }
  split.
  - pose proof (CS p1 p2 p3 u1 u2 u3) as CS0. rewrite Hu, Rmult_1_r in CS0. assert (0 < k * radius) by nra. nra.
  - (* p.p = sum of weights times q.p, and each q.p <= (q.q + p.p) / 2 *)
    set (n := p1 * p1 + p2 * p2 + p3 * p3).
    assert (AM : forall q1 q2 q3, q1 * q1 + q2 * q2 + q3 * q3 = radius * radius -> q1 * p1 + q2 * p2 + q3 * p3 <= (radius * radius + n) / 2).
    { intros q1 q2 q3 Hq. unfold n. pose proof (Rle_0_sqr (q1 - p1)). pose proof (Rle_0_sqr (q2 - p2)). pose proof (Rle_0_sqr (q3 - p3)). unfold Rsqr in *. lra. }
    assert (N : n = wa * (a1 * p1 + a2 * p2 + a3 * p3) + wb * (b1 * p1 + b2 * p2 + b3 * p3) + wc * (c1 * p1 + c2 * p2 + c3 * p3) + wd * (d1 * p1 + d2 * p2 + d3 * p3)).
    { unfold n. unfold p1 at 1, p2 at 1, p3 at 1. ring. }
    assert (L : n <= (radius * radius + n) / 2); [|lra].
    rewrite N at 1. replace ((radius * radius + n) / 2) with (wa * ((radius * radius + n) / 2) + wb * ((radius * radius + n) / 2) + wc * ((radius * radius + n) / 2) + wd * ((radius * radius + n) / 2))
      by (rewrite <- !Rmult_plus_distr_r, Hs; ring).
    repeat apply Rplus_le_compat; (apply Rmult_le_compat_l; [assumption|apply AM; assumption]).
Qed.

(** GeoGridInterpolator: if the four tie points of the cell of a pixel are within the angle whose cosine is k >= 0.99 of
    some direction u, so is the interpolated position p; its longitude is the one returned (except on the
    antimeridian), its latitude the one returned up to 3/2 (1 - k). *)
Theorem C95_cell : forall i ys xs lons lats fy fx m n r c u k,
  axes ys xs -> shaped (length ys) (length xs) lons -> shaped (length ys) (length xs) lats ->
  Forall (inside ys) fy -> Forall (inside xs) fx -> (m < length fy)%nat -> (n < length fx)%nat ->
  (S r < length ys)%nat -> (S c < length xs)%nat ->
  nth r ys 0 <= nth m fy 0 <= nth (S r) ys 0 -> nth c xs 0 <= nth n fx 0 <= nth (S c) xs 0 ->
  99 / 100 <= k <= 1 -> dot u u = 1 ->
  (forall a b, (a = r \/ a = S r)%nat -> (b = c \/ b = S c)%nat -> k * 6370997 <= dot (tie_xyz lons lats a b) u) ->
  exists olon olat p, geo_grid i ys xs lons lats fy fx = Ok (olon, olat) /\
    k * sqrt (dot p p) <= dot p u /\ k * 6370997 <= sqrt (dot p p) <= 6370997 /\
    let '(x, y, z) := p in
    x * x + y * y <> 0 ->
    (exists lat, at2 None olat m n = Some lat /\ Rabs (lat - geocentric x y z) <= 3 / 2 * (1 - k) * (180 / PI)) /\
    (~ (y = 0 /\ x < 0) -> exists lon, at2 None olon m n = Some lon /\ -180 <= lon <= 180 /\ points_to lon x y).
Proof.
  intros i ys xs lons lats fy fx m n r c u k Ha S1 S2 Iy' Ix' Hm Hn Hr Hc Hy Hx Hk Hu Hcap. pose proof Ha as (Iy & Ix & Ly & Lx).
  destruct (C91_position i ys xs lons lats fy fx Ha S1 S2) as (olon & olat & E & _ & _ & H); [right; auto|].
  assert (Cy : in_cell ys r (nth m fy 0)) by (split; [exact Hr|split; right; lra]).
  assert (Cx : in_cell xs c (nth n fx 0)) by (split; [exact Hc|split; right; lra]).
  specialize (H m n r c Hm Hn Cy Cx). cbv beta zeta in H.
  pose proof (step_pos ys r Iy Hr) as Py. pose proof (step_pos xs c Ix Hc) as Px.
  rewrite !bilinear_weights in H by assumption.
  set (t := (nth m fy 0 - nth r ys 0) / (nth (S r) ys 0 - nth r ys 0)) in *.
  set (s := (nth n fx 0 - nth c xs 0) / (nth (S c) xs 0 - nth c xs 0)) in *.
  assert (W : forall a b v, a < b -> a <= v <= b -> 0 <= (v - a) / (b - a) <= 1).
  { intros a b v L B. split; [apply Rmult_le_pos; [lra|left; apply Rinv_0_lt_compat; lra]|].
    apply Rmult_le_reg_r with (b - a); [lra|]. replace ((v - a) / (b - a) * (b - a)) with (v - a) by (field; lra). lra. }
  assert (Wt : 0 <= t <= 1) by (apply W; assumption). assert (Ws : 0 <= s <= 1) by (apply W; assumption). clearbody t s.
  pose proof (convex_cap 6370997 k u (tie_xyz lons lats r c) (tie_xyz lons lats r (S c)) (tie_xyz lons lats (S r) c) (tie_xyz lons lats (S r) (S c))
    ((1 - t) * (1 - s)) ((1 - t) * s) (t * (1 - s)) (t * s) ltac:(lra) ltac:(lra) Hu
    ltac:(apply Rmult_le_pos; lra) ltac:(apply Rmult_le_pos; lra) ltac:(apply Rmult_le_pos; lra) ltac:(apply Rmult_le_pos; lra) ltac:(ring)) as C.
  assert (Sph : forall a b, dot (tie_xyz lons lats a b) (tie_xyz lons lats a b) = 6370997 * 6370997).
  { intros a b. unfold tie_xyz, lonlat2xyz, EARTH_RADIUS. cbn [nz RT].
    pose proof (sphere_norm 6370997 (at2 0 lons a b) (at2 0 lats a b)) as Sn.
    destruct (@lonlat2xyz_at R RT 6370997 (at2 0 lons a b) (at2 0 lats a b)) as [[px py] pz]. exact Sn. }
  cbv zeta in C. destruct C as (C1 & C2 & C3).
  { intros p [->|[->|[->| ->]]]; (split; [apply Sph|apply Hcap; auto]). }
  match type of C1 with _ <= dot ?q u => set (p := q) in * end.
  exists olon, olat, p. split; [exact E|].
  assert (Q0 : 0 <= dot p p) by (apply Rle_trans with (2 := C2); nra).
  assert (Q2 : sqrt (dot p p) <= 6370997).
  { apply Rsqr_incr_0_var; [|lra]. rewrite Rsqr_sqrt by exact Q0. exact C3. }
  assert (Q1 : k * 6370997 <= sqrt (dot p p)).
  { apply Rsqr_incr_0_var; [|apply sqrt_pos]. rewrite Rsqr_sqrt by exact Q0. unfold Rsqr. lra. }
  split; [nra|]. split; [lra|].
  assert (Hp : (at2 None olon m n, at2 None olat m n) = @xyz2lonlat _ RN (Some (fst (fst p)), Some (snd (fst p)), Some (snd p))).
  { rewrite H. unfold p. cbn [fst snd]. f_equal. f_equal; [f_equal|]; f_equal; ring. }
  destruct p as [[x y] z]. cbn [fst snd] in Hp. unfold dot in *. cbn [fst snd] in *. intros Hxy.
  unfold xyz2lonlat, EARTH_RADIUS in Hp. cbn [nz RN] in Hp.
  assert (E8 : @ndiv (option R) RN (Some 8) (Some 10) = Some (8 / 10)) by (cbn [ndiv RN]; apply RNdiv_some; lra). rewrite E8 in Hp.
  split.
  - destruct (C95_latitude 6370997 x y z (1 - k) ltac:(lra) ltac:(lra) Hxy) as (lat & L1 & L2); [|exact C3|].
    + replace (1 - (1 - k)) with k by ring. exact C2.
    + exists lat. split; [|exact L2]. rewrite <- L1. apply (f_equal snd) in Hp. exact Hp.
  - intros Ho. destruct (C18_direction_partial (Some 6370997) (Some (8 / 10)) true x y (Some z) Hxy Ho) as (lon & L1 & L2 & L3 & _).
    exists lon. split; [|split; [exact L1|exact L2]]. rewrite <- L3. apply (f_equal fst) in Hp. exact Hp.
Qed.
Print Assumptions C95_cell.
(** a cell of one degree by one degree; the middle of it is interpolated *)
Lemma cos_near_1 a : 0 <= a <= 1 -> 999 / 1000 <= cos (a * (PI / 180)).
Proof.
  intros Ha. pose proof PI2_1. pose proof PI_RGT_0. pose proof PI_4. set (b := a * (PI / 180)).
  assert (Bb : 0 <= b <= 4 / 180) by (unfold b; split; [apply Rmult_le_pos; lra|pose proof (Rmult_le_compat_r (PI / 180) a 1 ltac:(lra) ltac:(lra)); lra]). clearbody b.
  replace b with (2 * (b / 2)) by field. rewrite cos_2a_sin.
  assert (S : 0 <= sin (b / 2) <= b / 2).
  { destruct (Req_dec b 0) as [->|N]; [replace (0 / 2) with 0 by field; rewrite sin_0; lra|].
    split; [left; apply sin_gt_0; lra|left; apply sin_lt_x; lra]. }
  nra.
Qed.
Example C95_case : exists olon olat x y z lon lat,
  geo_grid {| bounds_error := true; fill_value := Some None |} [0; 1] [0; 1] [[0; 1]; [0; 1]] [[0; 0]; [1; 1]] [1 / 2] [1 / 2] = Ok (olon, olat) /\
  0 < x /\ olon = [[Some lon]] /\ olat = [[Some lat]] /\ points_to lon x y /\
  Rabs (lat - geocentric x y z) <= 3 / 2 * (1 - 99 / 100) * (180 / PI).
Proof.
  assert (I2 : increasing [0; 1]).
  { intros a b H. destruct a as [|[|a]]; destruct b as [|[|b]]; cbn in *; try lia; lra. }
  assert (Ax : axes [0; 1] [0; 1]) by (repeat split; auto).
  assert (S1 : shaped 2 2 [[0; 1]; [0; 1]]) by (split; [reflexivity|repeat constructor]).
  assert (S2 : shaped 2 2 [[0; 0]; [1; 1]]) by (split; [reflexivity|repeat constructor]).
  assert (In : Forall (inside [0; 1]) [1 / 2]) by (repeat constructor; cbn; lra).
  set (i := {| bounds_error := true; fill_value := Some None |}).
  assert (Cap : forall a b, (a = 0 \/ a = 1)%nat -> (b = 0 \/ b = 1)%nat ->
    99 / 100 * 6370997 <= dot (tie_xyz [[0; 1]; [0; 1]] [[0; 0]; [1; 1]] a b) (1, 0, 0)).
  { intros a b Ha Hb.
    assert (G : forall lo la, 0 <= lo <= 1 -> 0 <= la <= 1 -> 99 / 100 * 6370997 <= dot (@lonlat2xyz R RT lo la) (1, 0, 0)).
    { intros lo la H1 H2. pose proof (cos_near_1 lo H1) as C1. pose proof (cos_near_1 la H2) as C2.
      unfold dot, lonlat2xyz, lonlat2xyz_at, EARTH_RADIUS, deg2rad. cbn [fst snd nz RT nmul ndiv npi ncos nsin].
      pose proof (Rmult_le_compat (999 / 1000) _ (999 / 1000) _ ltac:(lra) ltac:(lra) C1 C2). nra. }
    unfold tie_xyz. destruct Ha as [-> | ->], Hb as [-> | ->]; cbn [at2 nth]; apply G; lra. }
  destruct (C95_cell i [0; 1] [0; 1] [[0; 1]; [0; 1]] [[0; 0]; [1; 1]] [1 / 2] [1 / 2] 0 0 0 0 (1, 0, 0) (99 / 100) Ax S1 S2 In In)
    as (olon & olat & [[x y] z] & E & K1 & K2 & H); try (cbn; lia); try (cbn; lra); try (unfold dot; cbn; lra); try exact Cap.
  destruct (C91_position i [0; 1] [0; 1] [[0; 1]; [0; 1]] [[0; 0]; [1; 1]] [1 / 2] [1 / 2] Ax S1 S2 (or_intror (conj In In)))
    as (olon' & olat' & E' & T1 & T2 & _).
  rewrite E in E'. injection E' as <- <-.
  assert (X : 0 < x). { unfold dot at 2 in K1. cbn [fst snd] in K1. lra. }
  destruct H as ((lat & L1 & L2) & H); [nra|]. destruct H as (lon & M1 & _ & M3); [lra|].
  exists olon, olat, x, y, z, lon, lat. split; [exact E|]. split; [exact X|].
  assert (One : forall (o : list (list (option R))) v, shaped 1 1 o -> at2 None o 0 0 = v -> o = [[v]]).
  { intros o v [L F] A. destruct o as [|[|w [|? ?]] [|? ?]]; try discriminate; inversion F as [|? ? F1 F2]; try discriminate.
    unfold at2 in A. cbn in A. now rewrite A. }
  split; [now apply One|]. split; [now apply One|]. split; [exact M3|exact L2].
Qed.
