(** C76: pixels between tie points stay near them. *)
From Coq Require Import ZArith List Bool Lia Reals Lra.
From Flocq.Core Require Import Core.
From Verif Require Import Base Num Geo GeoProofs GeoAgree Mem PiBound Float FloatGeo FloatAcc FloatTrip PropsFloat PropsFloatAcc PropsFloatTrip FloatNear FloatModis FloatPixel
  Modis ModisProofs ModisOob ModisAngles PropsGeo PropsModis PropsSimple PropsModisValues PropsFloatModis PropsFloatTie.
Open Scope Z_scope.

(** The full statement would read: every pixel within the rectangle of its four tie points (0 <= u <= 1, 0 <= v <= 1) is placed
    by a weight along the scan between -1/3 and 4/3, for all zenith angles in [0, 70] that are not both 0. It is proved when the
    zenith angles of the upper two tie points are told apart, and false when they are nearly equal. *)
Theorem C76_reach_partial : forall k g n w (lon lat satz olon olat : ndarray (option R)) (lo la z : Z -> Z -> R),
  even_grid k -> 0 <= n -> std_width k w -> shaped Float32 n w lon lat satz ->
  (forall a b, 0 <= a < n -> 0 <= b < w -> aat lon a b = Some (lo a b) /\ aat lat a b = Some (la a b) /\ aat satz a b = Some (z a b) /\ (0 <= z a b <= 70)%R) ->
  (forall a b, 0 <= a < n -> 0 <= b -> b + 1 < w -> told_apart (z a b) (z a (b + 1))) ->
  @modis _ RN k g lon lat satz = Ok (olon, olat) ->
  forall s j i, 0 <= s -> (s + 1) * scan_len k <= n -> 0 <= j < fine_len k -> 0 <= i < fine_width k ->
    let row := s * scan_len k + row_cell k j in let col := col_cell k w i in
    let u := (scan_pos k i - IZR col)%R in let v := (track_pos k j - IZR (row_cell k j))%R in
    (0 <= u <= 1 -> 0 <= v <= 1 -> exists along, -1 / 3 <= along <= 4 / 3 /\
      let position (coordinate : R -> R -> R) := corners (fun a b => coordinate (lo a b) (la a b)) row col v along in
      (aat olon (s * fine_len k + j)%Z i, aat olat (s * fine_len k + j)%Z i) =
      @cy_xyz2lonlat _ RN true (Some (8 / 10)) (Some (position at_x), Some (position at_y), Some (position at_z)))%R.
Proof.
  intros k g n w lon lat satz olon olat lo la z Hk Hn Hw S F NZ O s j i Hs Hsn Hj Hi row col u v Hu Hv.
  assert (W2 : 2 <= w) by (destruct k; cbn [std_width] in Hw; lia).
  assert (SL : 2 <= scan_len k) by (destruct k; cbn [scan_len]; lia).
  assert (RC : 0 <= row_cell k j <= scan_len k - 2) by (unfold row_cell; lia).
  assert (CC : 0 <= col /\ col + 1 < w) by (unfold col, col_cell; lia).
  assert (RB : 0 <= row < n) by (unfold row; nia).
  destruct (C69_pixels k g n w lon lat satz olon olat lo la z Hk Hn Hw S) with (s := s) (j := j) (i := i) as (e & l & EA & P); try assumption.
  { intros a b Ha Hb. destruct (F a b Ha Hb) as (A & B & C & D). do 3 (split; [assumption|]). lra. }
  { intros a b Ha Hb Hb1 [E1 E2]. destruct (NZ a b Ha Hb Hb1) as [Q|[_ Q]]; rewrite E1, ?E2 in Q; [|lra].
    rewrite Rminus_0_r, Rabs_R0 in Q. lra. }
  fold row col in EA, P. fold u v in P. cbv zeta in P.
  exists (u + u * (1 - u) * e + v * (1 - v) * l)%R. split; [|exact P].
  destruct (F row col ltac:(lia) ltac:(lia)) as (_ & _ & _ & Ba). destruct (F row (col + 1) ltac:(lia) ltac:(lia)) as (_ & _ & _ & Bb).
  pose proof (rad_70 _ Ba) as Ra. pose proof (rad_70 _ Bb) as Rb. pose proof z70_89 as Z9.
  pose proof (seen_at (degrees (z row col)) ltac:(unfold degrees; lra)) as Sa. pose proof (seen_at (degrees (z row (col + 1))) ltac:(unfold degrees; lra)) as Sb.
  destruct (C74_apart _ _ _ _ _ _ Ba Bb Sa Sb) as (_ & _ & AP). specialize (AP (NZ row col ltac:(lia) ltac:(lia) ltac:(lia))).
  destruct (C74_coefficients exact_libm (km k) _ _ _ _ _ _ (proj1 C72_exact_libm) ltac:(unfold km; destruct (is_1km k); auto) Ba Bb Sa Sb AP)
    as (e0 & l0 & _ & _ & E0 & _ & Be & Bl & _).
  rewrite EA in E0. injection E0 as <- <-. set (sep := apart _ _ _ _) in *.
  assert (IS : (0 < / sep <= 100000)%R).
  { split; [apply Rinv_0_lt_compat; lra|]. replace 100000%R with (/ (/ 100000))%R by lra. apply Rinv_le_contravar; lra. }
  assert (LB : (Rabs l <= 0.8)%R) by (unfold Rdiv in Bl; lra). apply Rabs_le_inv in LB, Be.
  assert (UU : (0 <= u * (1 - u))%R) by (apply Rmult_le_pos; lra). assert (VV : (0 <= v * (1 - v))%R) by (apply Rmult_le_pos; lra).
  assert (V4 : (v * (1 - v) <= 1 / 4)%R) by (pose proof (Rle_0_sqr (v - 1 / 2)) as Q; unfold Rsqr in Q; lra).
  assert (U4 : (u - 2 * (u * (1 - u)) >= - (1 / 8))%R) by (pose proof (Rle_0_sqr (u - 1 / 4)) as Q; unfold Rsqr in Q; lra).
  assert (U5 : (u + 2 * (u * (1 - u)) <= 9 / 8)%R) by (pose proof (Rle_0_sqr (u - 3 / 4)) as Q; unfold Rsqr in Q; lra).
  assert (A1 : (- (2 * (u * (1 - u))) <= u * (1 - u) * e <= 2 * (u * (1 - u)))%R).
  { split; [replace (- (2 * (u * (1 - u))))%R with (u * (1 - u) * -2)%R by ring|replace (2 * (u * (1 - u)))%R with (u * (1 - u) * 2)%R by ring]; apply Rmult_le_compat_l; lra. }
  assert (A2 : (- 0.2 <= v * (1 - v) * l <= 0.2)%R).
  { assert (v * (1 - v) * l <= v * (1 - v) * 0.8)%R by (apply Rmult_le_compat_l; lra). assert (v * (1 - v) * -0.8 <= v * (1 - v) * l)%R by (apply Rmult_le_compat_l; lra). lra. }
  lra.
Qed.
Print Assumptions C76_reach_partial.

(** ** Nearly equal zenith angles *)
(** the alignment coefficient grows without bound when the difference of the angles shrinks, although it is tiny for equal angles *)
Lemma aliR_ge za zb : (17e-3 <= zb -> zb < za -> za <= 18e-3 -> 4e-9 / (za - zb) <= aliR 5 za zb)%R.
Proof.
  intros Hb Hab Ha. pose proof z70_b as Z7. pose proof z70_89 as Z9. pose proof kap_b as K.
  destruct (mid1 zb za ltac:(lra) ltac:(lra) ltac:(lra)) as (M1 & _ & M3).
  replace ((phiR zb + phiR za) / 2)%R with (midphi za zb) in * by (unfold midphi; field). fold (midzeta za zb) in M1, M3.
  unfold aliR, gapR. set (q := midzeta za zb) in *.
  assert (SH : (3.5e-4 <= shift2 5 za zb <= 1e-3)%R).
  { unfold shift2. fold q. rewrite M3. destruct (dist_b q ltac:(lra)) as [D1 D2]. split; [|lra].
    pose proof (phi_le q ltac:(lra)) as PL. pose proof (phiR_range q ltac:(lra)) as PR.
    assert (C : (cos q <= cos (phiR q))%R) by (apply cos_decr_1; pose proof PI_bounds; lra).
    assert (C1 : (0.99 <= cos q)%R).
    { pose proof (cos_lip q 0) as L. rewrite cos_0, Rminus_0_r in L. assert (A : (Rabs q <= 0.018)%R) by (rewrite Rabs_pos_eq; lra).
      pose proof (pre_cos_bound q 0) as PC. clear PC. destruct (cos_bound q 0) as [L1 _]; [pose proof PI_bounds; lra|pose proof PI_bounds; lra|].
      eapply Rle_trans; [|exact L1]. unfold cos_approx, cos_term. cbn [sum_f_R0 Nat.mul Nat.add fact pow INR]. nra. }
    assert (I : (1.11 <= / kap)%R). { replace 1.11%R with (/ (1 / 1.11))%R by lra. apply Rinv_le_contravar; lra. }
    assert (1.11 * cos q <= cos (phiR q) / kap)%R.
    { unfold Rdiv. rewrite (Rmult_comm (cos (phiR q))). apply Rmult_le_compat; lra. }
    lra. }
  set (d := shift2 5 za zb) in *.
  assert (C0 : (34 / 100 <= cos q <= 1)%R) by (split; [apply cos_70; lra|apply COS_bound]).
  assert (DD : (1.225e-7 <= d * d <= 1e-6)%R).
  { split; [apply Rle_trans with (3.5e-4 * 3.5e-4)%R; [lra|apply Rmult_le_compat; lra]|apply Rle_trans with (1e-3 * 1e-3)%R; [apply Rmult_le_compat; lra|lra]]. }
  assert (CQ : (1e-1 <= cos q * cos q <= 1)%R).
  { split; [apply Rle_trans with (34 / 100 * (34 / 100))%R; [lra|apply Rmult_le_compat; lra]|apply Rle_trans with (1 * 1)%R; [apply Rmult_le_compat; lra|lra]]. }
  rewrite gap_form by lra. pose proof (sqrt_pos (cos q * cos q - d * d)) as S0.
  assert (S1 : (sqrt (cos q * cos q - d * d) <= 1)%R) by (rewrite <- sqrt_1; apply sqrt_le_1_alt; lra).
  set (r := sqrt (cos q * cos q - d * d)) in *.
  assert (G : (6.1e-8 <= d * d / (cos q + r))%R).
  { apply Rmult_le_reg_r with (cos q + r)%R; [lra|]. replace (d * d / (cos q + r) * (cos q + r))%R with (d * d)%R by (field; lra). lra. }
  assert (SQ : (0.0168 <= sin q)%R).
  { pose proof (sin_lb q) as L. destruct (sin_bound q 0) as [L1 _]; [lra|pose proof PI_bounds; lra|]. clear L.
    eapply Rle_trans; [|exact L1]. unfold sin_approx, sin_term. cbn [sum_f_R0 Nat.mul Nat.add fact pow INR].
    assert (q * (q * q) <= 0.018 * (0.018 * 0.018))%R by (repeat apply Rmult_le_compat; try lra; apply Rmult_le_pos; lra). lra. }
  pose proof (theta_step zb za ltac:(lra) ltac:(lra) ltac:(lra)) as [T1 T2].
  assert (T0 : (0 < (1 - kap) * (za - zb))%R) by (apply Rmult_lt_0_compat; lra).
  unfold denR. destruct (Req_EM_T za zb) as [E|_]; [lra|].
  assert (NU : (4e-9 <= 4 * (d * d / (cos q + r)) * sin q)%R).
  { apply Rle_trans with (4 * 6.1e-8 * 0.0168)%R; [lra|]. apply Rmult_le_compat; lra. }
  apply (Rmult_le_compat 4e-9 _ (/ (za - zb)) (/ (thetaR za - thetaR zb)))%R; [lra| |exact NU|].
  - apply Rlt_le, Rinv_0_lt_compat. lra.
  - apply Rinv_le_contravar; lra.
Qed.
Theorem C76_unbounded : forall K, exists a b e l, (1 <= b /\ b < a /\ a <= 101 / 100)%R /\ @exp_ali _ RN 5 (Some a) (Some b) = (Some e, Some l) /\
  (Rabs e <= 2 /\ K <= l)%R.
Proof.
  intros K. pose proof PI_bounds as P. set (t := (1e-9 / (1e-7 + Rabs K))%R). pose proof (Rabs_pos K) as K0.
  assert (T : (0 < t <= 0.01)%R).
  { unfold t. split; [apply Rmult_lt_0_compat; [lra|apply Rinv_0_lt_compat; lra]|].
    apply Rmult_le_reg_r with (1e-7 + Rabs K)%R; [lra|]. unfold Rdiv. rewrite Rmult_assoc, Rinv_l by lra. lra. }
  exists (1 + t)%R, 1%R.
  assert (Ba : (0 <= 1 + t <= 70)%R) by lra. assert (Bb : (0 <= 1 <= 70)%R) by lra.
  set (za := ((1 + t) * (PI / 180))%R). set (zb := (1 * (PI / 180))%R).
  assert (D : (za - zb = t * (PI / 180))%R) by (unfold za, zb; ring).
  assert (D0 : (0 < t * (PI / 180) <= 0.01 * (PI / 180))%R) by (split; [apply Rmult_lt_0_compat; lra|apply Rmult_le_compat_r; lra]).
  assert (HZ : (17e-3 <= zb /\ zb < za /\ za <= 18e-3)%R) by (unfold zb in *; lra). destruct HZ as (H1 & H2 & H3).
  pose proof z70_b as Z7. pose proof z70_89 as Z9. pose proof kap_b as KB.
  assert (DN : denR za zb <> 0%R).
  { unfold denR. destruct (Req_EM_T za zb) as [E|_]; [lra|]. pose proof (theta_step zb za ltac:(lra) ltac:(lra) ltac:(lra)) as [T1 _].
    assert (0 < (1 - kap) * (za - zb))%R by (apply Rmult_lt_0_compat; lra). lra. }
  exists (expR za zb), (aliR 5 za zb). split; [lra|]. split; [apply (exp_ali_exact 5 (1 + t) 1); auto|].
  split.
  - pose proof (num_le (1 + t) 1 Ba Bb) as NL. change (1 * (PI / 180))%R with zb in NL. change ((1 + t) * (PI / 180))%R with za in NL.
    assert (Q : (0 < Rabs (denR za zb))%R) by (apply Rabs_pos_lt, DN).
    unfold expR. rewrite Rabs_mult, (Rabs_pos_eq 4) by lra. unfold Rdiv at 1. rewrite Rabs_mult, Rabs_inv.
    apply Rmult_le_reg_r with (Rabs (denR za zb)); [lra|]. rewrite !Rmult_assoc, Rinv_l by lra. lra.
  - eapply Rle_trans; [|apply (aliR_ge za zb H1 H2 H3)]. rewrite D.
    eapply Rle_trans; [apply Rle_abs|]. apply Rmult_le_reg_r with (t * (PI / 180))%R; [lra|]. unfold Rdiv at 2. rewrite Rmult_assoc, Rinv_l by lra.
    assert (KT : (Rabs K * t <= 1e-9)%R).
    { unfold t, Rdiv. rewrite <- Rmult_assoc, (Rmult_comm (Rabs K)), Rmult_assoc. apply Rle_trans with (1e-9 * 1)%R; [|lra]. apply Rmult_le_compat_l; [lra|].
      apply Rmult_le_reg_r with (1e-7 + Rabs K)%R; [lra|]. rewrite Rmult_assoc, Rinv_l by lra. lra. }
    rewrite <- Rmult_assoc. apply Rle_trans with (1e-9 * (PI / 180))%R; [apply Rmult_le_compat_r; lra|lra].
Qed.
Print Assumptions C76_unbounded.

(** a position with 0 < x <= y or x <= 0 < y is at least 45 degrees east *)
Lemma east_45 x y lon : (-180 <= lon <= 180 -> points_to lon x y -> 0 < y -> x <= y -> 45 <= lon)%R.
Proof.
  intros B [C S] Hy Hxy. pose proof PI_RGT_0 as P. set (r := sqrt (x * x + y * y)) in *.
  assert (R0 : (0 < r)%R) by (unfold r; apply sqrt_lt_R0; nra).
  destruct (Rle_dec 45 lon) as [|N]; [assumption|exfalso].
  destruct (Rle_dec lon 0) as [L|L].
  - assert (H : (0 <= sin (- (lon * (PI / 180))))%R) by (apply sin_ge_0; nra). rewrite sin_neg in H. nra.
  - assert (A : (0 < lon * (PI / 180) < PI / 4)%R) by (split; nra).
    assert (S1 : (sin (lon * (PI / 180)) < sin (PI / 4))%R) by (apply sin_increasing_1; lra).
    assert (C1 : (cos (PI / 4) < cos (lon * (PI / 180)))%R) by (apply cos_decreasing_1; lra).
    rewrite cos_PI4 in C1. rewrite sin_PI4 in S1. nra.
Qed.

(** the tie points lie on the equator between 0 and 5 degrees east, seen under 1 degree except for the first column *)
Definition eq_lon : ndarray (option R) := {| adt := Float32; arows := 2; acols := 271; aat := fun _ b => Some (IZR b / 64)%R |}.
Definition eq_lat : ndarray (option R) := {| adt := Float32; arows := 2; acols := 271; aat := fun _ _ => Some 0%R |}.
Definition eq_satz (a b : R) : ndarray (option R) := {| adt := Float32; arows := 2; acols := 271; aat := fun _ c => Some (if c =? 0 then a else b) |}.
Theorem C76_refuted : exists a b, (1 <= b /\ b < a /\ a <= 101 / 100)%R /\ forall g olon olat,
  @modis _ RN M5km_1km g eq_lon eq_lat (eq_satz a b) = Ok (olon, olat) -> exists lon, aat olon 4 4 = Some lon /\ (45 <= lon)%R.
Proof.
  destruct (C76_unbounded 20000) as (a & b & e & l & B & EA & Be & Bl). exists a, b. split; [exact B|]. intros g olon olat O.
  pose proof PI_bounds as P.
  destruct (C69_pixels M5km_1km g 2 271 eq_lon eq_lat (eq_satz a b) olon olat (fun _ c => IZR c / 64)%R (fun _ _ => 0%R) (fun _ c => if c =? 0 then a else b))
    with (s := 0) (j := 4) (i := 4) as (e' & l' & EA' & Q).
  - unfold even_grid. auto.
  - lia.
  - cbn. auto.
  - repeat split.
  - intros r c _ _. do 3 (split; [reflexivity|]). destruct (c =? 0); lra.
  - intros r c _ _ _ [H1 H2]. destruct (c =? 0); lra.
  - exact O.
  - lia.
  - cbn. lia.
  - cbn. lia.
  - cbn. lia.
  - change (row_cell M5km_1km 4) with 0 in *. change (col_cell M5km_1km 271 4) with 0 in *. change (km M5km_1km) with 5 in *.
    cbn [Z.add Z.mul Z.eqb] in EA'. rewrite EA in EA'. injection EA' as <- <-. cbv zeta in Q.
    assert (U : (scan_pos M5km_1km 4 - 0 = 0.4)%R) by (unfold scan_pos, first_col; cbn [is_1km factor]; lra).
    assert (Vv : (track_pos M5km_1km 4 - 0 = 0.4)%R) by (unfold track_pos; cbn [factor]; lra). rewrite U, Vv in Q.
    set (al := (0.4 + 0.4 * (1 - 0.4) * e + 0.4 * (1 - 0.4) * l)%R) in *.
    apply Rabs_le_inv in Be. assert (AL : (4700 <= al)%R) by (unfold al; lra).
    set (x := corners (fun a b => at_x (IZR b / 64) 0) _ _ _ al) in *. set (y := corners (fun a b => at_y (IZR b / 64) 0) _ _ _ al) in *.
    set (h := corners (fun a b => at_z (IZR b / 64) 0) _ _ _ al) in *.
    assert (Z0 : (0 * (PI / 180) = 0)%R) by ring.
    set (t := (1 / 64 * (PI / 180))%R). assert (T : (0.000272 <= t <= 0.000273)%R) by (unfold t; lra).
    assert (ST : (0.00027 <= sin t)%R).
    { destruct (sin_bound t 0) as [L1 _]; [lra|lra|]. eapply Rle_trans; [|exact L1]. unfold sin_approx, sin_term. cbn [sum_f_R0 Nat.mul Nat.add fact pow INR].
      clearbody t. assert (t * t <= 0.000273 * 0.000273)%R by (apply Rmult_le_compat; lra). assert (t * (t * t) <= 0.000273 * (0.000273 * 0.000273))%R by (apply Rmult_le_compat; nra). lra. }
    assert (EX : x = (6370997 * ((1 - al) + al * cos t))%R).
    { unfold x, corners, at_x. change (0 + 1) with 1. fold t. replace (0 / 64 * (PI / 180))%R with 0%R by field. rewrite Z0, cos_0. ring. }
    assert (EY : y = (6370997 * (al * sin t))%R).
    { unfold y, corners, at_y. change (0 + 1) with 1. fold t. replace (0 / 64 * (PI / 180))%R with 0%R by field. rewrite Z0, cos_0, sin_0. ring. }
    assert (Y1 : (1 <= al * sin t)%R) by (apply Rle_trans with (4700 * 0.00027)%R; [lra|apply Rmult_le_compat; lra]).
    assert (X1 : (al * cos t <= al * 1)%R) by (apply Rmult_le_compat_l; [lra|apply COS_bound]).
    assert (HY : (0 < y)%R) by lra. assert (XY : (x <= y)%R) by lra.
    destruct (C18_direction_partial (Some 1%R) (Some (8 / 10)%R) true x y (Some h)) as (lon & Bl' & D & _ & EL & _); [nra|lra|].
    exists lon. split; [|now apply (east_45 x y)].
    apply (f_equal fst) in Q. cbn [fst] in Q. change (0 * fine_len M5km_1km + 4) with 4 in Q. rewrite Q. exact EL.
Qed.
Print Assumptions C76_refuted.

(** a case for C76_reach_partial: the arrays of C75_case, pixel (4, 4) *)
Example C76_case : (forall a b : Z, 0 <= a < 2 -> 0 <= b -> b + 1 < 271 -> told_apart (1 + IZR b / 8) (1 + IZR (b + 1) / 8)) /\
  (0 <= scan_pos M5km_1km 4 - IZR (col_cell M5km_1km 271 4) <= 1 /\ 0 <= track_pos M5km_1km 4 - IZR (row_cell M5km_1km 4) <= 1)%R.
Proof.
  split; [apply C75_case|]. change (row_cell M5km_1km 4) with 0. change (col_cell M5km_1km 271 4) with 0.
  unfold scan_pos, track_pos, first_col. cbn [is_1km factor]. lra.
Qed.
