(** C125, C126: how far the scan-wise interpolators are from the true positions of the pixels. *)
From Coq Require Import ZArith List Lia Bool Reals Lra Arith.
From Verif Require Import Spec Base Num Geo GeoProofs Interp Legacy LegacyTie SimpleModis SimpleModisReal Modis Vii ViiProofs Cubic PropsCubic.
From Verif Require Import PropsGeo PropsVii PropsInterp PropsLegacy PropsSimple PropsLegacyRows PropsLegacyCubic PropsAccuracy PropsGround.
Import ListNotations.
Open Scope Z_scope.
Open Scope R_scope.

(** ** Specification *)
(** a field over one scan of n tie rows and w tie columns (positions in units of the tie-point distance), with bounded
    second derivatives along the tie rows and across them, up to the pixels outside the tie points *)
Definition scan_field (n w : Z) (F : R -> R -> R) (Ky Kx : R) : Prop :=
  (forall a, (0 <= a < n)%Z -> bounded_curvature (F (IZR a)) (- 1 / 2) (IZR w) Kx) /\
  (forall x, - 1 / 2 <= x <= IZR w -> bounded_curvature (fun y => F y x) (- 1 / 2) (IZR n - 1 / 2) Ky).
(** how far a position is outside the n tie points *)
Definition overhang (n : Z) (x : R) : R := Rmax 0 (Rmax (- x) (x - IZR (n - 1))).
(** second-order error there: 1/8 between the tie points *)
Definition order2 (n : Z) (x : R) : R := Rmax (1 / 8) (overhang n x * (1 + overhang n x) / 2).

(** ** Proof *)
Lemma overhang_in n x : 0 <= x <= IZR (n - 1) -> overhang n x = 0.
Proof. intros H. unfold overhang. rewrite Rmax_left; [reflexivity|]. apply Rmax_lub; lra. Qed.
Lemma order2_in n x : 0 <= x <= IZR (n - 1) -> order2 n x = 1 / 8.
Proof. intros H. unfold order2. rewrite overhang_in by exact H. rewrite Rmax_left; [reflexivity|]. lra. Qed.
Lemma overhang_pos n x : 0 <= overhang n x.
Proof. apply Rmax_l. Qed.
Lemma order2_le n x t : 0 <= t -> overhang n x <= t -> order2 n x <= Rmax (1 / 8) (t * (1 + t) / 2).
Proof. intros H0 H. apply Rle_max_compat_l. pose proof (overhang_pos n x). nra. Qed.

(** a straight line continued beyond its two points *)
Lemma curved_beyond f lo hi K a b x : bounded_curvature f lo hi K -> lo <= a -> a < b -> b <= hi -> lo <= x <= hi ->
  Rabs (f a + (x - a) * ((f b - f a) / (b - a)) - f x) <= Rabs ((x - a) * (x - b)) / 2 * K.
Proof.
  intros H Ha Hab Hb Hx. destruct (Rle_dec a x) as [A|A]; [destruct (Rle_dec x b) as [B|B]|].
  - pose proof (curved_line f lo hi K a b x H Ha Hab Hb (conj A B)) as C. unfold straight_line in C. rewrite Rabs_minus_sym.
    replace (f x - (f a + (x - a) * ((f b - f a) / (b - a)))) with (f x - (f a + (f b - f a) / (b - a) * (x - a))) by ring.
    rewrite (Rabs_left1 ((x - a) * (x - b))); [lra|]. nra.
  - pose proof (curved_line f lo hi K a x b H Ha ltac:(lra) ltac:(lra) ltac:(lra)) as C. unfold straight_line in C.
    replace (f a + (x - a) * ((f b - f a) / (b - a)) - f x) with ((f b - (f a + (f x - f a) / (x - a) * (b - a))) * ((x - a) / (b - a))) by (field; lra).
    assert (P : 0 <= (x - a) / (b - a)) by (apply Rle_mult_inv_pos; lra).
    rewrite Rabs_mult, (Rabs_pos_eq ((x - a) / (b - a))) by exact P. rewrite (Rabs_pos_eq ((x - a) * (x - b))) by nra.
    eapply Rle_trans; [apply Rmult_le_compat_r; [exact P|exact C]|]. right. field. lra.
  - pose proof (curved_line f lo hi K x b a H ltac:(lra) ltac:(lra) Hb ltac:(lra)) as C. unfold straight_line in C.
    replace (f a + (x - a) * ((f b - f a) / (b - a)) - f x) with ((f a - (f x + (f b - f x) / (b - x) * (a - x))) * ((b - x) / (b - a))) by (field; lra).
    assert (P : 0 <= (b - x) / (b - a)) by (apply Rle_mult_inv_pos; lra).
    rewrite Rabs_mult, (Rabs_pos_eq ((b - x) / (b - a))) by exact P. rewrite (Rabs_pos_eq ((x - a) * (x - b))) by nra.
    eapply Rle_trans; [apply Rmult_le_compat_r; [exact P|exact C]|]. right. field. lra.
Qed.

(** the cell that is used at a position *)
Lemma pwl_cell n x : (2 <= n)%Z -> exists c, (0 <= c <= n - 2)%Z /\ (forall v, pwl n v x = v c + (x - IZR c) * (v (c + 1)%Z - v c)) /\
  Rabs ((x - IZR c) * (x - IZR (c + 1))) <= 2 * order2 n x /\ Rabs (1 - (x - IZR c)) + Rabs (x - IZR c) <= 1 + 2 * overhang n x.
Proof.
  intros Hn. assert (E : IZR (n - 1) = IZR (n - 2) + 1) by (rewrite <- plus_IZR; f_equal; lia).
  assert (In01 : forall t, 0 <= t <= 1 -> Rabs (t * (t - 1)) <= 2 * (1 / 8) /\ Rabs (1 - t) + Rabs t <= 1).
  { intros t Ht. rewrite Rabs_left1, !Rabs_pos_eq by nra. split; [|lra]. pose proof (pow2_ge_0 (t - 1 / 2)). nra. }
  assert (M : forall t, t * (1 + t) <= 2 * Rmax (1 / 8) (t * (1 + t) / 2) /\ 2 * (1 / 8) <= 2 * Rmax (1 / 8) (t * (1 + t) / 2)).
  { intros t. pose proof (Rmax_l (1 / 8) (t * (1 + t) / 2)). pose proof (Rmax_r (1 / 8) (t * (1 + t) / 2)). lra. }
  destruct (Rlt_dec x 0) as [L|L]; [|destruct (Rlt_dec (IZR (n - 1)) x) as [G|G]].
  - exists 0%Z. split; [lia|]. split; [intros v; apply pwl_piece; [lia|left; reflexivity|right; lra]|].
    assert (O : overhang n x = - x). { unfold overhang. assert (0 <= IZR (n - 1)) by (apply (IZR_le 0); lia). rewrite (Rmax_left (- x)) by lra. apply Rmax_right. lra. }
    unfold order2. rewrite O. destruct (M (- x)) as [M1 _]. cbn [Z.add]. rewrite Rabs_pos_eq by nra. rewrite (Rabs_pos_eq (1 - _)) by lra. rewrite Rabs_left1 by lra. split; lra.
  - exists (n - 2)%Z. split; [lia|]. split; [intros v; apply pwl_piece; [lia|right; lra|left; reflexivity]|].
    assert (O : overhang n x = x - IZR (n - 1)). { unfold overhang. assert (0 <= IZR (n - 1)) by (apply (IZR_le 0); lia). rewrite (Rmax_right (- x)) by lra. apply Rmax_right. lra. }
    unfold order2. rewrite O. destruct (M (x - IZR (n - 1))) as [M1 _]. replace (n - 2 + 1)%Z with (n - 1)%Z by lia.
    replace (x - IZR (n - 2)) with (1 + (x - IZR (n - 1))) by lra. set (t := x - IZR (n - 1)) in *. assert (0 < t) by (unfold t; lra). clearbody t.
    rewrite Rabs_pos_eq by nra. rewrite Rabs_left1 by lra. rewrite Rabs_pos_eq by lra. split; lra.
  - assert (exists c, (0 <= c <= n - 2)%Z /\ 0 <= x - IZR c <= 1) as (c & Hc & Hx).
    { destruct (Req_dec x (IZR (n - 1))) as [->|N]; [exists (n - 2)%Z; split; [lia|rewrite E; lra]|]. exists (Rfloor x). pose proof (Rfloor_spec x) as [F1 F2].
      split; [|lra]. split.
      - assert (0 < IZR (Rfloor x) + 1) by lra. rewrite <- plus_IZR in H. apply (lt_IZR 0) in H. lia.
      - assert (IZR (Rfloor x) < IZR (n - 1)) by lra. apply lt_IZR in H. lia. }
    exists c. split; [exact Hc|]. split; [intros v; apply pwl_piece; [exact Hc|right; lra|right; lra]|].
    pose proof (overhang_pos n x) as P. unfold order2. destruct (M (overhang n x)) as [_ M2]. rewrite plus_IZR.
    destruct (In01 (x - IZR c) Hx) as [I1 I2]. replace (x - (IZR c + 1)) with (x - IZR c - 1) by ring. split; lra.
Qed.

Lemma pwl_curved n f lo hi K x : (2 <= n)%Z -> lo <= 0 -> IZR (n - 1) <= hi -> lo <= x <= hi -> bounded_curvature f lo hi K ->
  Rabs (pwl n (fun a => f (IZR a)) x - f x) <= order2 n x * K.
Proof.
  intros Hn Hlo Hhi Hx B. destruct (pwl_cell n x Hn) as (c & Hc & E & O & _). rewrite E.
  assert (C0 : 0 <= IZR c) by (apply (IZR_le 0); lia). assert (C1 : IZR (c + 1) <= IZR (n - 1)) by (apply IZR_le; lia).
  assert (HK : 0 <= K). { destruct B as (f1 & f2 & H). destruct (H x Hx) as (_ & _ & H2). pose proof (Rabs_pos (f2 x)). lra. }
  pose proof (curved_beyond f lo hi K (IZR c) (IZR (c + 1)) x B ltac:(lra) ltac:(rewrite plus_IZR; lra) ltac:(lra) Hx) as L.
  replace (IZR (c + 1) - IZR c) with 1 in L by (rewrite plus_IZR; ring). replace ((f (IZR (c + 1)) - f (IZR c)) / 1) with (f (IZR (c + 1)) - f (IZR c)) in L by field.
  eapply Rle_trans; [exact L|]. apply Rmult_le_compat_r; [exact HK|lra].
Qed.
Lemma pwl_bounded n v e x : (2 <= n)%Z -> (forall a, (0 <= a < n)%Z -> Rabs (v a) <= e) -> Rabs (pwl n v x) <= (1 + 2 * overhang n x) * e.
Proof.
  intros Hn H. destruct (pwl_cell n x Hn) as (c & Hc & E & _ & W). rewrite E.
  replace (v c + (x - IZR c) * (v (c + 1)%Z - v c)) with ((1 - (x - IZR c)) * v c + (x - IZR c) * v (c + 1)%Z) by ring.
  eapply Rle_trans; [apply Rabs_triang|]. rewrite !Rabs_mult.
  assert (E0 : 0 <= e) by (eapply Rle_trans; [apply Rabs_pos|apply (H c); lia]).
  apply Rle_trans with ((Rabs (1 - (x - IZR c)) + Rabs (x - IZR c)) * e); [|apply Rmult_le_compat_r; assumption].
  rewrite Rmult_plus_distr_r. apply Rplus_le_compat; apply Rmult_le_compat_l; try apply Rabs_pos; apply H; lia.
Qed.

(** the bilinear interpolation of C56, C70 and C102 against the field *)
Theorem C125_bilinear : forall n w v F Ky Kx y x, (2 <= n)%Z -> (2 <= w)%Z -> scan_field n w F Ky Kx ->
  (forall a c, (0 <= a < n)%Z -> (0 <= c < w)%Z -> v a c = F (IZR a) (IZR c)) ->
  - 1 / 2 <= y <= IZR n - 1 / 2 -> - 1 / 2 <= x <= IZR w ->
  Rabs (PropsSimple.bilinear n w v y x - F y x) <= order2 n y * Ky + (1 + 2 * overhang n y) * (order2 w x * Kx).
Proof.
  intros n w v F Ky Kx y x Hn Hw [Cx Cy] Hv Hy Hx.
  assert (W1 : IZR (w - 1) <= IZR w) by (apply IZR_le; lia). assert (N1 : IZR (n - 1) <= IZR n - 1 / 2) by (rewrite minus_IZR; lra).
  assert (B1 : Rabs (pwl n (fun a => pwl w (v a) x + -1 * F (IZR a) x) y) <= (1 + 2 * overhang n y) * (order2 w x * Kx)).
  { apply pwl_bounded; [exact Hn|]. intros a Ha. rewrite (pwl_ext w (v a) (fun c => F (IZR a) (IZR c))) by (auto; lia).
    replace (pwl w (fun c => F (IZR a) (IZR c)) x + -1 * F (IZR a) x) with (pwl w (fun c => F (IZR a) (IZR c)) x - F (IZR a) x) by ring.
    apply (pwl_curved w (F (IZR a)) (- 1 / 2) (IZR w)); auto; lra. }
  assert (B2 : Rabs (pwl n (fun a => F (IZR a) x) y - F y x) <= order2 n y * Ky).
  { apply (pwl_curved n (fun y => F y x) (- 1 / 2) (IZR n - 1 / 2)); auto; lra. }
  rewrite (pwl_lin n (fun a => pwl w (v a) x) (fun a => F (IZR a) x) (-1)) in B1. unfold PropsSimple.bilinear.
  apply Rabs_le_inv in B1, B2. apply Rabs_le. lra.
Qed.
Print Assumptions C125_bilinear.

(** the error factors of the simple MODIS functions and of the legacy ones; 1/8 between the tie points *)
Lemma C125_constants :
  (forall k r, (0 <= r < fac2 k * 10)%Z -> - 1 / 2 <= row_pos k r <= 19 / 2 /\ overhang 10 (row_pos k r) <= 3 / 8 /\ order2 10 (row_pos k r) <= 33 / 128) /\
  (forall k w i, (2 <= w)%Z -> (0 <= i < fac2 k * w)%Z -> 0 <= col_pos k i <= IZR w /\ order2 w (col_pos k i) <= 21 / 32) /\
  (forall f j, (j < zoom f * tie_rows f)%nat -> - 1 / 2 <= y_of f j <= INR (tie_rows f) - 1 / 2 /\ overhang (Z.of_nat (tie_rows f)) (y_of f j) <= 2 / 5 /\ order2 (Z.of_nat (tie_rows f)) (y_of f j) <= 7 / 25) /\
  (forall f J, (J < fine_cols f)%nat -> - 1 / 2 <= x_of f J <= INR (tie_cols f) /\ order2 (Z.of_nat (tie_cols f)) (x_of f J) <= 21 / 32).
Proof.
  assert (O2 : forall n x t q, 0 <= t -> overhang n x <= t -> 1 / 8 <= q -> t * (1 + t) / 2 <= q -> order2 n x <= q).
  { intros n x t q H0 H1 H2 H3. eapply Rle_trans; [apply (order2_le n x t H0 H1)|]. apply Rmax_lub; lra. }
  assert (OV : forall n x t, 0 <= t -> - t <= x -> x <= IZR (n - 1) + t -> overhang n x <= t).
  { intros n x t H0 H1 H2. unfold overhang. apply Rmax_lub; [exact H0|]. apply Rmax_lub; lra. }
  split; [|split; [|split]].
  - intros k r Hr. assert (A : 0 <= IZR r <= IZR (fac2 k * 10 - 1)) by (split; [apply (IZR_le 0)|apply IZR_le]; lia).
    assert (B : - 3 / 8 <= row_pos k r <= 9 + 3 / 8) by (unfold row_pos; destruct k; cbn in A; lra).
    assert (V : overhang 10 (row_pos k r) <= 3 / 8) by (apply OV; cbn; lra). split; [lra|]. split; [exact V|]. apply (O2 _ _ (3 / 8)); lra.
  - intros k w i Hw Hi. assert (A : 0 <= IZR i <= IZR (fac2 k * w - 1)) by (split; [apply (IZR_le 0)|apply IZR_le]; lia). rewrite minus_IZR, mult_IZR in A.
    assert (B : 0 <= col_pos k i <= IZR (w - 1) + 3 / 4) by (rewrite minus_IZR; unfold col_pos; destruct k; cbn [fac2] in *; lra).
    split; [rewrite minus_IZR in B; lra|]. apply (O2 _ _ (3 / 4)); try lra. apply OV; lra.
  - intros f j Hj. assert (A : 0 <= INR j <= INR (zoom f * tie_rows f - 1)) by (split; [apply pos_INR|apply le_INR; lia]).
    assert (B : - 2 / 5 <= y_of f j <= INR (tie_rows f) - 1 + 2 / 5) by (unfold y_of; destruct f; cbn [zoom tie_rows Nat.mul Nat.sub Nat.add INR] in *; lra).
    assert (V : overhang (Z.of_nat (tie_rows f)) (y_of f j) <= 2 / 5) by (apply OV; rewrite ?minus_IZR, <- ?INR_IZR_INZ; lra). split; [lra|]. split; [exact V|]. apply (O2 _ _ (2 / 5)); lra.
  - intros f J HJ. assert (A : 0 <= INR J <= INR (fine_cols f - 1)) by (split; [apply pos_INR|apply le_INR; lia]).
    assert (B : - 3 / 4 <= x_of f J <= INR (tie_cols f) - 1 + 3 / 4 /\ - 1 / 2 <= x_of f J).
    { unfold x_of. rewrite !INR_IZR_INZ in *. destruct f; cbn [zoom tie_col0 tie_cols fine_cols] in *.
      - replace (Z.of_nat (1354 - 1)) with 1353%Z in A by (now vm_compute). replace (Z.of_nat 271) with 271%Z by reflexivity. cbn [Z.of_nat Pos.of_succ_nat Pos.succ] in *. lra.
      - replace (Z.of_nat (2708 - 1)) with 2707%Z in A by (now vm_compute). replace (Z.of_nat 1354) with 1354%Z by (now vm_compute). cbn [Z.of_nat Pos.of_succ_nat Pos.succ] in *. lra.
      - replace (Z.of_nat (4 * 1354 - 1)) with 5415%Z in A by (now vm_compute). replace (Z.of_nat 1354) with 1354%Z by (now vm_compute). cbn [Z.of_nat Pos.of_succ_nat Pos.succ] in *. lra. }
    split; [lra|]. apply (O2 _ _ (3 / 4)); try lra. apply OV; rewrite ?minus_IZR, <- ?INR_IZR_INZ; lra.
Qed.
Print Assumptions C125_constants.

(** ** C126: on the ground *)
(** the true positions of one scan: on the sphere of radius r, with bounded second derivatives; the tie points are exact *)
Definition true_scan (r : R) (n w : Z) (lon lat : Z -> Z -> R) (Fx Fy Fz : R -> R -> R) (Ky Kx : R) : Prop :=
  scan_field n w Fx Ky Kx /\ scan_field n w Fy Ky Kx /\ scan_field n w Fz Ky Kx /\
  (forall y x, - 1 / 2 <= y <= IZR n - 1 / 2 -> - 1 / 2 <= x <= IZR w -> on_sphere r (Fx y x, Fy y x, Fz y x)) /\
  (forall a c, (0 <= a < n)%Z -> (0 <= c < w)%Z ->
     let y := IZR a in let x := IZR c in ground r (lon a c) (lat a c) = (Fx y x, Fy y x, Fz y x)).
Definition bilinear_error (n w : Z) (Ky Kx y x : R) : R := order2 n y * Ky + (1 + 2 * overhang n y) * (order2 w x * Kx).

Lemma ground_of r x y z X Y Z e : 0 < r -> on_sphere r (X, Y, Z) -> Rabs (x - X) <= e -> Rabs (y - Y) <= e -> Rabs (z - Z) <= e -> e <= r / 175 -> e < Rabs Y \/ e < X ->
  exists lon lat, @xyz2lonlat_at _ RN (Some r) (Some (8 / 10)) true (Some x, Some y, Some z) = (Some lon, Some lat) /\ distance (ground r lon lat) (X, Y, Z) <= 7 * e.
Proof.
  intros Hr HP Hx Hy Hz He Hd. assert (E0 : 0 <= e) by (eapply Rle_trans; [apply Rabs_pos|exact Hx]).
  assert (D : distance (x, y, z) (X, Y, Z) <= 7 / 4 * e).
  { unfold distance. rewrite <- (sqrt_square (7 / 4 * e)) by lra. apply sqrt_le_1_alt.
    assert (Q : forall a, Rabs a <= e -> a ^ 2 <= e ^ 2) by (intros a Ha; rewrite <- !Rsqr_pow2; apply Rsqr_le_abs_1; rewrite (Rabs_pos_eq e) by lra; exact Ha).
    pose proof (Q _ Hx). pose proof (Q _ Hy). pose proof (Q _ Hz). pose proof (pow2_ge_0 e). lra. }
  destruct (C112_ground r x y z (X, Y, Z) (7 / 4 * e)) as (lon & lat & E & B); [exact Hr|exact HP|exact D|lra| |].
  - apply Rabs_le_inv in Hx, Hy. destruct Hd as [Hd|Hd]; [left|right; lra]. intros ->. unfold Rabs in Hd. destruct (Rcase_abs Y); lra.
  - exists lon, lat. split; [exact E|lra].
Qed.
Lemma ground_coordinates lon lat X Y Z : ground 6370997 lon lat = (X, Y, Z) -> at_x lon lat = X /\ at_y lon lat = Y /\ at_z lon lat = Z.
Proof. intros G. apply pair_inj in G. destruct G as [G G3]. apply pair_inj in G. destruct G as [G1 G2]. auto. Qed.

(** modis_1km_to_500m and modis_1km_to_250m of simple_modis_interpolator.py *)
Theorem C126_simple : forall k g dt n w (lon lat olon olat : ndarray (option R)) (lo la : Z -> Z -> R) s Fx Fy Fz Ky Kx,
  dt <> OtherDtype -> (2 <= w)%Z -> shaped2 dt n w lon lat ->
  (forall a b, (0 <= a < n)%Z -> (0 <= b < w)%Z -> aat lon a b = Some (lo a b) /\ aat lat a b = Some (la a b)) ->
  @simple _ RN k g lon lat = Ok (olon, olat) -> (0 <= s)%Z -> ((s + 1) * 10 <= n)%Z ->
  true_scan 6370997 10 w (fun a => lo (s * 10 + a)%Z) (fun a => la (s * 10 + a)%Z) Fx Fy Fz Ky Kx ->
  forall r i, (0 <= r < fac2 k * 10)%Z -> (0 <= i < fac2 k * w)%Z -> let y := row_pos k r in let x := col_pos k i in
    let e := bilinear_error 10 w Ky Kx y x in e <= 6370997 / 175 -> e < Rabs (Fy y x) \/ e < Fx y x ->
    exists l p, aat olon (s * (fac2 k * 10) + r)%Z i = Some l /\ aat olat (s * (fac2 k * 10) + r)%Z i = Some p /\
      distance (ground 6370997 l p) (Fx y x, Fy y x, Fz y x) <= 7 * e.
Proof.
  intros k g dt n w lon lat olon olat lo la s Fx Fy Fz Ky Kx Hdt Hw S F O Hs Hsn (Sx & Sy & Sz & Sp & Tie) r i Hr Hi y x e He Hd.
  pose proof (C56_bilinear k g dt n w lon lat olon olat lo la Hdt Hw S F O s r i Hs Hsn Hr Hi) as P. cbv zeta in P. fold y x in P.
  destruct (proj1 C125_constants k r Hr) as (Ry & _). fold y in Ry. destruct (proj1 (proj2 C125_constants) k w i Hw Hi) as (Rx & _). fold x in Rx.
  assert (B : forall coordinate G, scan_field 10 w G Ky Kx ->
     (forall a c, (0 <= a < 10)%Z -> (0 <= c < w)%Z -> coordinate (lo (s * 10 + a)%Z c) (la (s * 10 + a)%Z c) = G (IZR a) (IZR c)) ->
     Rabs (bilinear 10 w (fun a b => coordinate (lo (s * 10 + a)%Z b) (la (s * 10 + a)%Z b)) y x - G y x) <= e).
  { intros coordinate G SG T. unfold e, bilinear_error. apply C125_bilinear; auto; try lia; lra. }
  assert (T : forall a c, (0 <= a < 10)%Z -> (0 <= c < w)%Z -> at_x (lo (s * 10 + a)%Z c) (la (s * 10 + a)%Z c) = Fx (IZR a) (IZR c) /\
     at_y (lo (s * 10 + a)%Z c) (la (s * 10 + a)%Z c) = Fy (IZR a) (IZR c) /\ at_z (lo (s * 10 + a)%Z c) (la (s * 10 + a)%Z c) = Fz (IZR a) (IZR c)).
  { intros a c Ha Hc. apply ground_coordinates. exact (Tie a c Ha Hc). }
  destruct (ground_of 6370997 (bilinear 10 w (fun a b => at_x (lo (s * 10 + a)%Z b) (la (s * 10 + a)%Z b)) y x)
    (bilinear 10 w (fun a b => at_y (lo (s * 10 + a)%Z b) (la (s * 10 + a)%Z b)) y x)
    (bilinear 10 w (fun a b => at_z (lo (s * 10 + a)%Z b) (la (s * 10 + a)%Z b)) y x) (Fx y x) (Fy y x) (Fz y x) e) as (l & p & E & D); auto.
  - lra.
  - apply Sp; lra.
  - apply B; [exact Sx|]. intros a c Ha Hc. now apply T.
  - apply B; [exact Sy|]. intros a c Ha Hc. now apply T.
  - apply B; [exact Sz|]. intros a c Ha Hc. now apply T.
  - exists l, p. rewrite C20_cython_partial in P. unfold EARTH_RADIUS in P. cbn [nz RN] in P. rewrite E in P. apply pair_inj in P. destruct P as [-> ->]. auto.
Qed.
Print Assumptions C126_simple.

(** modis5kmto1km, modis1kmto500m and modis1kmto250m *)
Section Legacy.
Local Existing Instance RT.
Variables (f : legacy_fn) (lons lats : mat R) (q j J : nat) (s : (R -> R -> R) -> Z -> R -> R).
Notation n := (Z.of_nat (tie_rows f)).
Notation w := (Z.of_nat (tie_cols f)).
Hypothesis (Hj : (j < zoom f * tie_rows f)%nat) (HJ : (J < fine_cols f)%nat).
Hypothesis Hs : forall coordinate a, (0 <= a < n)%Z -> row_spline f (PropsLegacyCubic.tie_values f lons lats q coordinate a) (s coordinate a).
Let position coordinate := pwl n (fun a => s coordinate a (column_position f J)) (y_of f j).

Lemma legacy_field coordinate G Ky Kx : scan_field n w G Ky Kx ->
  (forall a c, (0 <= a < n)%Z -> (0 <= c < w)%Z -> PropsLegacyCubic.tie_values f lons lats q coordinate a c = G (IZR a) (IZR c)) ->
  Rabs (position coordinate - G (y_of f j) (x_of f J)) <= bilinear_error n w Ky Kx (y_of f j) (x_of f J) + 9 / 5 * (9 / 8 * Kx) /\
  (between_tie_rows f j -> inner_column f J -> Rabs (position coordinate - G (y_of f j) (x_of f J)) <= (Ky + 4 * Kx) / 8).
Proof.
  intros SG T. assert (N2 : (2 <= n)%Z) by (destruct f; cbn; lia). assert (W2 : (3 <= w)%Z) by (destruct f; vm_compute; discriminate).
  assert (HK : 0 <= Kx). { destruct SG as [G1 _]. destruct (G1 0%Z ltac:(lia)) as (f1 & f2 & H). destruct (H 0) as (_ & _ & B); [split; [lra|apply (IZR_le 0); lia]|]. pose proof (Rabs_pos (f2 0)). lra. }
  assert (Bd : forall a, (0 <= a < n)%Z -> bends f (PropsLegacyCubic.tie_values f lons lats q coordinate a) Kx).
  { intros a Ha c Hc. rewrite !T by lia. destruct SG as [G1 _]. specialize (G1 a Ha).
    pose proof (curved_beyond (G (IZR a)) (- 1 / 2) (IZR w) Kx (IZR c) (IZR (c + 1)) (IZR (c + 2)) G1) as L.
    assert (0 <= IZR c) by (apply (IZR_le 0); lia). assert (IZR (c + 2) <= IZR w) by (apply IZR_le; lia). rewrite !plus_IZR in *.
    specialize (L ltac:(lra) ltac:(lra) ltac:(lra) ltac:(lra)). replace (IZR c + 1 - IZR c) with 1 in L by ring.
    replace ((IZR c + 2 - IZR c) * (IZR c + 2 - (IZR c + 1))) with 2 in L by ring. rewrite (Rabs_pos_eq 2) in L by lra.
    rewrite Rabs_minus_sym in L. replace (G (IZR a) (IZR c + 2) - (G (IZR a) (IZR c) + (IZR c + 2 - IZR c) * ((G (IZR a) (IZR c + 1) - G (IZR a) (IZR c)) / 1)))
      with (G (IZR a) (IZR c + 2) - 2 * G (IZR a) (IZR c + 1) + G (IZR a) (IZR c)) in L by field. lra. }
  destruct (C102_near f lons lats q j J (s coordinate) coordinate Kx Hj HJ HK (Hs coordinate) Bd) as (E1 & _ & _ & E2). fold (position coordinate) in E1, E2.
  destruct (proj1 (proj2 (proj2 C125_constants)) f j Hj) as (Ry & _). destruct (proj2 (proj2 (proj2 C125_constants)) f J HJ) as (Rx & _).
  rewrite INR_IZR_INZ in Ry, Rx.
  pose proof (C125_bilinear n w (PropsLegacyCubic.tie_values f lons lats q coordinate) G Ky Kx (y_of f j) (x_of f J) N2 ltac:(lia) SG T Ry Rx) as B.
  split.
  - unfold bilinear_error. apply Rabs_le_inv in E1, B. apply Rabs_le. lra.
  - intros H1 H2. specialize (E2 H1 H2). unfold between_tie_rows, inner_column in H1, H2. rewrite INR_IZR_INZ in H1, H2.
    rewrite (order2_in n), (order2_in w), (overhang_in n) in B by (rewrite minus_IZR; lra). apply Rabs_le_inv in E2, B. apply Rabs_le. lra.
Qed.
End Legacy.

Theorem C126_legacy : forall f spl1 other K lons lats lo la q Fx Fy Fz Ky Kx,
  shaped (K * tie_rows f) (tie_cols f) lons -> shaped (K * tie_rows f) (tie_cols f) lats ->
  legacy f spl1 (@spl2_with _ RT other) lons lats = Ok (lo, la) -> (q < K)%nat ->
  true_scan 6370997 (Z.of_nat (tie_rows f)) (Z.of_nat (tie_cols f)) (fun a c => at2 0 lons (q * tie_rows f + Z.to_nat a) (Z.to_nat c))
    (fun a c => at2 0 lats (q * tie_rows f + Z.to_nat a) (Z.to_nat c)) Fx Fy Fz Ky Kx ->
  forall j J e, (j < zoom f * tie_rows f)%nat -> (J < fine_cols f)%nat -> let y := y_of f j in let x := x_of f J in
    e = bilinear_error (Z.of_nat (tie_rows f)) (Z.of_nat (tie_cols f)) Ky Kx y x + 81 / 40 * Kx \/
    (between_tie_rows f j /\ inner_column f J /\ e = (Ky + 4 * Kx) / 8) ->
    e <= 6370997 / 175 -> e < Rabs (Fy y x) \/ e < Fx y x ->
    exists l p, at2 None lo (q * (zoom f * tie_rows f) + j) J = Some l /\ at2 None la (q * (zoom f * tie_rows f) + j) J = Some p /\
      distance (ground 6370997 l p) (Fx y x, Fy y x, Fz y x) <= 7 * e.
Proof.
  intros f spl1 other K lons lats lo la q Fx Fy Fz Ky Kx S1 S2 Hrun Hq (Sx & Sy & Sz & Sp & Tie) j J e Hj HJ y x He He2 Hd.
  set (s := fun coordinate a => @cubic_splev _ RT (knots f) (line_data f (PropsLegacyCubic.tie_values f lons lats q coordinate a))).
  assert (Hs : forall coordinate a, (0 <= a < Z.of_nat (tie_rows f))%Z -> row_spline f (PropsLegacyCubic.tie_values f lons lats q coordinate a) (s coordinate a)).
  { intros coordinate a _. destruct (layout_of f) as (g & m & W & L & delta & dc & o & Y).
    destruct (C99_spline (knots f) (line_data f (PropsLegacyCubic.tie_values f lons lats q coordinate a)) (knots_inc _ _ _ _ _ _ _ _ Y) (knots_length _ _ _ _ _ _ _ _ Y)) as (A & B & _). split; [exact A|exact B]. }
  pose proof (C102_pixel f spl1 other K lons lats lo la q j J s S1 S2 Hrun Hq Hj HJ Hs) as P. cbv zeta in P.
  set (position := fun coordinate => pwl (Z.of_nat (tie_rows f)) (fun a => s coordinate a (column_position f J)) (y_of f j)) in P.
  assert (B : forall coordinate G, scan_field (Z.of_nat (tie_rows f)) (Z.of_nat (tie_cols f)) G Ky Kx ->
     (forall a c, (0 <= a < Z.of_nat (tie_rows f))%Z -> (0 <= c < Z.of_nat (tie_cols f))%Z -> PropsLegacyCubic.tie_values f lons lats q coordinate a c = G (IZR a) (IZR c)) ->
     Rabs (position coordinate - G y x) <= e).
  { intros coordinate G SG T. destruct (legacy_field f lons lats q j J s Hj HJ Hs coordinate G Ky Kx SG T) as [B1 B2]. fold (position coordinate) y x in B1, B2.
    destruct He as [->|(C1 & C2 & ->)]; [lra|exact (B2 C1 C2)]. }
  assert (T : forall a c, (0 <= a < Z.of_nat (tie_rows f))%Z -> (0 <= c < Z.of_nat (tie_cols f))%Z ->
     PropsLegacyCubic.tie_values f lons lats q at_x a c = Fx (IZR a) (IZR c) /\ PropsLegacyCubic.tie_values f lons lats q at_y a c = Fy (IZR a) (IZR c) /\ PropsLegacyCubic.tie_values f lons lats q at_z a c = Fz (IZR a) (IZR c)).
  { intros a c Ha Hc. apply ground_coordinates. exact (Tie a c Ha Hc). }
  destruct (proj1 (proj2 (proj2 C125_constants)) f j Hj) as (Ry & _). destruct (proj2 (proj2 (proj2 C125_constants)) f J HJ) as (Rx & _).
  rewrite INR_IZR_INZ in Ry, Rx. fold y in Ry. fold x in Rx.
  destruct (ground_of 6370997 (position at_x) (position at_y) (position at_z) (Fx y x) (Fy y x) (Fz y x) e) as (l & p & E & D); auto.
  - lra.
  - apply B; [exact Sx|]. intros a c Ha Hc. now apply T.
  - apply B; [exact Sy|]. intros a c Ha Hc. now apply T.
  - apply B; [exact Sz|]. intros a c Ha Hc. now apply T.
  - exists l, p. unfold xyz2lonlat, EARTH_RADIUS in P. cbn [nz RN ndiv] in P. rewrite RNdiv_some in P by lra.
    fold (position at_x) (position at_y) (position at_z) in P. rewrite E in P. apply pair_inj in P. destruct P as [-> ->]. auto.
Qed.
Print Assumptions C126_legacy.

(** viiinterpolator: every pixel is between tie points (C33) *)
Definition vii_y (f r a : nat) : R := INR r + INR a / INR f.
Lemma vii_scan nan datas s f n_scans data out v j r a c b :
  produced nan datas s f n_scans data out -> finite_da data v ->
  (j < n_scans)%nat -> (r < s - 1)%nat -> (a < f)%nat -> (c < ncols data - 1)%nat -> (b < f)%nat ->
  at_ out (j * (s - 1) * f + r * f + a)%nat (c * f + b)%nat =
  Some (PropsSimple.bilinear (Z.of_nat s) (Z.of_nat (ncols data)) (fun i k => v (j * s + Z.to_nat i)%nat (Z.to_nat k)) (vii_y f r a) (vii_y f c b)).
Proof.
  intros P F Hj Hr Ha Hc Hb. rewrite (C37_bilinear nan datas s f n_scans data out v j r a c b P F Hj Hr Ha Hc Hb). cbv zeta. f_equal.
  assert (F0 : forall m, (m < f)%nat -> 0 <= INR m / INR f < 1).
  { intros m Hm. apply lt_INR in Hm as Hm'. assert (0 < INR f) by (apply lt_0_INR; lia). split; [apply Rle_mult_inv_pos; [apply pos_INR|lra]|].
    apply (Rmult_lt_reg_r (INR f)); [lra|]. unfold Rdiv. rewrite Rmult_assoc, Rinv_l by lra. lra. }
  pose proof (F0 a Ha) as Fa. pose proof (F0 b Hb) as Fb. unfold PropsSimple.bilinear, vii_y.
  set (t := INR a / INR f) in *. set (u := INR b / INR f) in *. clearbody t u.
  assert (Pc : forall g : Z -> R, pwl (Z.of_nat (ncols data)) g (INR c + u) = g (Z.of_nat c) + u * (g (Z.of_nat c + 1)%Z - g (Z.of_nat c))).
  { intros g. rewrite (pwl_piece _ g _ (Z.of_nat c)); [|lia|right; rewrite <- INR_IZR_INZ; lra|right; rewrite <- INR_IZR_INZ; lra]. rewrite <- INR_IZR_INZ. ring. }
  rewrite (pwl_piece _ _ _ (Z.of_nat r)); [|lia|right; rewrite <- INR_IZR_INZ; lra|right; rewrite <- INR_IZR_INZ; lra].
  rewrite !Pc, <- INR_IZR_INZ. replace (Z.to_nat (Z.of_nat r + 1)) with (r + 1)%nat by lia. replace (Z.to_nat (Z.of_nat c + 1)) with (c + 1)%nat by lia. rewrite !Nat2Z.id.
  rewrite Nat.add_assoc. ring.
Qed.
Lemma vii_range f n r a : (a < f)%nat -> (r < n - 1)%nat -> 0 <= vii_y f r a <= IZR (Z.of_nat n - 1).
Proof.
  intros Ha Hr. assert (F0 : 0 <= INR a / INR f <= 1).
  { apply lt_INR in Ha as Ha'. assert (0 < INR f) by (apply lt_0_INR; lia). split; [apply Rle_mult_inv_pos; [apply pos_INR|lra]|].
    apply (Rmult_le_reg_r (INR f)); [lra|]. unfold Rdiv. rewrite Rmult_assoc, Rinv_l by lra. lra. }
  unfold vii_y. pose proof (pos_INR r). assert (INR (S r) <= INR (n - 1)) by (apply le_INR; lia). rewrite S_INR in *.
  replace (Z.of_nat n - 1)%Z with (Z.of_nat (n - 1)) by lia. rewrite <- INR_IZR_INZ. lra.
Qed.

Lemma vii_near nan datas s f n_scans data out v G Ky Kx j r a c b :
  produced nan datas s f n_scans data out -> finite_da data v ->
  (j < n_scans)%nat -> (r < s - 1)%nat -> (a < f)%nat -> (c < ncols data - 1)%nat -> (b < f)%nat ->
  scan_field (Z.of_nat s) (Z.of_nat (ncols data)) G Ky Kx ->
  (forall i k, (0 <= i < Z.of_nat s)%Z -> (0 <= k < Z.of_nat (ncols data))%Z -> v (j * s + Z.to_nat i)%nat (Z.to_nat k) = G (IZR i) (IZR k)) ->
  exists p, at_ out (j * (s - 1) * f + r * f + a)%nat (c * f + b)%nat = Some p /\ Rabs (p - G (vii_y f r a) (vii_y f c b)) <= (Ky + Kx) / 8.
Proof.
  intros P F Hj Hr Ha Hc Hb SG T. rewrite (vii_scan nan datas s f n_scans data out v) by assumption. eexists. split; [reflexivity|].
  pose proof (vii_range f s r a Ha Hr) as Ry. pose proof (vii_range f (ncols data) c b Hb Hc) as Rx.
  pose proof Ry as Ry'. pose proof Rx as Rx'. rewrite minus_IZR in Ry', Rx'.
  pose proof (C125_bilinear (Z.of_nat s) (Z.of_nat (ncols data)) (fun i k => v (j * s + Z.to_nat i)%nat (Z.to_nat k)) G Ky Kx (vii_y f r a) (vii_y f c b)
    ltac:(lia) ltac:(lia) SG T ltac:(lra) ltac:(lra)) as B.
  rewrite (order2_in _ _ Ry), (order2_in _ _ Rx), (overhang_in _ _ Ry) in B. eapply Rle_trans; [exact B|]. lra.
Qed.

(** longitudes and latitudes interpolated directly *)
Theorem C126_vii_direct : forall nan lon lat vlon vlat s f n_scans thr zt,
  finite_da lon vlon -> finite_da lat vlat -> args_ok [lon; lat] s f n_scans -> safe_lonlat lon vlon vlat thr ->
  exists olon olat, @tie_points_geo_interpolation _ RN nan lon lat s f (Some thr) zt = Ok (olon, olat) /\
    forall j G H Ky Kx, (j < n_scans)%nat ->
      scan_field (Z.of_nat s) (Z.of_nat (ncols lon)) G Ky Kx -> scan_field (Z.of_nat s) (Z.of_nat (ncols lon)) H Ky Kx ->
      (forall i k, (0 <= i < Z.of_nat s)%Z -> (0 <= k < Z.of_nat (ncols lon))%Z ->
         vlon (j * s + Z.to_nat i)%nat (Z.to_nat k) = G (IZR i) (IZR k) /\ vlat (j * s + Z.to_nat i)%nat (Z.to_nat k) = H (IZR i) (IZR k)) ->
      forall r a c b, (r < s - 1)%nat -> (a < f)%nat -> (c < ncols lon - 1)%nat -> (b < f)%nat ->
        exists l p, at_ olon (j * (s - 1) * f + r * f + a)%nat (c * f + b)%nat = Some l /\ at_ olat (j * (s - 1) * f + r * f + a)%nat (c * f + b)%nat = Some p /\
          Rabs (l - G (vii_y f r a) (vii_y f c b)) <= (Ky + Kx) / 8 /\ Rabs (p - H (vii_y f r a) (vii_y f c b)) <= (Ky + Kx) / 8.
Proof.
  intros nan lon lat vlon vlat s f n_scans thr zt F1 F2 Ha Hs.
  destruct (C39_geodetic_when_safe nan lon lat vlon vlat s f n_scans thr zt F1 F2 Ha Hs) as (olon & olat & E & P1 & P2 & _).
  exists olon, olat. split; [exact E|]. intros j G H Ky Kx Hj SG SH T r a c b Hr Hfa Hc Hfb.
  assert (NC : ncols lat = ncols lon).
  { destruct Ha as (first & rest & E1 & _ & _ & _ & _ & _ & Fa). injection E1 as <- <-. inversion Fa as [|? ? _ Fb]. inversion Fb as [|? ? [S1 _] _]. now apply shape_eqb_eq in S1. }
  destruct (vii_near nan _ s f n_scans lon olon vlon G Ky Kx j r a c b P1 F1 Hj Hr Hfa Hc Hfb SG) as (l & L1 & L2); [intros i k Hi Hk; now apply T|].
  destruct (vii_near nan _ s f n_scans lat olat vlat H Ky Kx j r a c b P2 F2 Hj Hr Hfa ltac:(rewrite NC; exact Hc) Hfb ltac:(rewrite NC; exact SH)) as (p & B1 & B2); [intros i k Hi Hk; apply T; [exact Hi|rewrite <- NC; exact Hk]|].
  exists l, p. auto.
Qed.
Print Assumptions C126_vii_direct.

(** by way of cartesian coordinates, with the default threshold 0.8 for z *)
Definition mean_earth : R := 63710087714 / 10000.
Theorem C126_vii : forall nan lon lat vlon vlat s f n_scans thr,
  finite_da lon vlon -> finite_da lat vlat -> args_ok [lon; lat] s f n_scans -> ~ safe_lonlat lon vlon vlat thr ->
  exists olon olat, @tie_points_geo_interpolation _ RN nan lon lat s f (Some thr) (Some (8 / 10)) = Ok (olon, olat) /\
    forall j Fx Fy Fz Ky Kx, (j < n_scans)%nat ->
      true_scan mean_earth (Z.of_nat s) (Z.of_nat (ncols lon)) (fun i k => vlon (j * s + Z.to_nat i)%nat (Z.to_nat k)) (fun i k => vlat (j * s + Z.to_nat i)%nat (Z.to_nat k)) Fx Fy Fz Ky Kx ->
      forall r a c b, (r < s - 1)%nat -> (a < f)%nat -> (c < ncols lon - 1)%nat -> (b < f)%nat ->
        let y := vii_y f r a in let x := vii_y f c b in let e := (Ky + Kx) / 8 in e <= mean_earth / 175 -> e < Rabs (Fy y x) \/ e < Fx y x ->
        exists l p, at_ olon (j * (s - 1) * f + r * f + a)%nat (c * f + b)%nat = Some l /\ at_ olat (j * (s - 1) * f + r * f + a)%nat (c * f + b)%nat = Some p /\
          distance (ground mean_earth l p) (Fx y x, Fy y x, Fz y x) <= 7 * e.
Proof.
  intros nan lon lat vlon vlat s f n_scans thr F1 F2 Ha Hs.
  destruct (C39_cartesian_when_unsafe nan lon lat vlon vlat s f n_scans thr (Some (8 / 10)) F1 F2 Ha Hs)
    as (x & y & z & ox & oy & oz & olon & olat & Exyz & X1 & X2 & Y1 & Y2 & Z1 & Z2 & Px & Py & Pz & E & _ & _ & O).
  exists olon, olat. split; [exact E|]. intros j Fx Fy Fz Ky Kx Hj (Sx & Sy & Sz & Sp & Tie) r a c b Hr Hfa Hc Hfb u v e He Hd.
  assert (HN : nrows lon = (n_scans * s)%nat) by (destruct Ha as (first & rest & E1 & _ & _ & _ & Hn & _); now injection E1 as <- <-).
  set (pos := fun i k => ground mean_earth (vlon i k) (vlat i k)).
  assert (Fin : finite_da x (fun i k => fst (fst (pos i k))) /\ finite_da y (fun i k => snd (fst (pos i k))) /\ finite_da z (fun i k => snd (pos i k))).
  { split; [|split]; intros i k Hi Hk; rewrite ?X1, ?Y1, ?Z1 in Hi; rewrite ?X2, ?Y2, ?Z2 in Hk; specialize (Exyz i k Hi Hk); rewrite vii_lonlat2xyz_RN in Exyz; injection Exyz as E1 E2 E3; assumption. }
  destruct Fin as (Gx & Gy & Gz).
  assert (T : forall i k, (0 <= i < Z.of_nat s)%Z -> (0 <= k < Z.of_nat (ncols lon))%Z -> pos (j * s + Z.to_nat i)%nat (Z.to_nat k) = (Fx (IZR i) (IZR k), Fy (IZR i) (IZR k), Fz (IZR i) (IZR k))) by exact Tie.
  destruct (vii_near nan _ s f n_scans x ox _ Fx Ky Kx j r a c b Px Gx Hj Hr Hfa ltac:(now rewrite X2) Hfb ltac:(now rewrite X2)) as (px & Ex & Bx); [intros i k Hi Hk; rewrite X2 in Hk; now rewrite T|].
  destruct (vii_near nan _ s f n_scans y oy _ Fy Ky Kx j r a c b Py Gy Hj Hr Hfa ltac:(now rewrite Y2) Hfb ltac:(now rewrite Y2)) as (py & Ey & By); [intros i k Hi Hk; rewrite Y2 in Hk; now rewrite T|].
  destruct (vii_near nan _ s f n_scans z oz _ Fz Ky Kx j r a c b Pz Gz Hj Hr Hfa ltac:(now rewrite Z2) Hfb ltac:(now rewrite Z2)) as (pz & Ez & Bz); [intros i k Hi Hk; rewrite Z2 in Hk; now rewrite T|].
  fold u v e in Bx, By, Bz.
  pose proof (vii_range f s r a Hfa Hr) as Ry. pose proof (vii_range f (ncols lon) c b Hfb Hc) as Rx. rewrite minus_IZR in Ry, Rx. fold u in Ry. fold v in Rx.
  destruct (ground_of mean_earth px py pz (Fx u v) (Fy u v) (Fz u v) e) as (l & p & E1 & D); auto; [unfold mean_earth; lra|apply Sp; lra|].
  exists l, p. specialize (O (j * (s - 1) * f + r * f + a)%nat (c * f + b)%nat). rewrite Ex, Ey, Ez, C20_vii in O.
  unfold MEAN_EARTH_RADIUS in O. cbn [nz RN ndiv] in O. rewrite RNdiv_some in O by lra. fold mean_earth in O. rewrite E1 in O. apply pair_inj in O. destruct O as [-> ->]. auto.
Qed.
Print Assumptions C126_vii.

(** Cases: a scan whose rows are parallels of latitude, starting u0 north of the equator; distance w1 of the tie columns and w2 of the tie rows (radians) *)
Lemma curve_cos c b w K lo hi : Rabs c * w ^ 2 <= K -> bounded_curvature (fun t => c * cos (b + w * t)) lo hi K.
Proof.
  intros HK. exists (fun t => - (c * w) * sin (b + w * t)), (fun t => - (c * w ^ 2) * cos (b + w * t)). intros t _. split; [|split].
  - eapply deriv_eq; [apply (derivable_pt_lim_scal (fun t => cos (b + w * t)) c), (deriv_affine cos b w t), derivable_pt_lim_cos|]. ring.
  - eapply deriv_eq; [apply (derivable_pt_lim_scal (fun t => sin (b + w * t)) (- (c * w))), (deriv_affine sin b w t), derivable_pt_lim_sin|]. ring.
  - rewrite Rabs_mult, Rabs_Ropp, Rabs_mult, (Rabs_pos_eq (w ^ 2)) by apply pow2_ge_0. eapply Rle_trans; [|exact HK].
    rewrite <- (Rmult_1_r (Rabs c * w ^ 2)) at 2. apply Rmult_le_compat_l; [apply Rmult_le_pos; [apply Rabs_pos|apply pow2_ge_0]|]. apply Rabs_le, COS_bound.
Qed.
Lemma curve_sin c b w K lo hi : Rabs c * w ^ 2 <= K -> bounded_curvature (fun t => c * sin (b + w * t)) lo hi K.
Proof.
  intros HK. destruct (curve_cos c (b - PI / 2) w K lo hi HK) as (f1 & f2 & H). exists f1, f2. intros t Ht. destruct (H t Ht) as (H1 & H2 & H3). split; [|auto].
  eapply deriv_ext; [|exact H1]. intros x. cbv beta. rewrite <- (cos_shift (b + w * x)). rewrite <- cos_neg. do 2 f_equal. ring.
Qed.
Definition case_x (r u0 w1 w2 y x : R) : R := r * cos (u0 + w2 * y) * cos (w1 * x).
Definition case_y (r u0 w1 w2 y x : R) : R := r * cos (u0 + w2 * y) * sin (w1 * x).
Definition case_z (r u0 w1 w2 y x : R) : R := r * sin (u0 + w2 * y).
Lemma curvature_ext f g lo hi K : (forall t, f t = g t) -> bounded_curvature f lo hi K -> bounded_curvature g lo hi K.
Proof. intros E (f1 & f2 & H). exists f1, f2. intros t Ht. destruct (H t Ht) as (H1 & H2 & H3). split; [|auto]. eapply deriv_ext; eauto. Qed.
Lemma case_scan r u0 w1 w2 n w : 0 < r ->
  true_scan r n w (fun _ c => w1 * IZR c * (180 / PI)) (fun a _ => (u0 + w2 * IZR a) * (180 / PI)) (case_x r u0 w1 w2) (case_y r u0 w1 w2) (case_z r u0 w1 w2) (r * w2 ^ 2) (r * w1 ^ 2).
Proof.
  intros Hr. assert (RC : forall a, Rabs (r * cos a) <= r /\ Rabs (r * sin a) <= r).
  { intros a. rewrite !Rabs_mult, !(Rabs_pos_eq r) by lra. assert (A : forall t, Rabs t <= 1 -> r * Rabs t <= r) by (intros t Ht; rewrite <- (Rmult_1_r r) at 2; apply Rmult_le_compat_l; lra).
    split; apply A, Rabs_le; [apply COS_bound|apply SIN_bound]. }
  assert (Q : forall a w0, Rabs a <= r -> Rabs a * w0 ^ 2 <= r * w0 ^ 2) by (intros a w0 Ha; apply Rmult_le_compat_r; [apply pow2_ge_0|exact Ha]).
  assert (PI0 : PI <> 0) by (pose proof PI_RGT_0; lra).
  split; [|split; [|split; [|split]]].
  - split; intros a Ha.
    + apply (curvature_ext (fun t => r * cos (u0 + w2 * IZR a) * cos (0 + w1 * t))); [intros t; unfold case_x; now rewrite Rplus_0_l|]. apply curve_cos, Q, RC.
    + apply (curvature_ext (fun t => r * cos (w1 * a) * cos (u0 + w2 * t))); [intros t; unfold case_x; ring|]. apply curve_cos, Q, RC.
  - split; intros a Ha.
    + apply (curvature_ext (fun t => r * cos (u0 + w2 * IZR a) * sin (0 + w1 * t))); [intros t; unfold case_y; now rewrite Rplus_0_l|]. apply curve_sin, Q, RC.
    + apply (curvature_ext (fun t => r * sin (w1 * a) * cos (u0 + w2 * t))); [intros t; unfold case_y; ring|]. apply curve_cos, Q, RC.
  - split; intros a Ha.
    + exists (fun _ => 0), (fun _ => 0). intros t _. split; [|split]; [apply derivable_pt_lim_const|apply derivable_pt_lim_const|]. rewrite Rabs_R0. apply Rmult_le_pos; [lra|apply pow2_ge_0].
    + apply (curvature_ext (fun t => r * sin (u0 + w2 * t))); [reflexivity|]. apply curve_sin, Q. rewrite Rabs_pos_eq; lra.
  - intros y x _ _. unfold on_sphere, case_x, case_y, case_z. pose proof (sin2_cos2 (u0 + w2 * y)) as S1. pose proof (sin2_cos2 (w1 * x)) as S2. unfold Rsqr in S1, S2.
    replace ((r * cos (u0 + w2 * y) * cos (w1 * x)) ^ 2 + (r * cos (u0 + w2 * y) * sin (w1 * x)) ^ 2 + (r * sin (u0 + w2 * y)) ^ 2)
      with (r ^ 2 * (cos (u0 + w2 * y) * cos (u0 + w2 * y) * (sin (w1 * x) * sin (w1 * x) + cos (w1 * x) * cos (w1 * x)) + sin (u0 + w2 * y) * sin (u0 + w2 * y))) by ring.
    rewrite S2, Rmult_1_r, (Rplus_comm (cos _ * cos _)), S1. ring.
  - intros a c _ _. unfold ground, case_x, case_y, case_z. cbv zeta.
    replace ((u0 + w2 * IZR a) * (180 / PI) * (PI / 180)) with (u0 + w2 * IZR a) by (field; exact PI0). replace (w1 * IZR c * (180 / PI) * (PI / 180)) with (w1 * IZR c) by (field; exact PI0). reflexivity.
Qed.
Lemma cos_ge t : 0 <= t <= 2 -> 1 - t ^ 2 / 2 <= cos t.
Proof.
  intros H. replace t with (2 * (t / 2)) at 2 by field. rewrite cos_2a_sin. assert (S : 0 <= sin (t / 2) <= t / 2).
  { split; [apply sin_ge_0; pose proof PI2_1; lra|]. destruct (Req_dec t 0) as [->|N]; [unfold Rdiv; rewrite Rmult_0_l, sin_0; lra|]. left. apply sin_lt_x. lra. }
  nra.
Qed.
(** simple MODIS, tie points every kilometre: every pixel is within two metres of its position *)
Example C126_case_simple : let w1 := / 6371 in let lon := {| adt := Float32; arows := 10; acols := 1354; aat := fun _ c => Some (w1 * IZR c * (180 / PI)) |} in
  let lat := {| adt := Float32; arows := 10; acols := 1354; aat := fun a _ => Some ((1 / 10 + w1 * IZR a) * (180 / PI)) |} in
  forall g olon olat, @simple _ RN To500m g lon lat = Ok (olon, olat) -> forall r i, (0 <= r < 20)%Z -> (0 <= i < 2708)%Z ->
  exists l p, aat olon r i = Some l /\ aat olat r i = Some p /\ let y := row_pos To500m r in let x := col_pos To500m i in
    distance (ground 6370997 l p) (case_x 6370997 (1 / 10) w1 w1 y x, case_y 6370997 (1 / 10) w1 w1 y x, case_z 6370997 (1 / 10) w1 w1 y x) <= 2.
Proof.
  intros w1 lon lat g olon olat O r i Hr Hi. set (K := 6370997 * w1 ^ 2).
  destruct (proj1 C125_constants To500m r Hr) as (Ry & Oy & Dy). destruct (proj1 (proj2 C125_constants) To500m 1354%Z i ltac:(lia) Hi) as (Rx & Dx).
  assert (KB : 0 <= K <= 16 / 100) by (unfold K, w1; lra). pose proof (overhang_pos 10 (row_pos To500m r)) as P0.
  assert (E : bilinear_error 10 1354 K K (row_pos To500m r) (col_pos To500m i) <= 23 / 100).
  { unfold bilinear_error. assert (order2 10 (row_pos To500m r) * K <= 33 / 128 * (16 / 100)) by (apply Rmult_le_compat; try lra; eapply Rle_trans; [|apply Rmax_l]; lra).
    assert (A : 0 <= order2 1354 (col_pos To500m i)) by (eapply Rle_trans; [|apply Rmax_l]; lra).
    assert (order2 1354 (col_pos To500m i) * K <= 21 / 32 * (16 / 100)) by (apply Rmult_le_compat; lra).
    assert ((1 + 2 * overhang 10 (row_pos To500m r)) * (order2 1354 (col_pos To500m i) * K) <= 7 / 4 * (21 / 32 * (16 / 100))) by (apply Rmult_le_compat; try lra; apply Rmult_le_pos; lra). lra. }
  destruct (C126_simple To500m g Float32 10 1354 lon lat olon olat (fun _ c => w1 * IZR c * (180 / PI)) (fun a _ => (1 / 10 + w1 * IZR a) * (180 / PI)) 0
    (case_x 6370997 (1 / 10) w1 w1) (case_y 6370997 (1 / 10) w1 w1) (case_z 6370997 (1 / 10) w1 w1) K K) with (r := r) (i := i) as (l & p & E1 & E2 & B).
  - discriminate.
  - lia.
  - split; [|split; [|split; [|split; [|split]]]]; reflexivity.
  - intros a b _ _. split; reflexivity.
  - exact O.
  - lia.
  - lia.
  - apply (case_scan 6370997 (1 / 10) w1 w1 10 1354). lra.
  - exact Hr.
  - exact Hi.
  - eapply Rle_trans; [exact E|]. lra.
  - right. eapply Rle_lt_trans; [exact E|]. unfold case_x.
    assert (1 / 2 <= cos (1 / 10 + w1 * row_pos To500m r)) by (eapply Rle_trans; [|apply cos_ge]; unfold w1; nra).
    assert (1 / 2 <= cos (w1 * col_pos To500m i)) by (eapply Rle_trans; [|apply cos_ge]; unfold w1; nra). nra.
  - exists l, p. cbn [Z.mul Z.add] in E1, E2. split; [exact E1|]. split; [exact E2|]. cbv zeta. eapply Rle_trans; [exact B|]. lra.
Qed.
(** VII near 67 degrees north, tie points every 8 km: every pixel is within 18 metres *)
Example C126_case_vii : let w1 := / 796 in let u0 := 116 / 100 in
  let vlon := fun i k : nat => w1 * INR k * (180 / PI) in let vlat := fun i k : nat => (u0 + w1 * INR i) * (180 / PI) in
  let lon := {| dims := (0, 1)%nat; nrows := 21; ncols := 100; at_ := fun i k => Some (vlon i k) |} in
  let lat := {| dims := (0, 1)%nat; nrows := 21; ncols := 100; at_ := fun i k => Some (vlat i k) |} in
  exists olon olat, @tie_points_geo_interpolation _ RN None lon lat 21 8 (Some 60) (Some (8 / 10)) = Ok (olon, olat) /\
    forall r a c b, (r < 20)%nat -> (a < 8)%nat -> (c < 99)%nat -> (b < 8)%nat -> let y := vii_y 8 r a in let x := vii_y 8 c b in
      exists l p, at_ olon (r * 8 + a)%nat (c * 8 + b)%nat = Some l /\ at_ olat (r * 8 + a)%nat (c * 8 + b)%nat = Some p /\
        distance (ground mean_earth l p) (case_x mean_earth u0 w1 w1 y x, case_y mean_earth u0 w1 w1 y x, case_z mean_earth u0 w1 w1 y x) <= 18.
Proof.
  intros w1 u0 vlon vlat lon lat.
  assert (PB : 0 < PI <= 347 / 100) by (split; [apply PI_RGT_0|]; pose proof (proj2 (PI_ineq 1)) as B; unfold tg_alt, PI_tg in B; cbn in B; lra).
  destruct (C126_vii None lon lat vlon vlat 21 8 1 60) as (olon & olat & E & H).
  - intros i k _ _. reflexivity.
  - intros i k _ _. reflexivity.
  - exists lon, [lat]. repeat split; try (cbn; lia). repeat constructor.
  - intros [H _]. specialize (H 0%nat 0%nat ltac:(cbn; lia) ltac:(cbn; lia)). unfold vlat, u0 in H. cbn [INR] in H. rewrite Rmult_0_r, Rplus_0_r in H.
    assert (A : 60 < 116 / 100 * (180 / PI)). { apply (Rmult_lt_reg_r PI); [lra|]. replace (116 / 100 * (180 / PI) * PI) with (116 / 100 * 180) by (field; lra). lra. }
    pose proof (Rle_abs (116 / 100 * (180 / PI))). lra.
  - exists olon, olat. split; [exact E|]. intros r a c b Hr Ha Hc Hb y x.
    assert (KB : 0 <= mean_earth * w1 ^ 2 <= 1006 / 100) by (unfold mean_earth, w1; lra).
    assert (Rx : 0 <= x <= 99). { pose proof (vii_range 8 100 c b Hb ltac:(lia)) as R. fold x in R. cbn in R. lra. }
    assert (Ry : 0 <= y <= 20). { pose proof (vii_range 8 21 r a Ha ltac:(lia)) as R. fold y in R. cbn in R. lra. }
    destruct (H 0%nat (case_x mean_earth u0 w1 w1) (case_y mean_earth u0 w1 w1) (case_z mean_earth u0 w1 w1) (mean_earth * w1 ^ 2) (mean_earth * w1 ^ 2) ltac:(lia)) with (r := r) (a := a) (c := c) (b := b) as (l & p & E1 & E2 & B); auto.
    + destruct (case_scan mean_earth u0 w1 w1 21 100) as (S1 & S2 & S3 & S4 & S5); [unfold mean_earth; lra|]. split; [exact S1|]. split; [exact S2|]. split; [exact S3|]. split; [exact S4|].
      intros i k Hi Hk. cbv zeta. rewrite <- S5 by assumption. unfold vlon, vlat. rewrite Nat.mul_0_l, Nat.add_0_l, !INR_IZR_INZ, !Z2Nat.id by lia. reflexivity.
    + unfold mean_earth at 3. lra.
    + right. fold y x. unfold case_x.
      assert (C1 : 1 / 4 <= cos (u0 + w1 * y)) by (eapply Rle_trans; [|apply cos_ge]; unfold u0, w1; nra).
      assert (C2 : 1 / 4 <= cos (w1 * x)) by (eapply Rle_trans; [|apply cos_ge]; unfold w1; nra).
      assert (C3 : 1 / 16 <= cos (u0 + w1 * y) * cos (w1 * x)) by nra. rewrite Rmult_assoc. unfold mean_earth at 3. lra.
    + exists l, p. split; [exact E1|]. split; [exact E2|]. eapply Rle_trans; [exact B|]. fold y x. lra.
Qed.
