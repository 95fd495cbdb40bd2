(** C135: rounding errors of the simple MODIS interpolation on double arrays. *)
From Coq Require Import ZArith List Bool Lia Reals Lra.
From Flocq.Core Require Import Core.
From Verif Require Import Base Num Geo GeoProofs GeoAgree Mem PiBound Float FloatGeo FloatAcc FloatTrip PropsFloat PropsFloatAcc PropsFloatTrip FloatNear FloatModis FloatPixel
  Modis ModisProofs ModisOob ModisAngles SimpleModis SimpleModisProofs SimpleModisReal PropsGeo PropsSimple FloatSimple PropsFloatModis PropsFloatSimple FloatSimple64.
Open Scope Z_scope.

(** The specification is that of C77: [bilinear], [steps] and [surrounded] of PropsSimple.v and PropsFloatSimple.v. *)
(** a position within [far] of [p] is one for which C72 bounds the error of the conversion *)
Lemma moved_position64 far x y h px py pz : fl b64 x -> fl b64 y -> fl b64 h ->
  (Rabs (x - px) <= far -> Rabs (y - py) <= far -> Rabs (h - pz) <= far -> far <= 40000 -> px * px + py * py + pz * pz <= 6 / 5 * (6370997 * 6370997) ->
   far + 1 <= Rabs px \/ far + 1 <= Rabs py -> position b64 6370997 x y h)%R.
Proof.
  intros Fx Fy Fh Dx Dy Dh Hfar Hball Haxis.
  pose proof (Rabs_le_inv _ _ Dx) as Dx'. pose proof (Rabs_le_inv _ _ Dy) as Dy'. pose proof (Rabs_le_inv _ _ Dh) as Dh'.
  assert (B7 : forall t, (t * t <= 6 / 5 * (6370997 * 6370997) -> - 7000000 <= t <= 7000000)%R).
  { intros t Ht. split; apply Rnot_lt_le; intros Hlt.
    - assert (7000000 * 7000000 <= (- t) * (- t))%R by (apply Rmult_le_compat; lra). lra.
    - assert (7000000 * 7000000 <= t * t)%R by (apply Rmult_le_compat; lra). lra. }
  pose proof (Rle_0_sqr px) as Qx. pose proof (Rle_0_sqr py) as Qy. pose proof (Rle_0_sqr pz) as Qz. unfold Rsqr in Qx, Qy, Qz.
  pose proof (B7 px ltac:(lra)) as Px. pose proof (B7 py ltac:(lra)) as Py. pose proof (B7 pz ltac:(lra)) as Pz.
  assert (SQ : forall t p, (-far <= t - p <= far -> -7000000 <= p <= 7000000 -> t * t <= p * p + 2 * 7000000 * 40000 + 40000 * 40000)%R).
  { intros t p Ht Hp. assert (AT : (Rabs (t - p) <= 40000)%R) by (apply Rabs_le; lra). assert (AP : (Rabs p <= 7000000)%R) by (apply Rabs_le; lra).
    replace (t * t)%R with (p * p + 2 * (p * (t - p)) + (t - p) * (t - p))%R by ring.
    assert (p * (t - p) <= 7000000 * 40000)%R.
    { eapply Rle_trans; [apply Rle_abs|]. rewrite Rabs_mult. apply Rmult_le_compat; auto using Rabs_pos. }
    assert ((t - p) * (t - p) <= 40000 * 40000)%R.
    { eapply Rle_trans; [apply Rle_abs|]. rewrite Rabs_mult. apply Rmult_le_compat; auto using Rabs_pos. }
    lra. }
  pose proof (SQ x px Dx' Px). pose proof (SQ y py Dy' Py). pose proof (SQ h pz Dh' Pz).
  split; [exact Fx|]. split; [exact Fy|]. split; [exact Fh|]. split; [lra|].
  assert (ONE : (bpow radix2 (-60) <= 1)%R) by (change 1%R with (bpow radix2 0); apply bpow_le; lia).
  destruct Haxis as [A|A]; [left|right]; (eapply Rle_trans; [exact ONE|]).
  - pose proof (Rabs_triang x (px - x)) as T. replace (x + (px - x))%R with px in T by ring. assert (Rabs (px - x) <= far)%R by (apply Rabs_le; lra). lra.
  - pose proof (Rabs_triang y (py - y)) as T. replace (y + (py - y))%R with py in T by ring. assert (Rabs (py - y) <= far)%R by (apply Rabs_le; lra). lra.
Qed.

(** one component: the value in floats against the bilinear value of the exact coordinates *)
Lemma simple_comp64 m k w (nav : Z -> Z -> option R) (e : Z -> Z -> R) r i : 2 <= w < 2 ^ 22 -> 0 <= r < fac2 k * 10 -> 0 <= i < fac2 k * w ->
  (forall a b, 0 <= a < 10 -> 0 <= b < w -> near b64 (nav a b) (e a b) 4e-8 /\ (Rabs (e a b) <= 6370997)%R) ->
  exists v, @fine_comp2 _ (F64 m) (fac2 k) 10 w nav r i = Some v /\ fl b64 v /\
    (surrounded k w r i -> Rabs (v - bilinear 10 w e (row_pos k r) (col_pos k i)) <= 2e-7)%R /\
    forall L, (forall a b, 0 <= a < 9 -> 0 <= b < w -> (Rabs (e (a + 1)%Z b - e a b) <= L)%R) ->
      (forall a, 0 <= a < 10 -> (Rabs (e a (w - 1)%Z - e a (w - 2)%Z) <= L)%R) ->
      (Rabs (v - bilinear 10 w e (row_pos k r) (col_pos k i)) <= 3e-6 + L / 10000000000000)%R.
Proof.
  intros Hw Hr Hi H. set (f := fac2 k) in *. assert (Hf : f = 2 \/ f = 4) by (destruct k; cbn; auto).
  set (u := fun a b => match nav a b with Some v => v | None => 0%R end).
  assert (U : forall a b, 0 <= a < 10 -> 0 <= b < w -> nav a b = Some (u a b) /\ fl b64 (u a b) /\ (Rabs (u a b) <= top)%R /\ (Rabs (u a b - e a b) <= 4e-8)%R).
  { intros a b Ha Hb. destruct (H a b Ha Hb) as [(v & E & Fv & D) B]. unfold u. rewrite E. split; [reflexivity|]. split; [exact Fv|]. split; [|exact D].
    replace v with ((v - e a b) + e a b)%R by ring. eapply Rle_trans; [apply Rabs_triang|]. unfold top. lra. }
  assert (Y : ypos f r = row_pos k r) by (unfold ypos, row_pos, f; destruct k; cbn [fac2]; lra).
  assert (X : xpos2 f i = col_pos k i) by reflexivity.
  assert (YB : (- 0.375 <= row_pos k r <= 9 + 0.375)%R).
  { assert (0 <= IZR r <= IZR f * 10 - 1)%R by (split; [apply (IZR_le 0); lia|rewrite <- mult_IZR, <- minus_IZR; apply IZR_le; lia]).
    unfold row_pos, f in *. destruct k; cbn [fac2] in *; lra. }
  assert (XB : (0 <= col_pos k i <= IZR (w - 1) + 0.75)%R).
  { assert (0 <= IZR i <= IZR f * IZR (w - 1) + IZR f - 1)%R.
    { split; [apply (IZR_le 0); lia|]. rewrite <- mult_IZR, <- plus_IZR, <- minus_IZR. apply IZR_le. lia. }
    unfold col_pos, f in *. destruct k; cbn [fac2] in *; lra. }
  assert (HU : forall a b, 0 <= a < 10 -> 0 <= b < w -> nav a b = Some (u a b) /\ fl b64 (u a b) /\ (Rabs (u a b) <= top)%R)
    by (intros a b Ha Hb; destruct (U a b Ha Hb) as (A & B & C & _); auto).
  assert (TRI : forall a b a' b' L, 0 <= a < 10 -> 0 <= b < w -> 0 <= a' < 10 -> 0 <= b' < w -> (Rabs (e a b - e a' b') <= L)%R ->
    (Rabs (u a b - u a' b') <= Rmin L 12741994 + 1)%R).
  { intros a b a' b' L Ha Hb Ha' Hb' HL. destruct (U a b Ha Hb) as (_ & _ & _ & D1). destruct (U a' b' Ha' Hb') as (_ & _ & _ & D2).
    destruct (H a b Ha Hb) as [_ B1]. destruct (H a' b' Ha' Hb') as [_ B2].
    assert (Rabs (e a b - e a' b') <= Rmin L 12741994)%R.
    { apply Rmin_glb; [exact HL|]. unfold Rminus. eapply Rle_trans; [apply Rabs_triang|]. rewrite Rabs_Ropp. lra. }
    replace (u a b - u a' b')%R with ((u a b - e a b) + (e a b - e a' b') + (e a' b' - u a' b'))%R by ring.
    eapply Rle_trans; [apply Rabs_triang|]. eapply Rle_trans; [apply Rplus_le_compat_r, Rabs_triang|]. rewrite (Rabs_minus_sym (e a' b')). lra. }
  assert (CORN : forall dx dy, (0 <= dx)%R -> (0 <= dy)%R -> (- dx <= col_pos k i <= IZR (w - 1) + dx)%R -> (- dy <= row_pos k r <= 9 + dy)%R ->
    (Rabs (goal f w u r i - bilinear 10 w e (row_pos k r) (col_pos k i)) <= (1 + 2 * dy) * ((1 + 2 * dx) * 4e-8))%R).
  { intros dx dy Hdx Hdy Bx By. unfold goal, bilinear. rewrite Y, X. apply pwl_close; [lia|exact Hdy|change (10 - 1) with 9; exact By|]. intros a Ha.
    apply pwl_close; [lia|exact Hdx|exact Bx|]. intros b Hb. now apply U. }
  assert (MAIN : forall L, (forall a b, 0 <= a < 9 -> 0 <= b < w -> (Rabs (e (a + 1)%Z b - e a b) <= L)%R) ->
      (forall a, 0 <= a < 10 -> (Rabs (e a (w - 1)%Z - e a (w - 2)%Z) <= L)%R) ->
      near b64 (@fine_comp2 _ (F64 m) f 10 w nav r i) (bilinear 10 w e (row_pos k r) (col_pos k i)) (3e-6 + L / 10000000000000)).
  { intros L L1 L2. set (S := (Rmin L 12741994 + 1)%R).
    assert (L0 : (0 <= L)%R) by (eapply Rle_trans; [apply Rabs_pos|apply (L2 0); lia]).
    assert (M0 : (0 <= Rmin L 12741994)%R) by (apply Rmin_glb; lra). pose proof (Rmin_r L 12741994) as M1. pose proof (Rmin_l L 12741994) as M2.
    pose proof (finished_near m f w Hf Hw nav u S ltac:(unfold S; lra) HU) as FN.
    eapply near_move; [|apply FN]; auto.
    - pose proof (CORN 0.75%R 0.375%R ltac:(lra) ltac:(lra) ltac:(lra) ltac:(lra)) as C. unfold S. lra.
    - intros a b Ha Hb. apply TRI; try lia. now apply L1.
    - intros a Ha. apply TRI; try lia. now apply L2. }
  destruct (MAIN 12741994%R) as (v & E & Fv & _).
  { intros a b Ha Hb. destruct (H (a + 1) b ltac:(lia) Hb) as [_ B1]. destruct (H a b ltac:(lia) Hb) as [_ B2].
    unfold Rminus. eapply Rle_trans; [apply Rabs_triang|]. rewrite Rabs_Ropp. lra. }
  { intros a Ha. destruct (H a (w - 1) Ha ltac:(lia)) as [_ B1]. destruct (H a (w - 2) Ha ltac:(lia)) as [_ B2].
    unfold Rminus. eapply Rle_trans; [apply Rabs_triang|]. rewrite Rabs_Ropp. lra. }
  exists v. split; [exact E|]. split; [exact Fv|]. split.
  - intros (S1 & S2).
    assert (BT : between f w r i).
    { unfold between. unfold row_pos, col_pos, f in *. destruct k; cbn [fac2] in *.
      - assert (A1 : (IZR 1 <= IZR (2 * r))%R) by (rewrite mult_IZR; lra). assert (A2 : (IZR (2 * r) <= IZR 37)%R) by (rewrite mult_IZR; lra).
        assert (A3 : (IZR i <= IZR (2 * (w - 1)))%R) by (rewrite mult_IZR; lra). apply le_IZR in A1, A2, A3. lia.
      - assert (A1 : (IZR 3 <= IZR (2 * r))%R) by (rewrite mult_IZR; lra). assert (A2 : (IZR (2 * r) <= IZR 75)%R) by (rewrite mult_IZR; lra).
        assert (A3 : (IZR i <= IZR (4 * (w - 1)))%R) by (rewrite mult_IZR; lra). apply le_IZR in A1, A2, A3. lia. }
    destruct (between_near m f w Hf Hw nav u HU r i Hr Hi BT) as (v' & E' & _ & D). change (FloatSimple64.FI m) with (F64 m) in E'. rewrite E in E'. injection E' as <-.
    pose proof (CORN 0%R 0%R ltac:(lra) ltac:(lra) ltac:(lra) ltac:(lra)) as C.
    replace (v - bilinear 10 w e (row_pos k r) (col_pos k i))%R with ((v - goal f w u r i) + (goal f w u r i - bilinear 10 w e (row_pos k r) (col_pos k i)))%R by ring.
    eapply Rle_trans; [apply Rabs_triang|]. lra.
  - intros L L1 L2. destruct (MAIN L L1 L2) as (v' & E' & _ & D). rewrite E in E'. injection E' as <-. exact D.
Qed.

(** Every pixel of a whole scan. [place] is the position computed in exact arithmetic (C56_bilinear). Between tie points the
    position computed in doubles is within 0.2 micrometres of it in each coordinate; where it is extrapolated, within 3
    micrometres plus 10^-13 of the distance of neighbouring tie points. Longitude and latitude are those of the computed
    position up to 0.000005 degrees: the subtraction from 90 degrees and the inverse functions near their ends dominate. *)
Theorem C135_pixels : forall m k g n w (lon lat olon olat : ndarray (option R)) (lo la : Z -> Z -> R),
  in_range b64 pi64 m -> accurate b64 m ->
  0 <= n -> 2 <= w < 2 ^ 22 -> shaped2 Float64 n w lon lat ->
  (forall a b, 0 <= a < n -> 0 <= b < w -> aat lon a b = Some (lo a b) /\ aat lat a b = Some (la a b) /\ (Rabs (lo a b) <= 180 /\ Rabs (la a b) <= 90)%R) ->
  @simple _ (F64 m) k g lon lat = Ok (olon, olat) ->
  forall s r i, 0 <= s -> (s + 1) * 10 <= n -> 0 <= r < fac2 k * 10 -> 0 <= i < fac2 k * w ->
    let place (coordinate : R -> R -> R) :=
      bilinear 10 w (fun a b => coordinate (lo (s * 10 + a)%Z b) (la (s * 10 + a)%Z b)) (row_pos k r) (col_pos k i) in
    exists x y h,
      let within far := (Rabs (x - place at_x) <= far /\ Rabs (y - place at_y) <= far /\ Rabs (h - place at_z) <= far)%R in
      (surrounded k w r i -> within 2e-7%R) /\ (forall L, steps w s lo la L -> within (3e-6 + L / 10000000000000)%R) /\
      (aat olon (s * (fac2 k * 10) + r) i, aat olat (s * (fac2 k * 10) + r) i) =
        @cy_xyz2lonlat _ (F64 m) true (@nst _ (F64 m) (@ndiv _ (F64 m) (@nz _ (F64 m) 8) (@nz _ (F64 m) 10))) (Some x, Some y, Some h) /\
      forall far, within far -> (far <= 40000 -> place at_x * place at_x + place at_y * place at_y + place at_z * place at_z <= 6 / 5 * (6370997 * 6370997) ->
        far + 1 <= Rabs (place at_x) \/ far + 1 <= Rabs (place at_y) ->
        near_exact 6370997 (8 / 10) (5 / 1000000) x y h (aat olon (s * (fac2 k * 10) + r)%Z i, aat olat (s * (fac2 k * 10) + r)%Z i))%R.
Proof.
  intros m k g n w lon lat olon olat lo la HR HA Hn Hw S F O s r i Hs Hsn Hr Hi place.
  set (N := F64 m) in *.
  destruct (@simple_run _ N k g Float64 n w lon lat ltac:(discriminate) Hn ltac:(lia) S) as (a & b & E & _ & V). rewrite E in O. injection O as -> ->.
  destruct (in_scans (fac2 k) n s r Hs Hsn Hr) as [I1 Q1]. pose proof (V _ i I1 Hi) as P. rewrite Q1 in P. rewrite P. clear P V.
  rewrite (scan_row (fac2 k * 10) (fun x y => @ll_scan _ N (fac2 k) 10 w lon lat x y i)) by exact Hr.
  unfold ll_scan, thr8, fine_xyz2.
  set (T := fun a b => @cy_lonlat2xyz _ N (aat lon (s * 10 + a) b) (aat lat (s * 10 + a) b)).
  assert (HT : forall a b, 0 <= a < 10 -> 0 <= b < w -> corner_ok (T a b) (lo (s * 10 + a) b) (la (s * 10 + a) b)).
  { intros a' b' Ha Hb. unfold T. destruct (F (s * 10 + a') b' ltac:(lia) Hb) as (-> & -> & B1 & B2). apply (FloatSimple64.near_corner m HA); assumption. }
  destruct (simple_comp64 m k w (fun a b => comp 0 (T a b)) (fun a b => at_x (lo (s * 10 + a)%Z b) (la (s * 10 + a)%Z b)) r i Hw Hr Hi) as (x & Ex & Fx & X1 & X2).
  { intros a' b' Ha Hb. split; [apply (HT a' b' Ha Hb)|apply at_bound]. }
  destruct (simple_comp64 m k w (fun a b => comp 1 (T a b)) (fun a b => at_y (lo (s * 10 + a)%Z b) (la (s * 10 + a)%Z b)) r i Hw Hr Hi) as (y & Ey & Fy & Y1 & Y2).
  { intros a' b' Ha Hb. split; [apply (HT a' b' Ha Hb)|apply at_bound]. }
  destruct (simple_comp64 m k w (fun a b => comp 2 (T a b)) (fun a b => at_z (lo (s * 10 + a)%Z b) (la (s * 10 + a)%Z b)) r i Hw Hr Hi) as (h & Eh & Fh & H1 & H2).
  { intros a' b' Ha Hb. split; [apply (HT a' b' Ha Hb)|apply at_bound]. }
  fold N in Ex, Ey, Eh. unfold T in Ex, Ey, Eh. cbv beta in Ex, Ey, Eh. exists x, y, h. cbv zeta. split; [|split; [|split]].
  - intros SU. split; [apply X1; exact SU|]. split; [apply Y1; exact SU|apply H1; exact SU].
  - intros L (L1 & L2). split; [apply X2|split; [apply Y2|apply H2]]; cbv beta; intros; try (apply L1; assumption); apply L2; assumption.
  - rewrite Ex, Ey, Eh. reflexivity.
  - intros far (Dx & Dy & Dh) Hfar Hball Haxis. rewrite Ex, Ey, Eh. apply (proj1 (C72_cython m x y h HR HA)).
    apply (moved_position64 far x y h _ _ _ Fx Fy Fh Dx Dy Dh Hfar Hball Haxis).
Qed.
Print Assumptions C135_pixels.

(** ** A case: 1 km to 250 m, one scan of two columns near (0, 0); row 2, column 1 *)
Definition simple_lon64 : ndarray (option R) := {| adt := Float64; arows := 10; acols := 2; aat := fun _ b => Some (IZR b / 64)%R |}.
Definition simple_lat64 : ndarray (option R) := {| adt := Float64; arows := 10; acols := 2; aat := fun a _ => Some (IZR a / 1024)%R |}.
Example C135_case : forall m g, in_range b64 pi64 m -> accurate b64 m ->
  exists olon olat x y h, @simple _ (F64 m) To250m g simple_lon64 simple_lat64 = Ok (olon, olat) /\
    (Rabs (x - 6370997) <= 3504 /\ Rabs y <= 3504 /\ Rabs h <= 3504)%R /\
    near_exact 6370997 (8 / 10) (5 / 1000000) x y h (aat olon 2 1, aat olat 2 1).
Proof.
  intros m g HR HA. set (lo := fun (_ b : Z) => (IZR b / 64)%R). set (la := fun (a _ : Z) => (IZR a / 1024)%R).
  assert (SH : shaped2 Float64 10 2 simple_lon64 simple_lat64) by (repeat split).
  destruct (@simple_run _ (F64 m) To250m g Float64 10 2 simple_lon64 simple_lat64 ltac:(discriminate) ltac:(lia) ltac:(lia) SH) as (olon & olat & O & _).
  exists olon, olat.
  assert (VAL : forall a b, 0 <= a < 10 -> 0 <= b < 2 -> aat simple_lon64 a b = Some (lo a b) /\ aat simple_lat64 a b = Some (la a b) /\ (Rabs (lo a b) <= 180 /\ Rabs (la a b) <= 90)%R).
  { intros a b Hra Hcb. assert (0 <= IZR a <= 9)%R by (split; apply IZR_le; lia). assert (0 <= IZR b <= 1)%R by (split; apply IZR_le; lia).
    unfold lo, la. repeat split; try reflexivity; rewrite Rabs_pos_eq; lra. }
  destruct (C135_pixels m To250m g 10 2 simple_lon64 simple_lat64 olon olat lo la HR HA ltac:(lia) ltac:(lia) SH VAL O 0 2 1
    ltac:(lia) ltac:(lia) ltac:(cbn; lia) ltac:(cbn; lia)) as (x & y & h & C1 & _ & _ & C2).
  assert (SU : surrounded To250m 2 2 1) by (unfold surrounded, row_pos, col_pos; cbn [fac2 Z.sub Z.add Z.opp Pos.succ Z.pos_sub Pos.pred_double]; lra).
  specialize (C1 SU). specialize (C2 2e-7%R C1). destruct C1 as (Dx & Dy & Dh). change (0 * (fac2 To250m * 10) + 2) with 2 in C2.
  assert (CL : forall (cf : R -> R -> R) c0, (forall lo la, (0 <= lo <= 1 / 64 -> 0 <= la <= 1 / 64 -> Rabs (cf lo la - c0) <= 3500)%R) ->
    (Rabs (bilinear 10 2 (fun a b => cf (lo (0 * 10 + a)%Z b) (la (0 * 10 + a)%Z b)) (row_pos To250m 2) (col_pos To250m 1) - c0) <= 3500)%R).
  { intros cf c0 Hc. unfold bilinear. rewrite <- (pwl_const 10 c0 (row_pos To250m 2)) at 1.
    replace 3500%R with ((1 + 2 * 0) * ((1 + 2 * 0) * 3500))%R by ring. apply pwl_close; [lia|lra|unfold row_pos; change (IZR (10 - 1)) with 9%R; lra|]. intros a Ha.
    rewrite <- (pwl_const 2 c0 (col_pos To250m 1)) at 1. apply pwl_close; [lia|lra|unfold col_pos; cbn [fac2]; change (IZR (2 - 1)) with 1%R; lra|]. intros b Hb.
    assert (0 <= IZR a <= 9)%R by (split; apply IZR_le; lia). assert (0 <= IZR b <= 1)%R by (split; apply IZR_le; lia).
    apply Hc; unfold lo, la; cbn [Z.mul Z.add]; rewrite ?Z.add_0_l; lra. }
  pose proof (CL at_x 6370997%R ltac:(intros; now apply near_origin)) as PX. pose proof (CL at_y 0%R ltac:(intros; now apply near_origin)) as PY. pose proof (CL at_z 0%R ltac:(intros; now apply near_origin)) as PZ.
  cbv zeta in Dx, Dy, Dh, C2.
  set (px := bilinear 10 2 (fun a b => at_x (lo (0 * 10 + a)%Z b) (la (0 * 10 + a)%Z b)) (row_pos To250m 2) (col_pos To250m 1)) in *.
  set (py := bilinear 10 2 (fun a b => at_y (lo (0 * 10 + a)%Z b) (la (0 * 10 + a)%Z b)) (row_pos To250m 2) (col_pos To250m 1)) in *.
  set (pz := bilinear 10 2 (fun a b => at_z (lo (0 * 10 + a)%Z b) (la (0 * 10 + a)%Z b)) (row_pos To250m 2) (col_pos To250m 1)) in *.
  clearbody px py pz. apply Rabs_le_inv in PX, PY, PZ. exists x, y, h. split; [exact O|]. split.
  - apply Rabs_le_inv in Dx, Dy, Dh. repeat split; apply Rabs_le; lra.
  - apply C2; [lra| |left; rewrite Rabs_pos_eq; lra].
    assert (px * px <= 6374497 * 6374497)%R by (apply Rmult_le_compat; lra).
    assert (SQ : forall t, (- 3500 <= t - 0 <= 3500 -> t * t <= 3500 * 3500)%R).
    { intros t Ht. rewrite <- (Rabs_pos_eq (t * t)) by (apply Rle_0_sqr). rewrite Rabs_mult. assert (Rabs t <= 3500)%R by (apply Rabs_le; lra). apply Rmult_le_compat; auto using Rabs_pos. }
    pose proof (SQ py PY). pose proof (SQ pz PZ). lra.
Qed.
