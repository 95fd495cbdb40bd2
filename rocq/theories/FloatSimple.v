(** Rounding errors of the simple MODIS interpolation (_simple_modis_interpolator.pyx:71-277) on float arrays. *)
From Coq Require Import ZArith Lia Bool Reals Lra.
From Flocq.Core Require Import Core.
From Verif Require Import Base Num Geo GeoProofs Modis ModisProofs PiBound Float FloatGeo FloatAcc FloatTrip FloatNear FloatPixel
  SimpleModis SimpleModisProofs SimpleModisReal.
Open Scope R_scope.

(** ** The piecewise linear function *)
Lemma pwl_bound n v x B d : (2 <= n)%Z -> 0 <= d -> - d <= x <= IZR (n - 1) + d -> (forall c, (0 <= c < n)%Z -> Rabs (v c) <= B) ->
  Rabs (pwl n v x) <= (1 + 2 * d) * B.
Proof.
  intros Hn Hd Hx H. unfold pwl. set (c := Z.max 0 (Z.min (Rfloor x) (n - 2))). cbv zeta.
  assert (Hc : (0 <= c <= n - 2)%Z) by lia. pose proof (Rfloor_spec x) as F.
  assert (T : - d <= x - IZR c <= 1 + d).
  { split.
    - destruct (Z.le_gt_cases 0 (Rfloor x)) as [L|L].
      + assert (IZR c <= IZR (Rfloor x)) by (apply IZR_le; lia). lra.
      + replace c with 0%Z by lia. lra.
    - destruct (Z.le_gt_cases (Rfloor x) (n - 2)) as [L|L].
      + assert (IZR (Rfloor x) <= IZR c) by (apply IZR_le; lia). lra.
      + replace c with (n - 2)%Z by lia. replace (n - 1)%Z with (n - 2 + 1)%Z in Hx by ring. rewrite plus_IZR in Hx. lra. }
  set (t := x - IZR c) in *. replace (v c + t * (v (c + 1)%Z - v c)) with ((1 - t) * v c + t * v (c + 1)%Z) by ring.
  pose proof (H c ltac:(lia)) as H1. pose proof (H (c + 1)%Z ltac:(lia)) as H2. pose proof (Rabs_pos (v c)) as P1.
  eapply Rle_trans; [apply Rabs_triang|]. rewrite !Rabs_mult.
  assert (Rabs (1 - t) * Rabs (v c) <= Rabs (1 - t) * B) by (apply Rmult_le_compat_l; auto using Rabs_pos).
  assert (Rabs t * Rabs (v (c + 1)%Z) <= Rabs t * B) by (apply Rmult_le_compat_l; auto using Rabs_pos).
  assert (Rabs (1 - t) + Rabs t <= 1 + 2 * d) by (unfold Rabs; destruct (Rcase_abs (1 - t)), (Rcase_abs t); lra).
  assert ((Rabs (1 - t) + Rabs t) * B <= (1 + 2 * d) * B) by (apply Rmult_le_compat_r; lra). lra.
Qed.
Lemma pwl_sub n v w x : pwl n v x - pwl n w x = pwl n (fun c => v c - w c) x.
Proof. unfold pwl. cbv zeta. ring. Qed.
Lemma pwl_close n v w x B d : (2 <= n)%Z -> 0 <= d -> - d <= x <= IZR (n - 1) + d -> (forall c, (0 <= c < n)%Z -> Rabs (v c - w c) <= B) ->
  Rabs (pwl n v x - pwl n w x) <= (1 + 2 * d) * B.
Proof. intros Hn Hd Hx H. rewrite pwl_sub. now apply pwl_bound. Qed.

(** ** Sixteenths are exact *)
Lemma fl_16 g z : good g -> (24 <= fprec g)%Z -> (femin g <= -4)%Z -> (Z.abs z < 2 ^ 24)%Z -> fl g (IZR z / 16).
Proof.
  intros G P E H. assert (F : IZR z / 16 = F2R (Float radix2 z (-4))) by (unfold F2R; cbn [Fnum Fexp]; change (bpow radix2 (-4)) with (/ 16); reflexivity).
  split.
  - rewrite F. apply generic_format_FLT. exists (Float radix2 z (-4)); [reflexivity| |exact E]. cbn [Fnum].
    eapply Z.lt_le_trans; [exact H|]. apply (Z.pow_le_mono_r 2); lia.
  - apply Rlt_le_trans with (bpow radix2 24).
    + unfold Rdiv. rewrite Rabs_mult, (Rabs_pos_eq (/ 16)) by lra. rewrite <- abs_IZR. apply IZR_lt in H.
      rewrite bpow_Z by lia. change (IZR (2 ^ 24)) with 16777216 in *. assert (0 <= IZR (Z.abs z)) by (apply IZR_le; lia). lra.
    + apply bpow_le. destruct G as (_ & _ & G). lia.
Qed.
Lemma fl_4 g z : good g -> (24 <= fprec g)%Z -> (femin g <= -2)%Z -> (Z.abs z < 2 ^ 24)%Z -> fl g (IZR z / 4).
Proof.
  intros G P E H. assert (F : IZR z / 4 = F2R (Float radix2 z (-2))) by (unfold F2R; cbn [Fnum Fexp]; change (bpow radix2 (-2)) with (/ 4); reflexivity).
  split.
  - rewrite F. apply generic_format_FLT. exists (Float radix2 z (-2)); [reflexivity| |exact E]. cbn [Fnum].
    eapply Z.lt_le_trans; [exact H|]. apply (Z.pow_le_mono_r 2); lia.
  - apply Rlt_le_trans with (bpow radix2 24).
    + unfold Rdiv. rewrite Rabs_mult, (Rabs_pos_eq (/ 4)) by lra. rewrite <- abs_IZR. apply IZR_lt in H.
      rewrite bpow_Z by lia. change (IZR (2 ^ 24)) with 16777216 in *. assert (0 <= IZR (Z.abs z)) by (apply IZR_le; lia). lra.
    + apply bpow_le. destruct G as (_ & _ & G). lia.
Qed.

Section Simple.
Variable m : libm.
#[local] Instance FI : NumOps (option R) := F64_32 m.
Notation nf := (near b32).
Notation nd := (near b64).

Lemma e64 x z : (Z.abs z < 2 ^ 24)%Z -> x = IZR z / 16 -> fit b64 x = Some x.
Proof. intros H ->. apply fit_fl, fl_16; [apply good_b64|cbn; lia|cbn; lia|exact H]. Qed.
Lemma e32 x z : (Z.abs z < 2 ^ 24)%Z -> x = IZR z / 16 -> fit b32 x = Some x.
Proof. intros H ->. apply fit_fl, fl_16; [apply good_b32|cbn; lia|cbn; lia|exact H]. Qed.
Lemma q64 x z : (Z.abs z < 2 ^ 24)%Z -> x = IZR z / 4 -> fit b64 x = Some x.
Proof. intros H ->. apply fit_fl, fl_4; [apply good_b64|cbn; lia|cbn; lia|exact H]. Qed.
Lemma q32 x z : (Z.abs z < 2 ^ 24)%Z -> x = IZR z / 4 -> fit b32 x = Some x.
Proof. intros H ->. apply fit_fl, fl_4; [apply good_b32|cbn; lia|cbn; lia|exact H]. Qed.

(** the row numbers of the fine pixels, in units of tie rows, are exact *)
Lemma y_exact f j : f = 2%Z \/ f = 4%Z -> (0 <= j < 1000)%Z -> y_coordinate f j = Some (ypos f j) /\ fl b32 (ypos f j).
Proof.
  intros Hf Hj.
  assert (Q : exists z, (Z.abs z < 2 ^ 24)%Z /\ ypos f j = IZR z / 16).
  { destruct Hf as [-> | ->]; unfold ypos.
    - exists (8 * j - 4)%Z. split; [lia|]. rewrite minus_IZR, mult_IZR. lra.
    - exists (4 * j - 6)%Z. split; [lia|]. rewrite minus_IZR, mult_IZR. lra. }
  destruct Q as (z & Hz & Ez). split; [|rewrite Ez; apply fl_16; [apply good_b32|cbn; lia|cbn; lia|exact Hz]].
  unfold y_coordinate. cbn [nz nmul ndiv nsub nadd nst FI F64_32 FN]. rewrite !fit64_Z by lia. cbn [bind2].
  destruct (Req_EM_T (IZR f) 0) as [Z|_]; [destruct Hf as [-> | ->]; lra|].
  destruct (Req_EM_T 16 0) as [Z|_]; [lra|]. destruct (Req_EM_T 8 0) as [Z|_]; [lra|].
  rewrite (e64 (1 / 16) 1) by (lia || lra). rewrite (e64 (1 / 8) 2) by (lia || lra).
  rewrite (e64 (1 / IZR f) (16 / f)) by (destruct Hf as [-> | ->]; [change (16 / 2)%Z with 8%Z|change (16 / 4)%Z with 4%Z]; (lia || lra)).
  cbn [bind2]. rewrite (e64 (IZR f * (1 / 16)) f) by (lia || lra). cbn [bind2].
  rewrite (e64 (IZR f * (1 / 16) + 1 / 8) (f + 2)) by (lia || (rewrite plus_IZR; lra)).
  rewrite (e64 (IZR j * (1 / IZR f)) (j * (16 / f))).
  - cbn [bind2].
    assert (Ey : IZR j * (1 / IZR f) - (IZR f * (1 / 16) + 1 / 8) = ypos f j) by (unfold ypos; destruct Hf as [-> | ->]; lra).
    rewrite Ey. rewrite (e64 (ypos f j) z) by assumption. cbn [bind1]. apply (e32 _ z); assumption.
  - destruct Hf as [-> | ->]; [change (16 / 2)%Z with 8%Z|change (16 / 4)%Z with 4%Z]; lia.
  - rewrite mult_IZR. destruct Hf as [-> | ->]; [change (16 / 2)%Z with 8%Z|change (16 / 4)%Z with 4%Z]; lra.
Qed.
Lemma x_exact f i : f = 2%Z \/ f = 4%Z -> (0 <= i < 2 ^ 24)%Z -> (i * (4 / f) < 2 ^ 24)%Z -> x_coordinate f i = Some (xpos2 f i) /\ fl b32 (xpos2 f i).
Proof.
  intros Hf Hi Hi2.
  assert (Q : exists z, (Z.abs z < 2 ^ 24)%Z /\ xpos2 f i = IZR z / 4).
  { exists (i * (4 / f))%Z. rewrite mult_IZR. unfold xpos2. destruct Hf as [-> | ->]; [change (4 / 2)%Z with 2%Z in *|change (4 / 4)%Z with 1%Z in *]; (split; [lia|lra]). }
  destruct Q as (z & Hz & Ez). split; [|rewrite Ez; apply fl_4; [apply good_b32|cbn; lia|cbn; lia|exact Hz]].
  unfold x_coordinate. cbn [nz nmul ndiv nst FI F64_32 FN]. rewrite (fit64_Z i), (fit64_Z 1), (fit64_Z f) by lia. cbn [bind2].
  destruct (Req_EM_T (IZR f) 0) as [Z|_]; [destruct Hf as [-> | ->]; lra|].
  rewrite (q64 (1 / IZR f) (4 / f)) by (destruct Hf as [-> | ->]; [change (4 / 2)%Z with 2%Z|change (4 / 4)%Z with 1%Z]; (lia || lra)).
  cbn [bind2]. assert (Ex : IZR i * (1 / IZR f) = xpos2 f i) by (unfold xpos2; destruct Hf as [-> | ->]; lra).
  rewrite Ex, (q64 _ z) by assumption. cbn [bind1]. apply (q32 _ z); assumption.
Qed.

Lemma nearest_float len x : (1 <= len <= 2 ^ 24)%Z -> fl b64 x -> nearest len (Some x) = Some (clip len x) /\ fl b64 (clip len x).
Proof.
  intros Hl Fx. unfold nearest, clip. cbn [nz nltb FI F64_32 FN]. rewrite !fit64_Z by lia. cbn [liftb].
  assert (0 <= IZR (len - 1)) by (apply (IZR_le 0); lia).
  assert (FZ : forall z, (Z.abs z < 2 ^ 24)%Z -> fl b64 (IZR z)) by (intros z Hz; apply (fit_inv b64 good_b64 _ _ (fit64_Z z Hz))).
  destruct (Rltb x 0) eqn:A; [apply Rltb_true in A|apply Rltb_false in A].
  - rewrite Rmin_left, Rmax_left by lra. split; [reflexivity|apply (FZ 0%Z); lia].
  - destruct (Rltb (IZR (len - 1)) x) eqn:B; [apply Rltb_true in B|apply Rltb_false in B].
    + rewrite Rmin_right, Rmax_right by lra. split; [reflexivity|apply FZ; lia].
    + rewrite Rmin_left, Rmax_right by lra. split; [reflexivity|exact Fx].
Qed.

(** ** map_coordinates *)
Definition top : R := 6371001.
Lemma near_map rows cols nav (u : Z -> Z -> R) y x : (2 <= rows <= 2 ^ 24)%Z -> (2 <= cols <= 2 ^ 24)%Z -> fl b64 y -> fl b64 x ->
  (forall a b, (0 <= a < rows)%Z -> (0 <= b < cols)%Z -> nav a b = Some (u a b) /\ fl b32 (u a b) /\ Rabs (u a b) <= top) ->
  let p := pwl rows (fun a => pwl cols (u a) (clip cols x)) (clip rows y) in
  nf (nst (map_coordinates rows cols nav (Some y) (Some x))) p 0.39 /\ Rabs p <= top.
Proof.
  intros Hr Hc Fy Fx H p.
  pose proof (clip_range rows y ltac:(lia)) as Ry. pose proof (clip_range cols x ltac:(lia)) as Rx.
  assert (Bp : Rabs p <= top).
  { replace top with ((1 + 2 * 0) * ((1 + 2 * 0) * top)) by ring. apply pwl_bound; [lia|lra|lra|]. intros a Ha.
    apply pwl_bound; [lia|lra|lra|]. intros b Hb. now apply H. }
  split; [|exact Bp]. unfold map_coordinates. cbv zeta.
  destruct (nearest_float rows y ltac:(lia) Fy) as [-> Gy]. destruct (nearest_float cols x ltac:(lia) Fx) as [-> Gx].
  unfold p in *. clear p. set (yy := clip rows y) in *. set (xx := clip cols x) in *.
  change (nfloor (Some yy)) with (Rfloor yy). change (nfloor (Some xx)) with (Rfloor xx). rewrite !Z.add_0_r.
  pose proof (axis rows yy) as AX. pose proof (axis cols xx) as AY.
  destruct (AX (fun a => pwl cols (u a) xx) ltac:(lia) Ry) as [Ay By]. rewrite <- Ay in Bp |- *. cbv beta in *.
  destruct (AY (u (mirror rows (Rfloor yy))) ltac:(lia) Rx) as [A1 Bx]. rewrite <- A1 in Bp |- *.
  destruct (AY (u (mirror rows (Rfloor yy + 1))) ltac:(lia) Rx) as [A2 _]. rewrite <- A2 in Bp |- *.
  clear AX AY Ay A1 A2. pose proof (Rfloor_spec yy) as Sy. pose proof (Rfloor_spec xx) as Sx.
  set (r := Rfloor yy) in *. set (q := Rfloor xx) in *.
  destruct (H (mirror rows r) (mirror cols q)) as (-> & F1 & B1); [apply mirror_range; lia|apply mirror_range; lia|].
  destruct (H (mirror rows r) (mirror cols (q + 1))) as (-> & F2 & B2); [apply mirror_range; lia|apply mirror_range; lia|].
  destruct (H (mirror rows (r + 1)) (mirror cols q)) as (-> & F3 & B3); [apply mirror_range; lia|apply mirror_range; lia|].
  destruct (H (mirror rows (r + 1)) (mirror cols (q + 1))) as (-> & F4 & B4); [apply mirror_range; lia|apply mirror_range; lia|].
  set (a := u (mirror rows r) (mirror cols q)) in *. set (b := u (mirror rows r) (mirror cols (q + 1))) in *.
  set (c := u (mirror rows (r + 1)) (mirror cols q)) in *. set (d := u (mirror rows (r + 1)) (mirror cols (q + 1))) in *.
  clear H. clearbody a b c d. rename F1 into Fa, F2 into Fb, F3 into Fc, F4 into Fd, B1 into Ba, B2 into Bb, B3 into Bc, B4 into Bd.
  set (ty := yy - IZR r) in *. set (tx := xx - IZR q) in *. pose proof eps_64 as E.
  assert (NZ : forall z, (Z.abs z < 2 ^ 24)%Z -> nd (nz z) (IZR z) 0) by (intros z Hz; apply (near_nz b64 b32 pi64 m fine_64 z Hz)).
  assert (Ny : nd (nsub (Some yy) (nz r)) ty 2e-16).
  { eapply near_weaken; [|apply (near_sub b64 b32 pi64 m fine_64 _ _ _ _ 0 0 1 (near_0 _ _ Gy) (NZ r ltac:(lia)))]; [lra|rewrite (Rabs_pos_eq (yy - IZR r)) by lra; lra|unfold big; lra]. }
  assert (Nx : nd (nsub (Some xx) (nz q)) tx 2e-16).
  { eapply near_weaken; [|apply (near_sub b64 b32 pi64 m fine_64 _ _ _ _ 0 0 1 (near_0 _ _ Gx) (NZ q ltac:(lia)))]; [lra|rewrite (Rabs_pos_eq (xx - IZR q)) by lra; lra|unfold big; lra]. }
  assert (Ty : 0 <= ty <= 1) by (unfold ty; lra). assert (Tx : 0 <= tx <= 1) by (unfold tx; lra).
  set (nty := nsub (Some yy) (nz r)) in *. set (ntx := nsub (Some xx) (nz q)) in *. clearbody nty ntx.
  assert (Ny0 : nd (nsub (nz 1) nty) (1 - ty) 4e-16).
  { eapply near_weaken; [|apply (near_sub b64 b32 pi64 m fine_64 _ _ _ _ _ _ 1.1 (NZ 1%Z ltac:(lia)) Ny)]; [lra|rewrite (Rabs_pos_eq (1 - ty)) by lra; lra|unfold big; lra]. }
  assert (Nx0 : nd (nsub (nz 1) ntx) (1 - tx) 4e-16).
  { eapply near_weaken; [|apply (near_sub b64 b32 pi64 m fine_64 _ _ _ _ _ _ 1.1 (NZ 1%Z ltac:(lia)) Nx)]; [lra|rewrite (Rabs_pos_eq (1 - tx)) by lra; lra|unfold big; lra]. }
  assert (TERM : forall v wy wx sy sx, fl b32 v -> Rabs v <= top -> nd wy sy 4e-16 -> nd wx sx 4e-16 -> 0 <= sy <= 1 -> 0 <= sx <= 1 ->
    nd (nmul (nmul (Some v) wy) wx) (v * sy * sx) 1e-8).
  { intros v wy wx sy sx Fv Bv Wy Wx Sy' Sx'. unfold top in *.
    assert (N1 : nd (nmul (Some v) wy) (v * sy) 4e-9).
    { eapply near_weaken; [|apply (near_mul b64 b32 pi64 m fine_64 _ _ _ _ 0 4e-16 6371001 1 6371002 (near_0 _ _ (b32_b64 _ Fv)) Wy Bv)];
        [lra|rewrite Rabs_pos_eq; lra|lra|unfold big; lra]. }
    assert (M1 : Rabs (v * sy) <= 6371001).
    { rewrite Rabs_mult, (Rabs_pos_eq sy) by lra. pose proof (Rabs_pos v). assert (Rabs v * sy <= 6371001 * 1) by (apply Rmult_le_compat; lra). lra. }
    eapply near_weaken; [|apply (near_mul b64 b32 pi64 m fine_64 _ _ _ _ 4e-9 4e-16 6371001 1 6371002 N1 Wx M1)];
        [lra|rewrite Rabs_pos_eq; lra|lra|unfold big; lra]. }
  assert (W4 : forall w s, nd w s 2e-16 -> nd w s 4e-16) by (intros w s; apply near_weaken; lra).
  pose proof (TERM a _ _ _ _ Fa Ba Ny0 Nx0 ltac:(lra) ltac:(lra)) as T1.
  pose proof (TERM b _ _ _ _ Fb Bb Ny0 (W4 _ _ Nx) ltac:(lra) ltac:(lra)) as T2.
  pose proof (TERM c _ _ _ _ Fc Bc (W4 _ _ Ny) Nx0 ltac:(lra) ltac:(lra)) as T3.
  pose proof (TERM d _ _ _ _ Fd Bd (W4 _ _ Ny) (W4 _ _ Nx) ltac:(lra) ltac:(lra)) as T4.
  assert (P : forall v s t, Rabs v <= top -> 0 <= s <= 1 -> 0 <= t <= 1 -> Rabs (v * s * t) <= top).
  { intros v s t Bv Hs Ht. rewrite !Rabs_mult, (Rabs_pos_eq s), (Rabs_pos_eq t) by lra. pose proof (Rabs_pos v).
    replace top with (top * 1 * 1) by ring. repeat apply Rmult_le_compat; try lra. apply Rmult_le_pos; lra. }
  pose proof (P a (1 - ty) (1 - tx) Ba ltac:(lra) ltac:(lra)) as P1. pose proof (P b (1 - ty) tx Bb ltac:(lra) ltac:(lra)) as P2.
  pose proof (P c ty (1 - tx) Bc ltac:(lra) ltac:(lra)) as P3. pose proof (P d ty tx Bd ltac:(lra) ltac:(lra)) as P4. clear P TERM.
  replace ((a * (1 - tx) + b * tx) * (1 - ty) + (c * (1 - tx) + d * tx) * ty) with
    (0 + a * (1 - ty) * (1 - tx) + b * (1 - ty) * tx + c * ty * (1 - tx) + d * ty * tx) in Bp |- * by ring.
  set (t1 := a * (1 - ty) * (1 - tx)) in *. set (t2 := b * (1 - ty) * tx) in *. set (t3 := c * ty * (1 - tx)) in *. set (t4 := d * ty * tx) in *.
  set (n1 := nmul (nmul (Some a) (nsub (nz 1) nty)) (nsub (nz 1) ntx)) in *. set (n2 := nmul (nmul (Some b) (nsub (nz 1) nty)) ntx) in *.
  set (n3 := nmul (nmul (Some c) nty) (nsub (nz 1) ntx)) in *. set (n4 := nmul (nmul (Some d) nty) ntx) in *.
  clearbody t1 t2 t3 t4 n1 n2 n3 n4. unfold top in *.
  apply Rabs_le_inv in P1, P2, P3, P4.
  assert (S1 : nd (nadd (nz 0) n1) (0 + t1) 2e-8).
  { eapply near_weaken; [|apply (near_add b64 b32 pi64 m fine_64 _ _ _ _ _ _ 6371002 (NZ 0%Z ltac:(lia)) T1)]; [lra| |unfold big; lra].
    assert (Rabs (0 + t1) <= 6371001) by (apply Rabs_le; lra). lra. }
  assert (S2 : nd (nadd (nadd (nz 0) n1) n2) (0 + t1 + t2) 4e-8).
  { eapply near_weaken; [|apply (near_add b64 b32 pi64 m fine_64 _ _ _ _ _ _ 12742004 S1 T2)]; [lra| |unfold big; lra].
    assert (Rabs (0 + t1 + t2) <= 12742002) by (apply Rabs_le; lra). lra. }
  assert (S3 : nd (nadd (nadd (nadd (nz 0) n1) n2) n3) (0 + t1 + t2 + t3) 6e-8).
  { eapply near_weaken; [|apply (near_add b64 b32 pi64 m fine_64 _ _ _ _ _ _ 20000000 S2 T3)]; [lra| |unfold big; lra].
    assert (Rabs (0 + t1 + t2 + t3) <= 19113003) by (apply Rabs_le; lra). lra. }
  assert (S4 : nd (nadd (nadd (nadd (nadd (nz 0) n1) n2) n3) n4) (0 + t1 + t2 + t3 + t4) 8e-8).
  { eapply near_weaken; [|apply (near_add b64 b32 pi64 m fine_64 _ _ _ _ _ _ 26000000 S3 T4)]; [lra| |unfold big; lra].
    assert (Rabs (0 + t1 + t2 + t3 + t4) <= 25484004) by (apply Rabs_le; lra). lra. }
  eapply near_weaken; [|apply (near_f32 m _ _ 8e-8 6371002)]; [unfold h; lra| |lra|unfold usual; lra].
  eapply near_weaken; [|exact S4]. lra.
Qed.

(** ** Linear extrapolation from two rows *)
Lemma near_line f d o r (e : Z -> option R) a b D B : f = 2%Z \/ f = 4%Z -> (0 <= o)%Z -> (0 < d)%Z -> (o + d < 40)%Z -> (0 <= r < 40)%Z ->
  e o = Some a -> e (o + d)%Z = Some b -> fl b32 a -> fl b32 b -> Rabs (b - a) <= D -> Rabs b <= B -> 1 <= D <= 30000000 -> 1 <= B <= 30000000 ->
  let y := ypos f r in let yb := ypos f (o + d) in let ya := ypos f o in
  1 / 2 <= yb - ya <= 3 / 4 -> Rabs y <= 9.4 -> Rabs yb <= 9.4 -> Rabs (y - yb) <= 1.25 ->
  nf (line f d o e r) (b + (b - a) / (yb - ya) * (y - yb)) (h * (2.01 * B + 70 * D)).
Proof.
  intros Hf Ho Hd Hod Hr Ea Eb Fa Fb BD BB HD HB y yb ya Hdy By Byb Byy.
  destruct (y_exact f r Hf ltac:(lia)) as [Y1 F1]. destruct (y_exact f (o + d) Hf ltac:(lia)) as [Y2 F2]. destruct (y_exact f o Hf ltac:(lia)) as [Y3 F3].
  fold y in Y1, F1. fold yb in Y2, F2. fold ya in Y3, F3.
  assert (DY : fsub (Some yb) (Some ya) = Some (yb - ya) /\ fl b32 (yb - ya)).
  { assert (Q : exists z, (Z.abs z < 2 ^ 24)%Z /\ yb - ya = IZR z / 16).
    { unfold yb, ya, ypos. destruct Hf as [-> | ->]; [exists (8 * d)%Z|exists (4 * d)%Z]; (split; [lia|rewrite mult_IZR, plus_IZR; lra]). }
    destruct Q as (z & Hz & Ez). unfold fsub. cbn [nst nsub FI F64_32 FN bind2]. rewrite (e64 _ z Hz Ez). cbn [bind1]. split; [apply (e32 _ z Hz Ez)|].
    apply (fit_inv b32 good_b32 _ _ (e32 _ z Hz Ez)). }
  destruct DY as [DY FD]. unfold line. cbv zeta. rewrite Ea, Eb, Y1, Y2, Y3, DY.
  assert (N1 : nf (fsub (Some b) (Some a)) (b - a) (h * (1.001 * D))).
  { eapply near_weaken; [|apply (nf_sub m _ _ _ _ 0 0 (1.001 * D) (near_0 _ _ Fb) (near_0 _ _ Fa))]; [lra|lra|unfold usual; lra]. }
  assert (Q1 : Rabs ((b - a) / (yb - ya)) <= 2 * D).
  { unfold Rdiv. rewrite Rabs_mult, Rabs_inv, (Rabs_pos_eq (yb - ya)) by lra. rewrite Rmult_comm. apply Rmult_le_compat; auto using Rabs_pos.
    - left. apply Rinv_0_lt_compat. lra.
    - replace 2 with (/ (1 / 2)) by lra. apply Rinv_le_contravar; lra. }
  assert (N2 : nf (fdiv (fsub (Some b) (Some a)) (Some (yb - ya))) ((b - a) / (yb - ya)) (h * (4.01 * D))).
  { eapply near_weaken; [|apply (nf_div m _ _ _ _ _ 0 (2 * D) (1 / 2) (2.001 * D) N1 (near_0 _ _ FD) Q1)].
    - unfold h. lra.
    - rewrite (Rabs_pos_eq (yb - ya)) by lra. lra.
    - lra.
    - unfold h. lra.
    - unfold usual. lra. }
  destruct N2 as (mu & -> & Fm & Dm). set (sl := (b - a) / (yb - ya)) in *.
  assert (Bm : Rabs mu <= 2.001 * D).
  { replace mu with ((mu - sl) + sl) by ring. eapply Rle_trans; [apply Rabs_triang|]. unfold h in Dm. lra. }
  assert (MY : forall t, Rabs t <= 9.4 -> Rabs (mu * t) <= 18.81 * D).
  { intros t Ht. rewrite Rabs_mult. replace (18.81 * D) with (2.001 * D * (18.81 / 2.001)) by (field; lra). apply Rmult_le_compat; auto using Rabs_pos. lra. }
  pose proof (near_0 _ _ Fm) as Nm.
  assert (N3 : nf (fmul (Some mu) (Some yb)) (mu * yb) (h * (18.82 * D))).
  { eapply near_weaken; [|apply (nf_mul m _ _ _ _ 0 0 (2.001 * D) 9.4 (18.82 * D) Nm (near_0 _ _ F2) Bm Byb)]; [unfold h; lra|lra|unfold usual; lra]. }
  assert (N4 : nf (fmul (Some mu) (Some y)) (mu * y) (h * (18.82 * D))).
  { eapply near_weaken; [|apply (nf_mul m _ _ _ _ 0 0 (2.001 * D) 9.4 (18.82 * D) Nm (near_0 _ _ F1) Bm By)]; [unfold h; lra|lra|unfold usual; lra]. }
  pose proof (MY yb Byb) as M1. pose proof (MY y By) as M2.
  assert (N5 : nf (fsub (Some b) (fmul (Some mu) (Some yb))) (b - mu * yb) (h * (B + 38 * D))).
  { eapply near_weaken; [|apply (nf_sub m _ _ _ _ 0 _ (B + 18.9 * D) (near_0 _ _ Fb) N3)]; [unfold h; lra| |unfold usual; lra].
    pose proof (Rabs_triang b (- (mu * yb))) as T. rewrite Rabs_Ropp in T. unfold Rminus. unfold h. lra. }
  assert (M3 : Rabs (mu * (y - yb)) <= 2.6 * D).
  { rewrite Rabs_mult. replace (2.6 * D) with (2.001 * D * (2.6 / 2.001)) by (field; lra). apply Rmult_le_compat; auto using Rabs_pos. lra. }
  assert (E : mu * y + (b - mu * yb) = b + mu * (y - yb)) by ring.
  assert (N6 : nf (fadd (fmul (Some mu) (Some y)) (fsub (Some b) (fmul (Some mu) (Some yb)))) (mu * y + (b - mu * yb)) (h * (2.01 * B + 60 * D))).
  { eapply near_weaken; [|apply (nf_add m _ _ _ _ _ _ (1.001 * B + 2.7 * D) N4 N5)]; [unfold h; lra| |unfold usual; lra].
    rewrite E. pose proof (Rabs_triang b (mu * (y - yb))) as T. unfold h. lra. }
  rewrite E in N6. eapply near_move; [|exact N6].
  replace (b + mu * (y - yb) - (b + sl * (y - yb))) with ((mu - sl) * (y - yb)) by ring. rewrite Rabs_mult.
  assert (Rabs (mu - sl) * Rabs (y - yb) <= h * (4.01 * D) * 1.25) by (apply Rmult_le_compat; auto using Rabs_pos). unfold h in *. lra.
Qed.

(** ** One component of the position *)
Section Final.
Context (f cols : Z) (Hf : f = 2%Z \/ f = 4%Z) (Hcols : (2 <= cols < 2 ^ 22)%Z).
Context (nav : Z -> Z -> option R) (u : Z -> Z -> R) (S : R) (HS : 1 <= S <= 13000000).
Context (Hnav : forall a b, (0 <= a < 10)%Z -> (0 <= b < cols)%Z -> nav a b = Some (u a b) /\ fl b32 (u a b) /\ Rabs (u a b) <= top).
Context (Hv : forall a b, (0 <= a < 9)%Z -> (0 <= b < cols)%Z -> Rabs (u (a + 1)%Z b - u a b) <= S).
Context (Hh : forall a, (0 <= a < 10)%Z -> Rabs (u a (cols - 1)%Z - u a (cols - 2)%Z) <= S).

Definition target (r i : Z) : R := pwl 10 (fun a => pwl cols (u a) (xpos2 f i)) (clip 10 (ypos f r)).
Lemma mapped_near r i : (0 <= r < f * 10)%Z -> (0 <= i < f * cols)%Z ->
  let p := pwl 10 (fun a => pwl cols (u a) (clip cols (xpos2 f i))) (clip 10 (ypos f r)) in
  nf (mapped f 10 cols nav r i) p 0.39 /\ Rabs p <= top.
Proof.
  intros Hr Hi p. unfold mapped. destruct (y_exact f r Hf) as [Y FY]; [lia|].
  destruct (x_exact f i Hf) as [X FX].
  - lia.
  - destruct Hf as [-> | ->]; [change (4 / 2)%Z with 2%Z|change (4 / 4)%Z with 1%Z]; lia.
  - rewrite Y, X. apply (near_map 10 cols nav u); try lia; try (now apply b32_b64). exact Hnav.
Qed.
(** the same over the reals, of the values in floats *)
Lemma step_right r i : (0 <= r < f * 10)%Z -> (f * (cols - 1) < i < f * cols)%Z ->
  let p := pwl 10 (fun a => pwl cols (u a) (clip cols (xpos2 f i))) (clip 10 (ypos f r)) in
  let p1 := pwl 10 (fun a => pwl cols (u a) (clip cols (xpos2 f (f * (cols - 1))))) (clip 10 (ypos f r)) in
  let p0 := pwl 10 (fun a => pwl cols (u a) (clip cols (xpos2 f (f * (cols - 1) - 1)))) (clip 10 (ypos f r)) in
  target r i = p + (p1 - p0) * IZR (i - f * (cols - 1)) /\ Rabs (p1 - p0) <= S / IZR f.
Proof.
  intros Hr Hi p p1 p0.
  assert (FP : 2 <= IZR f <= 4) by (split; apply IZR_le; lia).
  pose proof (extended_real f cols Hf ltac:(lia) (fun a b => Some (u a b)) u (fun _ _ _ _ => eq_refl) r i ltac:(lia)) as E.
  unfold extended in E.
  replace (if (f =? 4)%Z then 3%Z else 1%Z) with (f - 1)%Z in E by (destruct Hf as [-> | ->]; reflexivity).
  rewrite (proj2 (Z.ltb_ge i (f * cols - (f - 1)))) in E by lia.
  rewrite !(mapped_real f cols Hf ltac:(lia) (fun a b => Some (u a b)) u (fun _ _ _ _ => eq_refl)) in E.
  replace (f * cols - (f - 1) - 1)%Z with (f * (cols - 1))%Z in E by ring. replace (f * cols - (f - 1) - 2)%Z with (f * (cols - 1) - 1)%Z in E by ring.
  replace (i - (f * cols - (f - 1)) + 1)%Z with (i - f * (cols - 1))%Z in E by ring.
  unfold fadd, fmul, fsub in E. cbn [nst nadd nmul nsub nz RN lift2] in E. injection E as E. split; [symmetry; exact E|].
  unfold p1, p0. rewrite pwl_sub. replace (S / IZR f) with ((1 + 2 * 0) * (S / IZR f)) by ring.
  pose proof (clip_range 10 (ypos f r) ltac:(lia)) as Ry. apply pwl_bound; [lia|lra|lra|]. intros a Ha.
  assert (X1 : xpos2 f (f * (cols - 1)) = IZR (cols - 1)) by (unfold xpos2; rewrite mult_IZR; field; lra).
  assert (X2 : xpos2 f (f * (cols - 1) - 1) = IZR (cols - 1) - / IZR f) by (unfold xpos2; rewrite minus_IZR, mult_IZR; field; lra).
  assert (I1 : IZR (cols - 1) = IZR (cols - 2) + 1) by (rewrite <- plus_IZR; f_equal; ring).
  assert (C0 : 0 <= IZR (cols - 2)) by (apply (IZR_le 0); lia).
  assert (IV : 0 <= / IZR f <= 1 / 2) by (destruct Hf as [-> | ->]; lra).
  rewrite X1, X2, !clip_id by lra. rewrite !(pwl_piece cols (u a) _ (cols - 2)) by (lia || (right; lra) || (left; reflexivity)).
  rewrite I1. replace (cols - 2 + 1)%Z with (cols - 1)%Z by ring.
  replace (u a (cols - 2)%Z + (IZR (cols - 2) + 1 - IZR (cols - 2)) * (u a (cols - 1)%Z - u a (cols - 2)%Z) -
    (u a (cols - 2)%Z + (IZR (cols - 2) + 1 - / IZR f - IZR (cols - 2)) * (u a (cols - 1)%Z - u a (cols - 2)%Z)))
    with ((u a (cols - 1)%Z - u a (cols - 2)%Z) * / IZR f) by ring.
  rewrite Rabs_mult, (Rabs_pos_eq (/ IZR f)) by lra. apply Rmult_le_compat_r; [lra|]. apply Hh. exact Ha.
Qed.

Definition ext : Z -> Z -> option R := extended (f * cols) (if (f =? 4)%Z then 3 else 1) (mapped f 10 cols nav).
Lemma inner_near r i : (0 <= r < f * 10)%Z -> (0 <= i <= f * (cols - 1))%Z -> nf (ext r i) (target r i) 0.39 /\ Rabs (target r i) <= top.
Proof.
  intros Hr Hi. destruct (mapped_near r i Hr ltac:(lia)) as [M B].
  assert (FP : 2 <= IZR f <= 4) by (split; apply IZR_le; lia).
  assert (X : clip cols (xpos2 f i) = xpos2 f i).
  { apply clip_id. unfold xpos2. split.
    - apply Rmult_le_pos; [apply (IZR_le 0); lia|]. left. apply Rinv_0_lt_compat. lra.
    - apply (Rmult_le_reg_r (IZR f)); [lra|]. replace (IZR i / IZR f * IZR f)%R with (IZR i) by (field; lra).
      rewrite <- mult_IZR. apply IZR_le. lia. }
  cbv zeta in M, B. rewrite X in M, B. unfold ext, extended.
  replace (if (f =? 4)%Z then 3%Z else 1%Z) with (f - 1)%Z by (destruct Hf as [-> | ->]; reflexivity).
  rewrite (proj2 (Z.ltb_lt i (f * cols - (f - 1)))) by lia. split; [exact M|exact B].
Qed.
Lemma outer_near r i : (0 <= r < f * 10)%Z -> (0 <= i < f * cols)%Z -> nf (ext r i) (target r i) (3.2 + 2.5e-7 * S) /\ Rabs (target r i) <= top + S.
Proof.
  intros Hr Hi. destruct (Z.le_gt_cases i (f * (cols - 1))) as [L|L].
  - destruct (inner_near r i Hr ltac:(lia)) as [M B]. split; [eapply near_weaken; [|exact M]; lra|lra].
  - destruct (step_right r i Hr ltac:(lia)) as [E1 E2].
    destruct (mapped_near r i Hr ltac:(lia)) as [M B]. destruct (mapped_near r (f * (cols - 1)) Hr ltac:(nia)) as [M1 B1].
    destruct (mapped_near r (f * (cols - 1) - 1) Hr ltac:(nia)) as [M0 B0].
    cbv zeta in E1, E2, M, B, M1, B1, M0, B0. unfold ext, extended.
    replace (if (f =? 4)%Z then 3%Z else 1%Z) with (f - 1)%Z by (destruct Hf as [-> | ->]; reflexivity).
    rewrite (proj2 (Z.ltb_ge i (f * cols - (f - 1)))) by lia.
    replace (f * cols - (f - 1) - 1)%Z with (f * (cols - 1))%Z by ring. replace (f * cols - (f - 1) - 2)%Z with (f * (cols - 1) - 1)%Z by ring.
    replace (i - (f * cols - (f - 1)) + 1)%Z with (i - f * (cols - 1))%Z by ring.
    rewrite E1. set (k := (i - f * (cols - 1))%Z) in *. assert (Hk : (1 <= k <= f - 1)%Z) by (unfold k; lia).
    set (p := pwl 10 (fun a => pwl cols (u a) (clip cols (xpos2 f i))) (clip 10 (ypos f r))) in *.
    set (p1 := pwl 10 (fun a => pwl cols (u a) (clip cols (xpos2 f (f * (cols - 1))))) (clip 10 (ypos f r))) in *.
    set (p0 := pwl 10 (fun a => pwl cols (u a) (clip cols (xpos2 f (f * (cols - 1) - 1)))) (clip 10 (ypos f r))) in *.
    clearbody p p1 p0. clear E1. unfold top in *.
    assert (KF : Rabs ((p1 - p0) * IZR k) <= S /\ 1 <= IZR k <= 3 /\ Rabs (p1 - p0) <= S / 2).
    { assert (K1 : 1 <= IZR k <= IZR f - 1) by (split; [apply IZR_le; lia|rewrite <- minus_IZR; apply IZR_le; lia]).
      pose proof (Rabs_pos (p1 - p0)) as P0.
      destruct Hf as [-> | ->]; (split; [rewrite Rabs_mult, (Rabs_pos_eq (IZR k)) by lra|split; lra]).
      - assert (Rabs (p1 - p0) * IZR k <= S / 2 * 1) by (apply Rmult_le_compat; lra). lra.
      - assert (Rabs (p1 - p0) * IZR k <= S / 4 * 3) by (apply Rmult_le_compat; lra). lra. }
    destruct KF as (K1 & K2 & K3). clear E2.
    assert (N1 : nf (fsub (mapped f 10 cols nav r (f * (cols - 1))) (mapped f 10 cols nav r (f * (cols - 1) - 1))) (p1 - p0) (0.78 + h * (S / 2 + 1))).
    { eapply near_weaken; [|apply (nf_sub m _ _ _ _ _ _ (S / 2 + 1) M1 M0)]; [lra|lra|unfold usual; lra]. }
    assert (N2 : nf (fmul (fsub (mapped f 10 cols nav r (f * (cols - 1))) (mapped f 10 cols nav r (f * (cols - 1) - 1))) (nz k)) ((p1 - p0) * IZR k) (2.3401 + h * (3.01 * S))).
    { set (d := fsub (mapped f 10 cols nav r (f * (cols - 1))) (mapped f 10 cols nav r (f * (cols - 1) - 1))) in *. clearbody d.
      destruct N1 as (v & -> & Fv & Ev). pose proof (nf_nz m k ltac:(lia)) as Nk.
      destruct Nk as (kk & Ek & Fk & Dk). change (@nz _ (FS m) k) with (@nz _ FI k) in Ek. rewrite Ek.
      assert (kk = IZR k) by (apply Rabs_le_inv in Dk; lra). subst kk.
      assert (VK : Rabs (v * IZR k - (p1 - p0) * IZR k) <= (0.78 + h * (S / 2 + 1)) * 3).
      { replace (v * IZR k - (p1 - p0) * IZR k) with ((v - (p1 - p0)) * IZR k) by ring. rewrite Rabs_mult, (Rabs_pos_eq (IZR k)) by lra.
        apply Rmult_le_compat; auto using Rabs_pos; lra. }
      assert (BV : Rabs (v * IZR k) <= 1.001 * S + 2.4).
      { replace (v * IZR k) with ((v * IZR k - (p1 - p0) * IZR k) + (p1 - p0) * IZR k) by ring. eapply Rle_trans; [apply Rabs_triang|]. unfold h in VK. lra. }
      eapply near_move; [|apply (nf_mul m _ _ _ _ 0 0 (Rabs v) (IZR k) (1.001 * S + 2.4) (near_0 _ _ Fv) (near_0 _ _ Fk) (Rle_refl _))].
      - unfold h in *. lra.
      - rewrite Rabs_pos_eq; lra.
      - rewrite <- (Rabs_pos_eq (IZR k)) at 1 by lra. rewrite <- Rabs_mult. lra.
      - unfold usual. lra. }
    split.
    + pose proof (Rabs_triang p ((p1 - p0) * IZR k)) as T.
      eapply near_weaken; [|apply (nf_add m _ _ _ _ _ _ (6371001 + 1.01 * S + 3) M N2)]; [unfold h; lra|unfold h; lra|unfold usual; lra].
    + pose proof (Rabs_triang p ((p1 - p0) * IZR k)) as T. lra.
Qed.
Definition goal (r i : Z) : R := pwl 10 (fun a => pwl cols (u a) (xpos2 f i)) (ypos f r).
(** rows between the first and the last tie row, columns up to the last tie column *)
Definition between (r i : Z) : Prop := (f <= 2 * r + 1 /\ 2 * r + 1 <= 19 * f /\ i <= f * (cols - 1))%Z.
Lemma finished_near r i : (0 <= r < f * 10)%Z -> (0 <= i < f * cols)%Z -> nf (fine_comp2 f 10 cols nav r i) (goal r i) (10.4 + 9e-6 * S).
Proof.
  intros Hr Hi. unfold fine_comp2. fold ext.
  assert (Y : forall j, ypos f j = IZR j / IZR f - (IZR f / 16 + 1 / 8)) by reflexivity.
  assert (XB : - 0.75 <= xpos2 f i <= IZR (cols - 1) + 0.75).
  { unfold xpos2. assert (0 <= IZR i <= IZR f * IZR (cols - 1) + IZR f - 1).
    { split; [apply (IZR_le 0); lia|]. rewrite <- mult_IZR, <- plus_IZR, <- minus_IZR. apply IZR_le. lia. }
    destruct Hf as [-> | ->]; lra. }
  pose proof (finished_real f cols Hf ltac:(lia) (fun a b => Some (u a b)) u (fun _ _ _ _ => eq_refl) r i Hr Hi) as E.
  unfold fine_comp2 in E. fold (goal r i) in E.
  set (eR := @extended _ RN (f * cols) (if (f =? 4)%Z then 3%Z else 1%Z) (@mapped _ RN f 10 cols (fun a b => Some (u a b)))) in E.
  assert (ER : forall r', eR r' i = Some (target r' i)) by (intros r'; apply (extended_real f cols Hf ltac:(lia) (fun a b => Some (u a b)) u (fun _ _ _ _ => eq_refl) r' i Hi)).
  assert (KEEP : (0 <= r < f * 10)%Z -> eR r i = Some (goal r i) -> nf (ext r i) (goal r i) (10.4 + 9e-6 * S)).
  { intros _ EQ. rewrite ER in EQ. injection EQ as <-. destruct (outer_near r i Hr Hi) as [N _]. eapply near_weaken; [|exact N]. lra. }
  assert (LINE : forall d o c, (0 <= o)%Z -> (0 < d)%Z -> (o + d < f * 10)%Z -> (0 <= c <= 8)%Z ->
    @line _ RN f d o (fun a => eR a i) r = Some (goal r i) ->
    let y := ypos f r in let yb := ypos f (o + d) in let ya := ypos f o in
    1 / 2 <= yb - ya <= 3 / 4 -> Rabs y <= 9.4 -> IZR c <= ya -> yb <= IZR c + 1 -> -2 * (yb - ya) <= y - yb <= yb - ya -> Rabs (y - yb) <= 1.25 ->
    nf (line f d o (fun a => ext a i) r) (goal r i) (10.4 + 9e-6 * S)).
  { intros d o c Ho Hd Hod Hc EQ y yb ya Hdy By Hca Hcb Ht Byy.
    assert (C8 : 0 <= IZR c <= 8) by (split; apply IZR_le; lia).
    unfold line in EQ. cbv zeta in EQ. rewrite !ER, !y_real in EQ by lia. fold y yb ya in EQ.
    unfold fadd, fsub, fmul, fdiv in EQ. cbn [nst nadd nmul nsub ndiv RN lift2] in EQ. rewrite RNdiv_some in EQ by lra. cbn [lift2] in EQ. injection EQ as EQ.
    destruct (outer_near o i ltac:(lia) Hi) as [Na _]. destruct (outer_near (o + d) i ltac:(lia) Hi) as [Nb Bb].
    assert (PQ : Rabs (target (o + d) i - target o i) <= 1.875 * S).
    { unfold target. fold yb ya. rewrite !clip_id by (change (10 - 1)%Z with 9%Z; lra).
      rewrite (pwl_piece 10 _ yb c), (pwl_piece 10 _ ya c) by (lia || (right; lra)).
      replace (pwl cols (u c) (xpos2 f i) + (yb - IZR c) * (pwl cols (u (c + 1)%Z) (xpos2 f i) - pwl cols (u c) (xpos2 f i)) -
        (pwl cols (u c) (xpos2 f i) + (ya - IZR c) * (pwl cols (u (c + 1)%Z) (xpos2 f i) - pwl cols (u c) (xpos2 f i))))
        with ((yb - ya) * (pwl cols (u (c + 1)%Z) (xpos2 f i) - pwl cols (u c) (xpos2 f i))) by ring.
      rewrite Rabs_mult, (Rabs_pos_eq (yb - ya)) by lra.
      assert (Rabs (pwl cols (u (c + 1)%Z) (xpos2 f i) - pwl cols (u c) (xpos2 f i)) <= (1 + 2 * 0.75) * S).
      { apply pwl_close; [lia|lra|lra|]. intros b Hb. apply Hv; lia. }
      replace (1.875 * S) with (3 / 4 * ((1 + 2 * 0.75) * S)) by lra. apply Rmult_le_compat; auto using Rabs_pos; lra. }
    destruct Na as (a & Ea & Fa & Da). destruct Nb as (b & Eb & Fb & Db).
    set (p := target o i) in *. set (q := target (o + d) i) in *.
    assert (AB : Rabs (b - a) <= 1.88 * S + 6.5).
    { replace (b - a) with ((b - q) + (q - p) + (p - a)) by ring. eapply Rle_trans; [apply Rabs_triang|].
      eapply Rle_trans; [apply Rplus_le_compat_r, Rabs_triang|]. rewrite (Rabs_minus_sym p a). lra. }
    assert (BB : Rabs b <= 6371005 + 1.001 * S).
    { replace b with ((b - q) + q) by ring. eapply Rle_trans; [apply Rabs_triang|]. unfold top in Bb. lra. }
    assert (Byb : Rabs yb <= 9.4) by (apply Rabs_le; lra).
    pose proof (near_line f d o r (fun a => ext a i) a b (1.88 * S + 6.5) (6371005 + 1.001 * S) Hf Ho Hd ltac:(lia) ltac:(lia) Ea Eb Fa Fb AB BB
      ltac:(lra) ltac:(lra) Hdy By Byb Byy) as NL.
    fold y yb ya in NL. rewrite <- EQ. eapply near_move; [|exact NL].
    set (t := (y - yb) / (yb - ya)).
    assert (T : -2 <= t <= 1).
    { unfold t. split; (apply Rmult_le_reg_r with (yb - ya); [lra|]); unfold Rdiv; rewrite Rmult_assoc, Rinv_l, ?Rmult_1_r by lra; lra. }
    replace (b + (b - a) / (yb - ya) * (y - yb) - ((q - p) / (yb - ya) * y + (q - (q - p) / (yb - ya) * yb)))
      with ((b - q) * (1 + t) + (p - a) * t) by (unfold t; field; lra).
    assert (Rabs ((b - q) * (1 + t) + (p - a) * t) <= 3 * (3.2 + 2.5e-7 * S)).
    { eapply Rle_trans; [apply Rabs_triang|]. rewrite !Rabs_mult, (Rabs_minus_sym p a).
      assert (Rabs (b - q) * Rabs (1 + t) <= (3.2 + 2.5e-7 * S) * Rabs (1 + t)) by (apply Rmult_le_compat_r; auto using Rabs_pos).
      assert (Rabs (a - p) * Rabs t <= (3.2 + 2.5e-7 * S) * Rabs t) by (apply Rmult_le_compat_r; auto using Rabs_pos).
      assert (Rabs (1 + t) + Rabs t <= 3) by (unfold Rabs; destruct (Rcase_abs (1 + t)), (Rcase_abs t); lra).
      assert ((3.2 + 2.5e-7 * S) * (Rabs (1 + t) + Rabs t) <= (3.2 + 2.5e-7 * S) * 3) by (apply Rmult_le_compat_l; lra). lra. }
    unfold h. lra. }
  unfold finished in E |- *. destruct Hf as [Ef|Ef]; rewrite Ef in *; cbn [Z.eqb Pos.eqb Z.mul Pos.mul Pos.add] in *.
  - assert (Y' : forall j, ypos 2 j = (IZR j / 2 - 1 / 4)%R) by (intros; unfold ypos; lra).
    destruct (Z.eqb_spec r 0) as [-> |]; [|destruct (Z.eqb_spec r 19) as [-> |]].
    + apply (LINE 1 1 0)%Z; rewrite ?Y'; cbn [Z.add Pos.add]; try lia; try lra; try exact E; apply Rabs_le; lra.
    + apply (LINE 1 17 8)%Z; rewrite ?Y'; cbn [Z.add Pos.add Pos.succ]; try lia; try lra; try exact E; apply Rabs_le; lra.
    + apply KEEP; [lia|exact E].
  - assert (Y' : forall j, ypos 4 j = (IZR j / 4 - 3 / 8)%R) by (intros; unfold ypos; lra).
    destruct (Z.ltb_spec r 2); [|destruct (Z.leb_spec 38 r)].
    + assert (RB : (0 <= IZR r <= 1)%R) by (split; apply IZR_le; lia).
      apply (LINE 3 2 0)%Z; rewrite ?Y'; cbn [Z.add Pos.add Pos.succ]; try lia; try lra; try exact E; apply Rabs_le; lra.
    + destruct (Z.ltb_spec r 40); [|lia]. cbn [andb] in *. assert (RB : (38 <= IZR r <= 39)%R) by (split; apply IZR_le; lia).
      apply (LINE 3 34 8)%Z; rewrite ?Y'; cbn [Z.add Pos.add Pos.succ]; try lia; try lra; try exact E; apply Rabs_le; lra.
    + cbn [andb] in *. apply KEEP; [lia|exact E].
Qed.
Lemma between_near r i : (0 <= r < f * 10)%Z -> (0 <= i < f * cols)%Z -> between r i -> nf (fine_comp2 f 10 cols nav r i) (goal r i) 0.39.
Proof.
  intros Hr Hi (B1 & B2 & B3).
  pose proof (finished_real f cols Hf ltac:(lia) (fun a b => Some (u a b)) u (fun _ _ _ _ => eq_refl) r i Hr Hi) as E. fold (goal r i) in E.
  destruct (inner_near r i Hr ltac:(lia)) as [N _].
  assert (Q : ypos f r = clip 10 (ypos f r)).
  { symmetry. apply clip_id. apply IZR_le in B1, B2. rewrite plus_IZR, (mult_IZR 2) in B1. rewrite plus_IZR, (mult_IZR 2), (mult_IZR 19) in B2. change (10 - 1)%Z with 9%Z. unfold ypos. destruct Hf as [Ef|Ef]; rewrite Ef in *; lra. }
  unfold goal. rewrite Q. fold (target r i). unfold fine_comp2. fold ext. unfold finished.
  destruct Hf as [Ef|Ef]; rewrite Ef in *; cbn [Z.eqb Pos.eqb].
  - destruct (Z.eqb_spec r 0); [lia|]. destruct (Z.eqb_spec r 19); [lia|]. exact N.
  - destruct (Z.ltb_spec r 2); [lia|]. destruct (Z.leb_spec 38 r); [lia|]. exact N.
Qed.
End Final.
End Simple.
