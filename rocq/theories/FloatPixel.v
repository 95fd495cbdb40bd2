(** Rounding errors of the positions of the fine pixels (_modis_interpolator.pyx:328-398, _modis_utils.pyx:20-41) on float arrays. *)
From Coq Require Import ZArith Lia Bool Reals Lra.
From Flocq.Core Require Import Core.
From Verif Require Import Base Num Geo GeoProofs Modis ModisProofs ModisAngles PiBound Float FloatGeo FloatAcc FloatTrip PropsFloatTrip FloatNear FloatModis PropsSimple.
Open Scope R_scope.

(** ** Halves are exact *)
Lemma fl_half g z : good g -> (24 <= fprec g)%Z -> (femin g <= -1)%Z -> (Z.abs z < 2 ^ 24)%Z -> fl g (IZR z / 2).
Proof.
  intros G P E H. assert (F : IZR z / 2 = F2R (Float radix2 z (-1))) by (unfold F2R; cbn [Fnum Fexp]; change (bpow radix2 (-1)) with (/ 2); reflexivity).
  split.
  - rewrite F. apply generic_format_FLT. exists (Float radix2 z (-1)); [reflexivity| |exact E]. cbn [Fnum].
    eapply Z.lt_le_trans; [exact H|]. apply (Z.pow_le_mono_r 2); lia.
  - apply Rlt_le_trans with (bpow radix2 24).
    + unfold Rdiv. rewrite Rabs_mult, (Rabs_pos_eq (/ 2)) by lra. rewrite <- abs_IZR. apply IZR_lt in H.
      rewrite bpow_Z by lia. change (IZR (2 ^ 24)) with 16777216 in *. assert (0 <= IZR (Z.abs z)) by (apply IZR_le; lia). lra.
    + apply bpow_le. destruct G as (_ & _ & G). lia.
Qed.

Section Pixel.
Variable m : libm.
Hypothesis Ha : accurate b64 m.
#[local] Instance FP : NumOps (option R) := F64_32 m.
Notation nf := (near b32).
Notation nd := (near b64).

Lemma fit64_half z : (Z.abs z < 2 ^ 24)%Z -> fit b64 (IZR z / 2) = Some (IZR z / 2).
Proof. intros H. apply fit_fl. apply fl_half; [apply good_b64|cbn; lia|cbn; lia|exact H]. Qed.
Lemma fit32_half z : (Z.abs z < 2 ^ 24)%Z -> fit b32 (IZR z / 2) = Some (IZR z / 2).
Proof. intros H. apply fit_fl. apply fl_half; [apply good_b32|cbn; lia|cbn; lia|exact H]. Qed.
Lemma fit64_Z z : (Z.abs z < 2 ^ 24)%Z -> fit b64 (IZR z) = Some (IZR z).
Proof. intros H. apply fit_IZR; [apply good_b64|cbn; lia|exact H]. Qed.
Lemma fit32_Z z : (Z.abs z < 2 ^ 24)%Z -> fit b32 (IZR z) = Some (IZR z).
Proof. intros H. apply fit_IZR; [apply good_b32|cbn; lia|exact H]. Qed.

Lemma xc_exact c i : (Z.abs (xpos c i) < 2 ^ 24)%Z -> xc c i = Some (IZR (xpos c i)) /\ fl b32 (IZR (xpos c i)).
Proof.
  intros H. unfold xc. cbn [nst nz FP F64_32 FN bind1]. rewrite fit64_Z by exact H. cbn [bind1]. rewrite fit32_Z by exact H. split; [reflexivity|].
  apply (fit_inv b32 good_b32 _ _ (fit32_Z _ H)).
Qed.
Lemma yc_exact c j : (0 < ff c <= 100)%Z -> (0 <= j < 10000)%Z -> (0 <= scl c <= 10)%Z -> yc c j = Some (@yc _ RT c j) /\ fl b32 (@yc _ RT c j).
Proof.
  intros Hf Hj Hs. assert (Hd : (0 <= ff c / 2 <= 100)%Z) by (split; [apply Z.div_pos; lia|apply Z.div_le_upper_bound; lia]).
  assert (Hm : (0 <= (j + ff c / 2) mod ff c < 100)%Z) by (pose proof (Z.mod_pos_bound (j + ff c / 2) (ff c) ltac:(lia)); lia).
  assert (Q : forall z : Z, (Z.abs z < 2 ^ 24)%Z -> fl b32 (IZR z / 2)) by (intros z Hz; apply fl_half; [apply good_b32|cbn; lia|cbn; lia|exact Hz]).
  assert (HH : half = Some (1 / 2)).
  { unfold half. cbn [ndiv nz FP F64_32 FN]. rewrite !fit64_Z by lia. cbn [bind2]. destruct (Req_EM_T 2 0) as [Z|_]; [lra|]. apply (fit64_half 1). lia. }
  unfold yc. rewrite HH. cbv zeta. destruct (scl c =? 10)%Z.
  - set (h := (ff c / 2)%Z) in *. destruct (j <? h)%Z; [|destruct (scl c * ff c - h <=? j)%Z].
    + assert (E : @nst _ RT (@nsub _ RT (@nadd _ RT (@half _ RT) (@nz _ RT j)) (@nz _ RT h)) = IZR (1 + 2 * j - 2 * h) / 2).
      { unfold half. cbn [nst nsub nadd nz ndiv RT]. rewrite minus_IZR, plus_IZR, !mult_IZR. field. }
      rewrite E. split; [|apply Q; lia]. cbn [nst nsub nadd nz FP F64_32 FN bind2]. rewrite !fit64_Z by lia. cbn [bind2].
      replace (1 / 2 + IZR j) with (IZR (1 + 2 * j) / 2) by (rewrite plus_IZR, mult_IZR; field). rewrite fit64_half by lia. cbn [bind2].
      replace (IZR (1 + 2 * j) / 2 - IZR h) with (IZR (1 + 2 * j - 2 * h) / 2) by (rewrite minus_IZR, (mult_IZR 2 h); field).
      rewrite fit64_half by lia. cbn [bind1]. apply fit32_half. lia.
    + set (q := (h - (scl c * ff c - j))%Z). assert (Hq : (-2000 <= q <= 20000)%Z) by (unfold q; nia).
      assert (E : @nst _ RT (@nadd _ RT (@nadd _ RT (@nz _ RT (ff c)) (@half _ RT)) (@nz _ RT q)) = IZR (2 * ff c + 1 + 2 * q) / 2).
      { unfold half. cbn [nst nsub nadd nz ndiv RT]. rewrite !plus_IZR, !mult_IZR. field. }
      rewrite E. split; [|apply Q; lia]. cbn [nst nsub nadd nz FP F64_32 FN bind2]. rewrite !fit64_Z by lia. cbn [bind2].
      replace (IZR (ff c) + 1 / 2) with (IZR (2 * ff c + 1) / 2) by (rewrite plus_IZR, mult_IZR; field). rewrite fit64_half by lia. cbn [bind2].
      replace (IZR (2 * ff c + 1) / 2 + IZR q) with (IZR (2 * ff c + 1 + 2 * q) / 2) by (rewrite (plus_IZR _ (2 * q)), (mult_IZR 2 q); field).
      rewrite fit64_half by lia. cbn [bind1]. apply fit32_half. lia.
    + set (q := ((j + h) mod ff c)%Z) in *.
      assert (E : @nst _ RT (@nadd _ RT (@nz _ RT q) (@half _ RT)) = IZR (2 * q + 1) / 2).
      { unfold half. cbn [nst nsub nadd nz ndiv RT]. rewrite !plus_IZR, !mult_IZR. field. }
      rewrite E. split; [|apply Q; lia]. cbn [nst nsub nadd nz FP F64_32 FN bind2]. rewrite !fit64_Z by lia. cbn [bind2].
      replace (IZR q + 1 / 2) with (IZR (2 * q + 1) / 2) by (rewrite plus_IZR, mult_IZR; field). rewrite fit64_half by lia. cbn [bind1]. apply fit32_half. lia.
  - cbn [nst nz RT FP F64_32 FN bind1]. rewrite fit64_Z by lia. cbn [bind1]. rewrite fit32_Z by lia. split; [reflexivity|].
    apply (fit_inv b32 good_b32 _ _ (fit32_Z (j - 2) ltac:(lia))).
Qed.

(** ** The corners of a cell *)
Lemma near_ang v : Rabs v <= 180 -> nf (nst (deg2rad (Some v))) (v * (PI / 180)) 245e-9 /\ Rabs (v * (PI / 180)) <= 3.2.
Proof.
  intros H. destruct (ang_eq b64 b32 pi64 pi32 d64 m fine_64 fine_32 factor_64_32 v H) as [_ E]. change (FW b64 b32 pi64 m) with FP in E.
  pose proof (ang_err b64 b32 pi64 pi32 d64 fine_64 fine_32 factor_64_32 v H) as A. rewrite u64, u32 in A. pose proof PI_bounds as P.
  split.
  - exists (ang b64 b32 d64 v). split; [exact E|]. split; [apply (ang_fl b64 b32 pi64 pi32 d64 fine_64 fine_32 factor_64_32 v H)|]. lra.
  - rewrite Rabs_mult, (Rabs_pos_eq (PI / 180)) by lra. apply Rle_trans with (180 * (PI / 180)); [apply Rmult_le_compat_r; lra|lra].
Qed.
Definition corner_ok (p : option R * option R * option R) (lon lat : R) : Prop :=
  nf (comp 0 p) (at_x lon lat) 3.6 /\ nf (comp 1 p) (at_y lon lat) 3.6 /\ nf (comp 2 p) (at_z lon lat) 3.6.
Lemma near_corner lon lat : Rabs lon <= 180 -> Rabs lat <= 90 -> corner_ok (cy_lonlat2xyz (Some lon) (Some lat)) lon lat.
Proof.
  intros Hlon Hlat. destruct (near_ang lon Hlon) as [Nl Bl]. destruct (near_ang lat ltac:(lra)) as [Np Bp]. pose proof eps_64 as E.
  assert (Ac : forall x, Rabs (cos x) <= 1) by (intros; apply Rabs_le, COS_bound).
  assert (As : forall x, Rabs (sin x) <= 1) by (intros; apply Rabs_le, SIN_bound).
  set (lr := nst (deg2rad (Some lon))) in *. set (pr := nst (deg2rad (Some lat))) in *.
  set (l := lon * (PI / 180)) in *. set (p := lat * (PI / 180)) in *.
  pose proof (near_nz b64 b32 pi64 m fine_64 6370997 ltac:(lia)) as Nr.
  assert (Cp : nd (ncos pr) (cos p) 245.1e-9) by (eapply near_weaken; [|apply (near_cos b64 b32 pi64 m fine_64 Ha _ _ _ (near_32_64 _ _ _ Np))]; lra).
  assert (Sp : nd (nsin pr) (sin p) 245.1e-9) by (eapply near_weaken; [|apply (near_sin b64 b32 pi64 m fine_64 Ha _ _ _ (near_32_64 _ _ _ Np))]; lra).
  assert (Cl : nd (ncos lr) (cos l) 245.1e-9) by (eapply near_weaken; [|apply (near_cos b64 b32 pi64 m fine_64 Ha _ _ _ (near_32_64 _ _ _ Nl))]; lra).
  assert (Sl : nd (nsin lr) (sin l) 245.1e-9) by (eapply near_weaken; [|apply (near_sin b64 b32 pi64 m fine_64 Ha _ _ _ (near_32_64 _ _ _ Nl))]; lra).
  assert (R1 : Rabs 6370997 <= 6370997) by (rewrite Rabs_pos_eq; lra).
  assert (RC : nd (nmul (nz 6370997) (ncos pr)) (6370997 * cos p) 1.562).
  { eapply near_weaken; [|apply (near_mul b64 b32 pi64 m fine_64 _ _ _ _ _ _ 6370997 1 6371000 Nr Cp R1 (Ac p))]; [lra|lra|unfold big; lra]. }
  assert (RS : nd (nmul (nz 6370997) (nsin pr)) (6370997 * sin p) 1.562).
  { eapply near_weaken; [|apply (near_mul b64 b32 pi64 m fine_64 _ _ _ _ _ _ 6370997 1 6371000 Nr Sp R1 (As p))]; [lra|lra|unfold big; lra]. }
  assert (B1 : Rabs (6370997 * cos p) <= 6370997).
  { rewrite Rabs_mult, (Rabs_pos_eq 6370997) by lra. specialize (Ac p). lra. }
  assert (XY : forall t y, nd t y 245.1e-9 -> Rabs y <= 1 -> nf (nst (nmul (nmul (nz 6370997) (ncos pr)) t)) (6370997 * cos p * y) 3.6).
  { intros t y Nt By. eapply near_weaken; [|apply (near_f32 m _ _ 3.2 6400000)].
    - unfold h. lra.
    - eapply near_weaken; [|apply (near_mul b64 b32 pi64 m fine_64 _ _ _ _ _ _ 6370997 1 6371004 RC Nt B1 By)]; [lra|lra|unfold big; lra].
    - rewrite Rabs_mult. pose proof (Rabs_pos (6370997 * cos p)). assert (Rabs (6370997 * cos p) * Rabs y <= 6370997 * 1) by (apply Rmult_le_compat; auto using Rabs_pos). lra.
    - unfold usual. lra. }
  split; [apply (XY _ _ Cl (Ac l))|]. split; [apply (XY _ _ Sl (As l))|].
  cbn [comp cy_lonlat2xyz Z.eqb Pos.eqb]. unfold EARTH_RADIUS, at_z. fold p. fold pr. eapply near_weaken; [|apply (near_f32 m _ _ 1.562 6400000)].
  - unfold h. lra.
  - eapply near_weaken; [|exact RS]. lra.
  - rewrite Rabs_mult, (Rabs_pos_eq 6370997) by lra. specialize (As p). lra.
  - unfold usual. lra.
Qed.

(** ** Interpolation between two corners at a given weight *)
Lemma near_comb al A B xa xb g : fl b32 al -> Rabs al <= g -> Rabs (1 - al) <= g -> 1 <= g <= 13 ->
  nf xa A 3.6 -> nf xb B 3.6 -> Rabs A <= 6370997 -> Rabs B <= 6370997 ->
  nf (fadd (fmul (fsub (nz 1) (Some al)) xa) (fmul (Some al) xb)) ((1 - al) * A + al * B) (9.3 * g) /\
  Rabs ((1 - al) * A + al * B) <= 12742000 * g.
Proof.
  intros Fa B1 B2 Hg Na Nb BA BB.
  pose proof (near_0 b32 al Fa) as N0.
  assert (N1 : nf (fsub (nz 1) (Some al)) (1 - al) (6e-8 * g)).
  { eapply near_weaken; [|apply (nf_sub m _ _ _ _ _ _ g (nf_nz m 1 ltac:(lia)) N0)]; [unfold h; lra|lra|unfold usual; lra]. }
  assert (N2 : nf (fmul (fsub (nz 1) (Some al)) xa) ((1 - al) * A) (4.4 * g)).
  { eapply near_weaken; [|apply (nf_mul m _ _ _ _ _ _ g 6370997 (6400000 * g) N1 Na B2 BA)]; [unfold h; lra|lra|unfold usual; lra]. }
  assert (N3 : nf (fmul (Some al) xb) (al * B) (4 * g)).
  { eapply near_weaken; [|apply (nf_mul m _ _ _ _ _ _ g 6370997 (6400000 * g) N0 Nb B1 BB)]; [unfold h; lra|lra|unfold usual; lra]. }
  assert (M1 : Rabs ((1 - al) * A) <= 6370997 * g).
  { rewrite Rabs_mult. rewrite (Rmult_comm 6370997). apply Rmult_le_compat; auto using Rabs_pos. }
  assert (M2 : Rabs (al * B) <= 6370997 * g).
  { rewrite Rabs_mult. rewrite (Rmult_comm 6370997). apply Rmult_le_compat; auto using Rabs_pos. }
  pose proof (Rabs_triang ((1 - al) * A) (al * B)) as T.
  split; [|lra]. eapply near_weaken; [|apply (nf_add m _ _ _ _ _ _ (12750000 * g) N2 N3)]; [unfold h; lra|lra|unfold usual; lra].
Qed.
(** the four corners *)
Lemma near_fine vt v al xa xb xc xd A B C D g : nf vt v 9e-8 -> Rabs v <= 1.5 -> Rabs (1 - v) <= 1.5 -> Rabs v + Rabs (1 - v) <= 2 ->
  fl b32 al -> Rabs al <= g -> Rabs (1 - al) <= g -> 1 <= g <= 13 ->
  nf xa A 3.6 -> nf xb B 3.6 -> nf xc C 3.6 -> nf xd D 3.6 -> Rabs A <= 6370997 -> Rabs B <= 6370997 -> Rabs C <= 6370997 -> Rabs D <= 6370997 ->
  nf (fine_value vt (Some al) xa xb xc xd) ((1 - v) * ((1 - al) * A + al * B) + v * ((1 - al) * D + al * C)) (27 * g).
Proof.
  intros Nv V1 V2 V3 Fa B1 B2 Hg Na Nb Nc Nd BA BB BC BD.
  destruct (near_comb al A B xa xb g Fa B1 B2 Hg Na Nb BA BB) as [S1 M1].
  destruct (near_comb al D C xd xc g Fa B1 B2 Hg Nd Nc BD BC) as [S2 M2].
  unfold fine_value. set (s1 := fadd (fmul (fsub (nz 1) (Some al)) xa) (fmul (Some al) xb)) in *. set (s2 := fadd (fmul (fsub (nz 1) (Some al)) xd) (fmul (Some al) xc)) in *.
  set (P := (1 - al) * A + al * B) in *. set (Q := (1 - al) * D + al * C) in *. clearbody s1 s2 P Q.
  pose proof (Rabs_pos v) as V4. pose proof (Rabs_pos (1 - v)) as V5.
  assert (N1 : nf (fsub (nz 1) vt) (1 - v) 1.81e-7).
  { eapply near_weaken; [|apply (nf_sub m _ _ _ _ _ _ 1.51 (nf_nz m 1 ltac:(lia)) Nv)]; [unfold h; lra|lra|unfold usual; lra]. }
  assert (G1 : Rabs (1 - v) * g <= 1.5 * g) by (apply Rmult_le_compat_r; lra).
  assert (G2 : Rabs v * g <= 1.5 * g) by (apply Rmult_le_compat_r; lra).
  assert (G3 : Rabs v * g + Rabs (1 - v) * g <= 2 * g) by (rewrite <- Rmult_plus_distr_r; apply Rmult_le_compat_r; lra).
  assert (N2 : nf (fmul (fsub (nz 1) vt) s1) ((1 - v) * P) (9.3 * (Rabs (1 - v) * g) + 3.6 * g)).
  { eapply near_weaken; [|apply (nf_mul m _ _ _ _ _ _ (Rabs (1 - v)) (12742000 * g) (20000000 * g) N1 S1 (Rle_refl _) M1)]; [unfold h; lra|lra|unfold usual; lra]. }
  assert (N3 : nf (fmul vt s2) (v * Q) (9.3 * (Rabs v * g) + 2.4 * g)).
  { eapply near_weaken; [|apply (nf_mul m _ _ _ _ _ _ (Rabs v) (12742000 * g) (20000000 * g) Nv S2 (Rle_refl _) M2)]; [unfold h; lra|lra|unfold usual; lra]. }
  assert (M3 : Rabs ((1 - v) * P) <= 12742000 * (Rabs (1 - v) * g)).
  { rewrite Rabs_mult. replace (12742000 * (Rabs (1 - v) * g)) with (Rabs (1 - v) * (12742000 * g)) by ring. apply Rmult_le_compat_l; auto using Rabs_pos. }
  assert (M4 : Rabs (v * Q) <= 12742000 * (Rabs v * g)).
  { rewrite Rabs_mult. replace (12742000 * (Rabs v * g)) with (Rabs v * (12742000 * g)) by ring. apply Rmult_le_compat_l; auto using Rabs_pos. }
  pose proof (Rabs_triang ((1 - v) * P) (v * Q)) as T.
  eapply near_weaken; [|apply (nf_add m _ _ _ _ _ _ (26000000 * g) N2 N3)]; [unfold h; lra|lra|unfold usual; lra].
Qed.

(** ** The weight along the scan *)
Definition slack (u sep : R) : R := (1.3e-5 * Rabs (u * (1 - u)) + 6.1e-7) * / sep + 7e-6.
Lemma near_along ut u vt v et e lt l sep : nf ut u 1.35e-7 -> -0.5 <= u <= 2.25 -> nf vt v 9e-8 -> Rabs v <= 1.5 -> Rabs (1 - v) <= 1.5 -> Rabs (v * (1 - v)) <= 0.75 ->
  1e-5 <= sep -> nf et e (1.3e-5 / sep) -> Rabs e <= 2 -> nf lt l (8e-7 / sep) -> Rabs l <= 8e-6 / sep ->
  nf (a_scan_value ut vt et lt) (u + u * (1 - u) * e + v * (1 - v) * l) (slack u sep).
Proof.
  intros Nu Bu Nv V1 V2 V3 Hs Ne Be Nl Bl. unfold Rdiv in Ne, Nl, Bl. unfold slack.
  assert (IS : 0 < / sep <= 100000).
  { split; [apply Rinv_0_lt_compat; lra|]. replace 100000 with (/ (/ 100000)) by lra. apply Rinv_le_contravar; lra. }
  set (k := / sep) in *. clearbody k.
  assert (U1 : Rabs u <= 2.25) by (apply Rabs_le; lra). assert (U2 : Rabs (1 - u) <= 1.5) by (apply Rabs_le; lra).
  assert (U3 : Rabs (u * (1 - u)) <= 2.8125).
  { apply Rabs_le. split; [|pose proof (Rle_0_sqr (u - 0.5)) as SQ; unfold Rsqr in SQ; lra].
    assert (0 <= (2.25 - u) * (u + 1.25)) by (apply Rmult_le_pos; lra). lra. }
  assert (N1 : nf (fsub (nz 1) ut) (1 - u) 2.26e-7).
  { eapply near_weaken; [|apply (nf_sub m _ _ _ _ _ _ 1.51 (nf_nz m 1 ltac:(lia)) Nu)]; [unfold h; lra|lra|unfold usual; lra]. }
  assert (N2 : nf (fmul ut (fsub (nz 1) ut)) (u * (1 - u)) 9.2e-7).
  { eapply near_weaken; [|apply (nf_mul m _ _ _ _ _ _ 2.25 1.5 3.4 Nu N1 U1 U2)]; [unfold h; lra|lra|unfold usual; lra]. }
  set (w := Rabs (u * (1 - u))) in *. assert (W0 : 0 <= w) by apply Rabs_pos.
  assert (WK : 0 <= w * k <= 2.8125 * k) by (split; [apply Rmult_le_pos; lra|apply Rmult_le_compat_r; lra]).
  assert (N3 : nf (fmul (fmul ut (fsub (nz 1) ut)) et) (u * (1 - u) * e) (1.3e-5 * (w * k) + 3.8e-6)).
  { eapply near_weaken; [|apply (nf_mul m _ _ _ _ _ _ w 2 12 N2 Ne (Rle_refl _) Be)]; [unfold h; lra|lra|unfold usual; lra]. }
  assert (N4 : nf (fsub (nz 1) vt) (1 - v) 1.81e-7).
  { eapply near_weaken; [|apply (nf_sub m _ _ _ _ _ _ 1.51 (nf_nz m 1 ltac:(lia)) Nv)]; [unfold h; lra|lra|unfold usual; lra]. }
  assert (N5 : nf (fmul vt (fsub (nz 1) vt)) (v * (1 - v)) 5.5e-7).
  { eapply near_weaken; [|apply (nf_mul m _ _ _ _ _ _ 1.5 1.5 2.3 Nv N4 V1 V2)]; [unfold h; lra|lra|unfold usual; lra]. }
  assert (Bl8 : Rabs l <= 0.8) by lra.
  assert (N6 : nf (fmul (fmul vt (fsub (nz 1) vt)) lt) (v * (1 - v) * l) (6.1e-7 * k + 6e-7)).
  { eapply near_weaken; [|apply (nf_mul m _ _ _ _ _ _ 0.75 0.8 1 N5 Nl V3 Bl8)]; [unfold h; lra|lra|unfold usual; lra]. }
  assert (M3 : Rabs (u * (1 - u) * e) <= 2.8125 * 2) by (rewrite Rabs_mult; apply Rmult_le_compat; auto using Rabs_pos).
  assert (M6 : Rabs (v * (1 - v) * l) <= 0.75 * 0.8) by (rewrite Rabs_mult; apply Rmult_le_compat; auto using Rabs_pos).
  pose proof (Rabs_triang u (u * (1 - u) * e)) as T1. pose proof (Rabs_triang (u + u * (1 - u) * e) (v * (1 - v) * l)) as T2.
  assert (N7 : nf (fadd ut (fmul (fmul ut (fsub (nz 1) ut)) et)) (u + u * (1 - u) * e) (1.3e-5 * (w * k) + 4.7e-6)).
  { eapply near_weaken; [|apply (nf_add m _ _ _ _ _ _ 12 Nu N3)]; [unfold h; lra|lra|unfold usual; lra]. }
  unfold a_scan_value. eapply near_weaken; [|apply (nf_add m _ _ _ _ _ _ 14 N7 N6)]; [unfold h; lra|lra|unfold usual; lra].
Qed.
End Pixel.
