(** C75: modis_5km_to_1km reproduces its tie points on float arrays. *)
From Coq Require Import ZArith List Bool Lia Reals Lra.
From Flocq.Core Require Import Core.
From Verif Require Import Base Num Geo GeoProofs GeoAgree Mem PiBound Float FloatGeo FloatAcc FloatTrip PropsFloat PropsFloatAcc PropsFloatTrip FloatNear FloatModis FloatPixel
  Modis ModisProofs ModisOob ModisAngles PropsGeo PropsModis PropsSimple PropsModisValues PropsFloatModis.
Open Scope Z_scope.

(** ** Weights of 0 and 1 are not rounded *)
Section Tie.
Variable m : libm.
Hypothesis Hm : accurate b64 m.
#[local] Instance FT : NumOps (option R) := F64_32 m.

Definition number (x : option R) : Prop := exists v, x = Some v /\ fl b32 v.
Lemma near_number x t e : near b32 x t e -> number x.
Proof. intros (v & E & F & _). exists v. auto. Qed.
Lemma fit_both v : fl b32 v -> fit b64 v = Some v /\ fit b32 v = Some v.
Proof. intros F. split; apply fit_fl; [apply b32_b64|]; exact F. Qed.
Lemma fl_01 (b : bool) : fl b32 (if b then 1 else 0)%R.
Proof. destruct b; [apply (fit_inv b32 good_b32 _ _ (fit32_Z 1 ltac:(lia)))|apply (fit_inv b32 good_b32 _ _ (fit32_Z 0 ltac:(lia)))]. Qed.
Lemma nz_01 (b : bool) : nz (if b then 1 else 0) = Some (if b then 1 else 0)%R.
Proof. destruct b; [apply (fit64_Z 1)|apply (fit64_Z 0)]; lia. Qed.

Lemma fmul_01 (b : bool) v : fl b32 v -> fmul (Some (if b then 1 else 0)%R) (Some v) = Some (if b then v else 0)%R.
Proof.
  intros F. unfold fmul. cbn [nmul nst FT F64_32 FN bind1 bind2].
  replace ((if b then 1 else 0) * v)%R with (if b then v else 0)%R by (destruct b; ring).
  assert (G : fl b32 (if b then v else 0)%R) by (destruct b; [exact F|apply (fl_01 false)]).
  destruct (fit_both _ G) as [E1 E2]. rewrite E1. exact E2.
Qed.
Lemma fsub_01 (b : bool) : fsub (nz 1) (Some (if b then 1 else 0)%R) = Some (if b then 0 else 1)%R.
Proof.
  change (nz 1) with (nz (if true then 1 else 0)). rewrite nz_01. unfold fsub. cbn [nsub nst FT F64_32 FN bind1 bind2].
  replace (1 - (if b then 1 else 0))%R with (if negb b then 1 else 0)%R by (destruct b; cbn; ring).
  destruct (fit_both _ (fl_01 (negb b))) as [E1 E2]. rewrite E1. cbn [bind1]. rewrite E2. destruct b; reflexivity.
Qed.
Lemma fadd_0 u v : fl b32 (u + v)%R -> fadd (Some u) (Some v) = Some (u + v)%R.
Proof. intros F. unfold fadd. cbn [nadd nst FT F64_32 FN bind1 bind2]. destruct (fit_both _ F) as [E1 E2]. rewrite E1. exact E2. Qed.

Lemma blend (b : bool) u v : fl b32 u -> fl b32 v ->
  fadd (fmul (fsub (nz 1) (Some (if b then 1 else 0)%R)) (Some u)) (fmul (Some (if b then 1 else 0)%R) (Some v)) = Some (if b then v else u).
Proof.
  intros Fu Fv. rewrite fsub_01. replace (if b then 0 else 1)%R with (if negb b then 1 else 0)%R by (destruct b; reflexivity).
  rewrite (fmul_01 (negb b) u Fu), (fmul_01 b v Fv). destruct b; cbn [negb].
  - rewrite fadd_0; [f_equal; ring|]. rewrite Rplus_0_l. exact Fv.
  - rewrite fadd_0; [f_equal; ring|]. rewrite Rplus_0_r. exact Fu.
Qed.
Lemma fine_value_01 (bt bs : bool) a b c d : fl b32 a -> fl b32 b -> fl b32 c -> fl b32 d ->
  fine_value (Some (if bt then 1 else 0)%R) (Some (if bs then 1 else 0)%R) (Some a) (Some b) (Some c) (Some d) =
  Some (if bt then (if bs then c else d) else (if bs then b else a)).
Proof.
  intros Fa Fb Fc Fd. unfold fine_value. rewrite (blend bs a b Fa Fb), (blend bs d c Fd Fc).
  rewrite (blend bt (if bs then b else a) (if bs then c else d)); [reflexivity|destruct bs; assumption|destruct bs; assumption].
Qed.
Lemma a_scan_01 (bs bt : bool) e l : number e -> number l ->
  a_scan_value (Some (if bs then 1 else 0)%R) (Some (if bt then 1 else 0)%R) e l = Some (if bs then 1 else 0)%R.
Proof.
  intros (e' & -> & Fe) (l' & -> & Fl). unfold a_scan_value. rewrite !fsub_01.
  assert (Z : forall b : bool, fmul (Some (if b then 1 else 0)%R) (Some (if b then 0 else 1)%R) = Some 0%R).
  { intros b. rewrite (fmul_01 b (if b then 0 else 1)%R); [destruct b; reflexivity|]. destruct b; [apply (fl_01 false)|apply (fl_01 true)]. }
  rewrite !Z. pose proof (fmul_01 false e' Fe) as Me. pose proof (fmul_01 false l' Fl) as Ml. cbn iota in Me, Ml. rewrite Me, Ml.
  rewrite fadd_0 by (rewrite Rplus_0_r; apply fl_01). rewrite fadd_0 by (rewrite !Rplus_0_r; apply fl_01). f_equal. ring.
Qed.
Lemma div5_01 (z : Z) (b : bool) : z = (if b then 5 else 0) -> fdiv (nst (nz z)) (nz 5) = Some (if b then 1 else 0)%R.
Proof.
  intros E. assert (Hz : (Z.abs z < 2 ^ 24)%Z) by (destruct b; subst z; cbn; lia).
  assert (E1 : nst (nz z) = Some (IZR z)) by (cbn [nst nz FT F64_32 FN]; rewrite fit64_Z by exact Hz; apply (fit32_Z z Hz)).
  assert (E2 : nz 5 = Some 5%R) by (apply (fit64_Z 5); lia).
  rewrite E1, E2. unfold fdiv. cbn [ndiv nst FT F64_32 FN bind1 bind2]. destruct (Req_EM_T 5 0) as [Q|_]; [lra|].
  replace (IZR z / 5)%R with (if b then 1 else 0)%R by (destruct b; subst z; field).
  destruct (fit_both _ (fl_01 b)) as [G1 G2]. rewrite G1. exact G2.
Qed.
End Tie.

(** neighbouring tie points are seen under angles that differ by at least 0.006 degrees, or under the same angle (as MODIS
    stores it, in steps of 0.01 degrees) *)
Definition told_apart (a b : R) : Prop := (6 / 1000 <= Rabs (a - b) \/ a = b /\ 3 / 1000 <= a)%R.

Theorem C75_tie_points : forall m g n w (lon lat satz olon olat : ndarray (option R)) (lo la z : Z -> Z -> R),
  in_range b64 pi64 m -> accurate b64 m ->
  0 <= n -> n mod 2 = 0 -> std_width M5km_1km w -> shaped Float32 n w lon lat satz ->
  (forall a b, 0 <= a < n -> 0 <= b < w -> aat lon a b = Some (lo a b) /\ aat lat a b = Some (la a b) /\ aat satz a b = Some (z a b) /\
     (Rabs (lo a b) <= 180 /\ Rabs (la a b) <= 90 /\ 0 <= z a b <= 70)%R) ->
  (forall a b, 0 <= a < n -> 0 <= b -> b + 1 < w -> told_apart (z a b) (z a (b + 1))) ->
  @modis _ (F64_32 m) M5km_1km g lon lat satz = Ok (olon, olat) ->
  forall r c, 0 <= r < n -> 0 <= c < w ->
    comes_back_float (1 / 10000) (lo r c) (la r c) (aat olon (5 * r + 2) (5 * c + 2), aat olat (5 * r + 2) (5 * c + 2)).
Proof.
  intros m g n w lon lat satz olon olat lo la z HR HA Hn Hn2 Hw S F NZ O r c Hr Hc.
  set (N := F64_32 m) in *.
  destruct (@modis_run _ N M5km_1km g n w lon lat satz Hn Hw S) as (cf & p & a & b & L & E1 & E2 & E3 & E4 & E5 & Rn & _ & V).
  rewrite Rn in O. injection O as -> ->. unfold fine_len in V. cbn [scan_len factor fine_width std_width] in *. change (1354 / 1354) with 1 in E5. subst p.
  assert (FA : fac cf = 2 /\ cpp cf = 5) by (destruct L as [_ [(A & _)|(_ & _ & -> & _ & _ & ->)]]; [congruence|auto]). destruct FA as [FA CP].
  pose proof (off_split 2 r ltac:(lia)) as [Er Hrm]. set (s := r / 2) in *. set (t := r mod 2) in *.
  pose proof (Z.div_mod n 2 ltac:(lia)) as Dn.
  assert (Hs : 0 <= s < n / 2) by (unfold s; split; [apply Z.div_pos; lia|]; lia).
  assert (P := V (5 * r + 2) (5 * c + 2) ltac:(lia) ltac:(lia)). change (2 * 5) with 10 in P.
  assert (Q1 : (5 * r + 2) / 10 = s) by (apply div_is; lia).
  assert (Q2 : (5 * r + 2) mod 10 = 5 * t + 2).
  { pose proof (Z.div_mod (5 * r + 2) 10 ltac:(lia)). lia. }
  rewrite Q1, Q2 in P. destruct (Z.ltb_spec (5 * r + 2) (n / 2 * 10)); [|lia].
  rewrite P. clear P V Rn.
  (* cell and fractions *)
  set (last := c =? w - 1). set (cc := if last then w - 2 else c).
  assert (CC : cell_c cf (5 * c + 2) = cc).
  { unfold cell_c, clampz. rewrite E1, E2, E4, FA. cbn [Z.eqb Pos.eqb]. replace ((5 * c + 2 - 2) / 5) with c by (symmetry; apply div_is; lia).
    unfold cc, last. destruct (Z.eqb_spec c (w - 1)); lia. }
  assert (CR : cell_r cf (5 * t + 2) = 0) by (unfold cell_r; rewrite E1; reflexivity).
  assert (SS : @fdiv _ N (@xc _ N cf (5 * c + 2)) (@nz _ N (ff cf)) = Some (if last then 1 else 0)%R).
  { rewrite E2. unfold xc. apply (div5_01 m (xpos cf (5 * c + 2)) last). unfold xpos. rewrite E1, E2, E3, E4. cbn [Z.eqb Pos.eqb].
    destruct (Z.ltb_spec (5 * c + 2) 2); [lia|]. replace (5 * c + 2 - 2) with (c * 5) by ring. rewrite Z_mod_mult.
    unfold last. destruct Hw as [-> | ->]; cbn [Z.eqb Pos.eqb].
    - change (270 - 1) with 269. destruct (Z.eqb_spec c 269), (Z.ltb_spec (5 * c + 2) (1354 - 7)); lia.
    - change (271 - 1) with 270. destruct (Z.eqb_spec c 270), (Z.ltb_spec (5 * c + 2) (1354 - 2)); lia. }
  assert (ST : @fdiv _ N (@yc _ N cf (5 * t + 2)) (@nz _ N (ff cf)) = Some (if t =? 1 then 1 else 0)%R).
  { rewrite E2. unfold yc. rewrite E1. cbn [Z.eqb Pos.eqb]. apply (div5_01 m (5 * t + 2 - 2) (t =? 1)). destruct (Z.eqb_spec t 1); lia. }
  assert (XYZ : forall i j, 0 <= i < 2 -> 0 <= j < w -> exists x y h, @cy_lonlat2xyz _ N (aat lon (s * 2 + i) j) (aat lat (s * 2 + i) j) = (Some x, Some y, Some h) /\
     fl b32 x /\ fl b32 y /\ fl b32 h).
  { intros i j Hi Hj. destruct (F (s * 2 + i) j ltac:(lia) Hj) as (-> & -> & _ & B1 & B2 & _).
    destruct (near_corner m HA _ _ B1 B2) as ((x & Ex & Fx & _) & (y & Ey & Fy & _) & (h & Eh & Fh & _)).
    change (FP m) with N in Ex, Ey, Eh. exists x, y, h. split; [|auto].
    destruct (@cy_lonlat2xyz _ N (Some (lo (s * 2 + i) j)) (Some (la (s * 2 + i) j))) as [[x' y'] h']. cbn [comp Z.eqb Pos.eqb] in Ex, Ey, Eh. congruence. }
  assert (W2 : 2 <= w) by lia.
  assert (HC2 : 0 <= cc /\ cc + 1 < w) by (unfold cc, last; destruct (Z.eqb_spec c (w - 1)); lia).
  unfold pixel, scan_ll, a_scan_at. rewrite CR, CC, CP, E1, Z.add_0_r.
  destruct (F (s * 2) cc ltac:(lia) ltac:(lia)) as (_ & _ & Za & _ & _ & Ba).
  destruct (F (s * 2) (cc + 1) ltac:(lia) ltac:(lia)) as (_ & _ & Zb & _ & _ & Bb).
  pose proof (rad_70 _ Ba) as Ra. pose proof (rad_70 _ Bb) as Rb. pose proof z70_89 as Z9.
  pose proof (seen_at (degrees (z (s * 2) cc)) ltac:(unfold degrees; lra)) as Sa. pose proof (seen_at (degrees (z (s * 2) (cc + 1))) ltac:(unfold degrees; lra)) as Sb.
  destruct (C74_apart _ _ _ _ _ _ Ba Bb Sa Sb) as (_ & _ & AP). specialize (AP (NZ (s * 2) cc ltac:(lia) ltac:(lia) ltac:(lia))).
  destruct (coef_near m HA 5 _ _ _ _ _ _ (or_intror eq_refl) Ba Bb Sa Sb AP) as (e & l & _ & Ne & _ & Nl & _).
  apply near_number in Ne, Nl. change (FM m) with N in Ne, Nl.
  rewrite Za, Zb, SS, ST. pose proof (a_scan_01 m last (t =? 1) _ _ Ne Nl) as AS. change (FT m) with N in AS. rewrite AS.
  unfold fine_xyz, fine_comp. cbv zeta. rewrite CR, CC.
  change (0 + 1) with 1.
  destruct (XYZ 0 cc ltac:(lia) ltac:(lia)) as (x1 & y1 & z1 & X1 & ? & ? & ?). destruct (XYZ 0 (cc + 1) ltac:(lia) ltac:(lia)) as (x2 & y2 & z2 & X2 & ? & ? & ?).
  destruct (XYZ 1 (cc + 1) ltac:(lia) ltac:(lia)) as (x3 & y3 & z3 & X3 & ? & ? & ?). destruct (XYZ 1 cc ltac:(lia) ltac:(lia)) as (x4 & y4 & z4 & X4 & ? & ? & ?).
  rewrite X1, X2, X3, X4. cbn [comp Z.eqb Pos.eqb].
  pose proof (fine_value_01 m (t =? 1) last) as FV. change (FT m) with N in FV. rewrite !FV by assumption.
  assert (END : @cy_lonlat2xyz _ N (aat lon r c) (aat lat r c) =
     (Some (if t =? 1 then if last then x3 else x4 else if last then x2 else x1),
      Some (if t =? 1 then if last then y3 else y4 else if last then y2 else y1),
      Some (if t =? 1 then if last then z3 else z4 else if last then z2 else z1))).
  { assert (CE : c = if last then cc + 1 else cc) by (unfold cc, last; destruct (Z.eqb_spec c (w - 1)); lia).
    destruct (Z.eqb_spec t 1) as [T1|T1].
    - replace r with (s * 2 + 1) by lia. rewrite CE. destruct last; [exact X3|exact X4].
    - replace r with (s * 2 + 0) by lia. rewrite CE. destruct last; [exact X2|exact X1]. }
  rewrite <- END.
  destruct (F r c Hr Hc) as (-> & -> & _ & B1 & B2 & _).
  exact (C73_compiled_floats_partial m _ _ HR HA B1 B2).
Qed.
Print Assumptions C75_tie_points.

(** a case: the arrays of C74_pixels_case *)
Example C75_case : (forall a b, 0 <= a < 2 -> 0 <= b < 271 ->
    aat case_lon a b = Some (IZR b / 64)%R /\ aat case_lat a b = Some (IZR a / 64)%R /\ aat case_satz a b = Some (1 + IZR b / 8)%R /\
    (Rabs (IZR b / 64) <= 180 /\ Rabs (IZR a / 64) <= 90 /\ 0 <= 1 + IZR b / 8 <= 70)%R) /\
  (forall a b : Z, 0 <= a < 2 -> 0 <= b -> b + 1 < 271 -> told_apart (1 + IZR b / 8) (1 + IZR (b + 1) / 8)).
Proof.
  split.
  - intros a b Ha Hb. do 3 (split; [reflexivity|]).
    assert (0 <= IZR b <= 271)%R by (split; apply IZR_le; lia). assert (0 <= IZR a <= 2)%R by (split; apply IZR_le; lia).
    rewrite !Rabs_pos_eq; lra.
  - intros a b _ _ _. left. rewrite plus_IZR. replace (1 + IZR b / 8 - (1 + (IZR b + 1) / 8))%R with (- (1 / 8))%R by field.
    rewrite Rabs_Ropp, Rabs_pos_eq; lra.
Qed.
