(** C74: rounding errors of the satellite-angle MODIS interpolation on float arrays. *)
From Coq Require Import ZArith List Bool Lia Reals Lra.
From Flocq.Core Require Import Core.
From Verif Require Import Base Num Geo GeoProofs GeoAgree Mem PiBound Float FloatGeo FloatAcc FloatTrip PropsFloat PropsFloatAcc PropsFloatTrip FloatNear FloatModis FloatPixel
  Modis ModisProofs ModisOob ModisAngles PropsGeo PropsModis PropsSimple PropsModisValues.
Open Scope Z_scope.

(** ** Where the weights lie *)
Lemma u_range k w i : even_grid k -> std_width k w -> 0 <= i < fine_width k -> (-0.5 <= scan_pos k i - IZR (col_cell k w i) <= 2.25)%R.
Proof.
  intros Hk Hw Hi. unfold scan_pos, col_cell, first_col.
  assert (Q : forall d x c : Z, 0 < d -> (-d <= 2 * (x - d * c)) -> (4 * (x - d * c) <= 9 * d) -> (-0.5 <= IZR x / IZR d - IZR c <= 2.25)%R).
  { intros d x c Hd A B. apply IZR_le in A, B. rewrite opp_IZR, mult_IZR, minus_IZR, mult_IZR in A. rewrite !mult_IZR, minus_IZR, mult_IZR in B.
    assert (D : (0 < IZR d)%R) by (apply IZR_lt; lia). split.
    - apply Rmult_le_reg_r with (IZR d); [exact D|]. replace ((IZR x / IZR d - IZR c) * IZR d)%R with (IZR x - IZR d * IZR c)%R by (field; lra). lra.
    - apply Rmult_le_reg_r with (IZR d); [exact D|]. replace ((IZR x / IZR d - IZR c) * IZR d)%R with (IZR x - IZR d * IZR c)%R by (field; lra). lra. }
  rewrite <- minus_IZR. destruct Hk as [-> |[-> | ->]]; cbn [is_1km factor fine_width std_width] in *.
  - subst w. apply Q; [lia| |]; pose proof (Z.div_mod (i - 0) 4 ltac:(lia)); pose proof (Z.mod_pos_bound (i - 0) 4 ltac:(lia)); lia.
  - subst w. apply Q; [lia| |]; pose proof (Z.div_mod (i - 0) 2 ltac:(lia)); pose proof (Z.mod_pos_bound (i - 0) 2 ltac:(lia)); lia.
  - destruct Hw as [-> | ->]; (apply Q; [lia| |]; pose proof (Z.div_mod (i - 2) 5 ltac:(lia)); pose proof (Z.mod_pos_bound (i - 2) 5 ltac:(lia)); lia).
Qed.
Lemma v_range k j : even_grid k -> 0 <= j < fine_len k -> let v := (track_pos k j - IZR (row_cell k j))%R in (-0.5 <= v <= 1.5)%R.
Proof.
  intros Hk Hj v. unfold v, track_pos, row_cell.
  assert (Q : forall d c : Z, 0 < d -> (-d <= 2 * j - (d - 1) - 2 * (d * c)) -> (2 * j - (d - 1) - 2 * (d * c) <= 3 * d) -> (-0.5 <= (IZR j - (IZR d - 1) / 2) / IZR d - IZR c <= 1.5)%R).
  { intros d c Hd A B. apply IZR_le in A, B. rewrite opp_IZR in A. rewrite !minus_IZR, !mult_IZR in A, B. rewrite (mult_IZR 3) in B.
    assert (D : (0 < IZR d)%R) by (apply IZR_lt; lia). split.
    - apply Rmult_le_reg_r with (IZR d); [exact D|]. replace (((IZR j - (IZR d - 1) / 2) / IZR d - IZR c) * IZR d)%R with (IZR j - (IZR d - 1) / 2 - IZR d * IZR c)%R by (field; lra). lra.
    - apply Rmult_le_reg_r with (IZR d); [exact D|]. replace (((IZR j - (IZR d - 1) / 2) / IZR d - IZR c) * IZR d)%R with (IZR j - (IZR d - 1) / 2 - IZR d * IZR c)%R by (field; lra). lra. }
  unfold fine_len in Hj. destruct Hk as [-> |[-> | ->]]; cbn [scan_len factor fine_width] in *; (apply Q; [lia| |]).
  - pose proof (Z.div_mod (2 * j - (4 - 1)) (2 * 4) ltac:(lia)); pose proof (Z.mod_pos_bound (2 * j - (4 - 1)) (2 * 4) ltac:(lia)); lia.
  - pose proof (Z.div_mod (2 * j - (4 - 1)) (2 * 4) ltac:(lia)); pose proof (Z.mod_pos_bound (2 * j - (4 - 1)) (2 * 4) ltac:(lia)); lia.
  - pose proof (Z.div_mod (2 * j - (2 - 1)) (2 * 2) ltac:(lia)); pose proof (Z.mod_pos_bound (2 * j - (2 - 1)) (2 * 2) ltac:(lia)); lia.
  - pose proof (Z.div_mod (2 * j - (2 - 1)) (2 * 2) ltac:(lia)); pose proof (Z.mod_pos_bound (2 * j - (2 - 1)) (2 * 2) ltac:(lia)); lia.
  - lia.
  - lia.
Qed.

(** ** The specification *)
(** angle between the two points as seen from the centre of the earth; points seen under the same angle are on both sides of nadir *)
Definition apart (za zb ta tb : R) : R := if Req_EM_T za zb then (ta * 2)%R else Rabs (ta - tb)%R.
(** no coordinate changes by more than L along the row between the corners of the cell *)
Definition spread (lo la : Z -> Z -> R) (row col : Z) (L : R) : Prop :=
  forall r, r = row \/ r = row + 1 ->
    (Rabs (at_x (lo r (col + 1)%Z) (la r (col + 1)%Z) - at_x (lo r col) (la r col)) <= L /\
     Rabs (at_y (lo r (col + 1)%Z) (la r (col + 1)%Z) - at_y (lo r col) (la r col)) <= L /\
     Rabs (at_z (lo r (col + 1)%Z) (la r (col + 1)%Z) - at_z (lo r col) (la r col)) <= L)%R.

(** ** One component *)
Lemma corners_move f row col v a a' L : (Rabs v + Rabs (1 - v) <= 2)%R ->
  (Rabs (f row (col + 1)%Z - f row col) <= L)%R -> (Rabs (f (row + 1)%Z (col + 1)%Z - f (row + 1)%Z col) <= L)%R ->
  (Rabs (corners f row col v a - corners f row col v a') <= 2 * L * Rabs (a - a'))%R.
Proof.
  intros V B1 B2. unfold corners.
  replace ((1 - v) * ((1 - a) * f row col + a * f row (col + 1)%Z) + v * ((1 - a) * f (row + 1)%Z col + a * f (row + 1)%Z (col + 1)%Z) -
    ((1 - v) * ((1 - a') * f row col + a' * f row (col + 1)%Z) + v * ((1 - a') * f (row + 1)%Z col + a' * f (row + 1)%Z (col + 1)%Z)))%R
    with ((a - a') * ((1 - v) * (f row (col + 1)%Z - f row col) + v * (f (row + 1)%Z (col + 1)%Z - f (row + 1)%Z col)))%R by ring.
  rewrite Rabs_mult, (Rmult_comm (2 * L)). apply Rmult_le_compat_l; [apply Rabs_pos|].
  eapply Rle_trans; [apply Rabs_triang|]. rewrite !Rabs_mult. pose proof (Rabs_pos v). pose proof (Rabs_pos (1 - v)).
  pose proof (Rabs_pos (f row (col + 1)%Z - f row col)) as P1.
  assert (Rabs (1 - v) * Rabs (f row (col + 1)%Z - f row col) <= Rabs (1 - v) * L)%R by (apply Rmult_le_compat_l; lra).
  assert (Rabs v * Rabs (f (row + 1)%Z (col + 1)%Z - f (row + 1)%Z col) <= Rabs v * L)%R by (apply Rmult_le_compat_l; lra).
  assert ((Rabs v + Rabs (1 - v)) * L <= 2 * L)%R by (apply Rmult_le_compat_r; lra). lra.
Qed.
Lemma at_bound lo la : (Rabs (at_x lo la) <= 6370997 /\ Rabs (at_y lo la) <= 6370997 /\ Rabs (at_z lo la) <= 6370997)%R.
Proof.
  assert (Ac : forall x, (Rabs (cos x) <= 1)%R) by (intros; apply Rabs_le, COS_bound).
  assert (As : forall x, (Rabs (sin x) <= 1)%R) by (intros; apply Rabs_le, SIN_bound).
  assert (P : forall a b, (Rabs a <= 1)%R -> (Rabs b <= 1)%R -> (Rabs (6370997 * a * b) <= 6370997)%R).
  { intros a b A B. rewrite !Rabs_mult, (Rabs_pos_eq 6370997) by lra. pose proof (Rabs_pos a). pose proof (Rabs_pos b).
    assert (6370997 * Rabs a * Rabs b <= 6370997 * 1 * 1)%R by (apply Rmult_le_compat; try lra; apply Rmult_le_pos; lra). lra. }
  unfold at_x, at_y, at_z. split; [apply P; auto|]. split; [apply P; auto|].
  rewrite Rabs_mult, (Rabs_pos_eq 6370997) by lra. specialize (As (la * (PI / 180))%R). lra.
Qed.

Section Floats.
Variable m : libm.
Hypothesis Hm : accurate b64 m.
#[local] Instance FM : NumOps (option R) := F64_32 m.

Lemma coef_near w a b ta tb fa fb : (w = 1 \/ w = 5)%Z -> (0 <= a <= 70)%R -> (0 <= b <= 70)%R ->
  seen (degrees a) fa ta -> seen (degrees b) fb tb -> (1e-5 <= apart a b ta tb)%R ->
  exists e l, @exp_ali _ RN w (Some a) (Some b) = (Some e, Some l) /\
    near b32 (fst (exp_ali w (Some a) (Some b))) e (1.3e-5 / apart a b ta tb) /\ (Rabs e <= 2)%R /\
    near b32 (snd (exp_ali w (Some a) (Some b))) l (8e-7 / apart a b ta tb) /\ (Rabs l <= 8e-6 / apart a b ta tb)%R.
Proof.
  intros Hw Ba Bb Sa Sb Hs. pose proof (rad_70 a Ba) as Ra. pose proof (rad_70 b Bb) as Rb. pose proof z70_89 as Z9.
  destruct (seen_phi (degrees a) fa ta) as [_ Ea]; [unfold degrees; lra|exact Sa|]. destruct (seen_phi (degrees b) fb tb) as [_ Eb]; [unfold degrees; lra|exact Sb|].
  change (degrees a - phiR (degrees a))%R with (thetaR (degrees a)) in Ea. change (degrees b - phiR (degrees b))%R with (thetaR (degrees b)) in Eb.
  assert (ED : apart a b ta tb = Rabs (denR (a * (PI / 180)) (b * (PI / 180)))).
  { unfold apart, denR. change (a * (PI / 180))%R with (degrees a). change (b * (PI / 180))%R with (degrees b). rewrite Ea, Eb. pose proof PI_RGT_0 as P.
    pose proof (theta_range (degrees a) Ra) as T. 
    destruct (Req_EM_T a b) as [E|N]; destruct (Req_EM_T (degrees a) (degrees b)) as [E'|N'].
    - rewrite Rabs_pos_eq; unfold degrees in *; lra.
    - exfalso. apply N'. now rewrite E.
    - exfalso. apply N. unfold degrees in E'. apply (Rmult_eq_reg_r (PI / 180)%R); [exact E'|lra].
    - reflexivity. }
  rewrite ED in *. set (D := denR (a * (PI / 180)) (b * (PI / 180))) in *.
  assert (D0 : D <> 0%R) by (intros Z; rewrite Z, Rabs_R0 in Hs; lra).
  exists (expR (a * (PI / 180)) (b * (PI / 180))), (aliR w (a * (PI / 180)) (b * (PI / 180))).
  split; [apply exp_ali_exact; auto|]. split; [apply (near_exp m Hm w a b Ba Bb Hs)|].
  split.
  - pose proof (num_le a b Ba Bb) as NL. fold D in NL. unfold expR. fold D. rewrite Rabs_mult, (Rabs_pos_eq 4) by lra. unfold Rdiv at 1. rewrite Rabs_mult, Rabs_inv.
    apply Rmult_le_reg_r with (Rabs D); [lra|]. rewrite !Rmult_assoc, Rinv_l by lra. lra.
  - exact (near_ali m Hm w a b Hw Ba Bb Hs).
Qed.

(** one component of the position of a pixel *)
Lemma comp_near (c : R -> R -> R) (X : Z -> Z -> option R) (lo la : Z -> Z -> R) row col vt v at_ al sl L g :
  near b32 vt v 9e-8 -> (-0.5 <= v <= 1.5)%R -> near b32 at_ al sl -> (Rabs al + sl <= g)%R -> (Rabs (1 - al) + sl <= g)%R -> (1 <= g <= 13)%R ->
  (forall a b, (a = row \/ a = row + 1)%Z -> (b = col \/ b = col + 1)%Z -> near b32 (X a b) (c (lo a b) (la a b)) 3.6 /\ (Rabs (c (lo a b) (la a b)) <= 6370997)%R) ->
  (forall r, (r = row \/ r = row + 1)%Z -> Rabs (c (lo r (col + 1)%Z) (la r (col + 1)%Z) - c (lo r col) (la r col)) <= L)%R ->
  near b32 (fine_value vt at_ (X row col) (X row (col + 1)) (X (row + 1) (col + 1)) (X (row + 1) col))
    (corners (fun a b => c (lo a b) (la a b)) row col v al) (27 * g + 2 * L * sl).
Proof.
  intros Nv Bv (a & Ea & Fa & Da) G1 G2 Hg HX HL.
  assert (V1 : (Rabs v <= 1.5)%R) by (apply Rabs_le; lra). assert (V2 : (Rabs (1 - v) <= 1.5)%R) by (apply Rabs_le; lra).
  assert (V3 : (Rabs v + Rabs (1 - v) <= 2)%R).
  { unfold Rabs. destruct (Rcase_abs v), (Rcase_abs (1 - v)); lra. }
  assert (B1 : (Rabs a <= g)%R).
  { replace a with ((a - al) + al)%R by ring. eapply Rle_trans; [apply Rabs_triang|]. lra. }
  assert (B2 : (Rabs (1 - a) <= g)%R).
  { replace (1 - a)%R with ((1 - al) - (a - al))%R by ring. unfold Rminus at 1. eapply Rle_trans; [apply Rabs_triang|]. rewrite Rabs_Ropp. lra. }
  destruct (HX row col) as [N1 M1]; auto. destruct (HX row (col + 1)%Z) as [N2 M2]; auto.
  destruct (HX (row + 1)%Z (col + 1)%Z) as [N3 M3]; auto. destruct (HX (row + 1)%Z col) as [N4 M4]; auto.
  rewrite Ea. eapply near_move; [|apply (near_fine m vt v a _ _ _ _ _ _ _ _ g Nv V1 V2 V3 Fa B1 B2 Hg N1 N2 N3 N4 M1 M2 M3 M4)].
  pose proof (corners_move (fun a b => c (lo a b) (la a b)) row col v a al L V3 (HL row (or_introl eq_refl)) (HL (row + 1)%Z (or_intror eq_refl))) as CM.
  unfold corners in CM |- *.
  assert (L0 : (0 <= L)%R) by (eapply Rle_trans; [apply Rabs_pos|apply (HL row); auto]).
  assert (2 * L * Rabs (a - al) <= 2 * L * sl)%R by (apply Rmult_le_compat_l; lra). lra.
Qed.
End Floats.

(** Every pixel of a whole scan: the position computed in floats is within 27 m per unit of reach, plus the spread of the
    cell times the error of the weight, of the exact one of C69_pixels; longitude and latitude are those of the computed
    position up to 0.000016 degrees. *)
Theorem C74_pixels : forall m k g n w (lon lat satz olon olat : ndarray (option R)) (lo la z : Z -> Z -> R),
  in_range b64 pi64 m -> accurate b64 m ->
  even_grid k -> 0 <= n -> std_width k w -> shaped Float32 n w lon lat satz ->
  (forall a b, 0 <= a < n -> 0 <= b < w -> aat lon a b = Some (lo a b) /\ aat lat a b = Some (la a b) /\ aat satz a b = Some (z a b) /\
     (Rabs (lo a b) <= 180 /\ Rabs (la a b) <= 90 /\ 0 <= z a b <= 70)%R) ->
  @modis _ (F64_32 m) k g lon lat satz = Ok (olon, olat) ->
  forall s j i, 0 <= s -> (s + 1) * scan_len k <= n -> 0 <= j < fine_len k -> 0 <= i < fine_width k ->
    let row := s * scan_len k + row_cell k j in let col := col_cell k w i in
    let u := (scan_pos k i - IZR col)%R in let v := (track_pos k j - IZR (row_cell k j))%R in
    forall fa ta fb tb, seen (degrees (z row col)) fa ta -> seen (degrees (z row (col + 1))) fb tb ->
    let sep := apart (z row col) (z row (col + 1)) ta tb in (1e-5 <= sep)%R ->
    exists e l, @exp_ali _ RN (km k) (Some (z row col)) (Some (z row (col + 1))) = (Some e, Some l) /\
      let along := (u + u * (1 - u) * e + v * (1 - v) * l)%R in
      let place (coordinate : R -> R -> R) := corners (fun a b => coordinate (lo a b) (la a b)) row col v along in
      let off := ((0.000013 * Rabs (u * (1 - u)) + 0.00000061) * / sep + 0.000007)%R in
      forall L reach, spread lo la row col L -> (1 <= reach <= 13)%R -> (Rabs along + off <= reach)%R -> (Rabs (1 - along) + off <= reach)%R ->
      let far := (27 * reach + 2 * L * off)%R in
      exists x y h, (Rabs (x - place at_x) <= far /\ Rabs (y - place at_y) <= far /\ Rabs (h - place at_z) <= far)%R /\
        (aat olon (s * fine_len k + j) i, aat olat (s * fine_len k + j) i) =
          @cy_xyz2lonlat _ (F64_32 m) true (@nst _ (F64_32 m) (@ndiv _ (F64_32 m) (@nz _ (F64_32 m) 8) (@nz _ (F64_32 m) 10))) (Some x, Some y, Some h) /\
        (far <= 40000 -> place at_x * place at_x + place at_y * place at_y + place at_z * place at_z <= 6 / 5 * (6370997 * 6370997) ->
         far + 1 <= Rabs (place at_x) \/ far + 1 <= Rabs (place at_y) ->
         near_exact 6370997 (8 / 10) (16 / 1000000) x y h (aat olon (s * fine_len k + j)%Z i, aat olat (s * fine_len k + j)%Z i))%R.
Proof.
  intros m k g n w lon lat satz olon olat lo la z HR HA Hk Hn Hw S F O s j i Hs Hsn Hj Hi row col u v fa ta fb tb Sa Sb sep Hsep.
  set (N := F64_32 m) in *.
  destruct (@modis_run _ N k g n w lon lat satz Hn Hw S) as (c & p & a & b & L & E1 & E2 & E3 & E4 & E5 & Rn & _ & V).
  rewrite Rn in O. injection O as -> ->.
  assert (K : (scan_len k = 10 \/ scan_len k = 2) /\ (factor k = 2 \/ factor k = 4 \/ factor k = 5))
    by (destruct Hk as [-> |[-> | ->]]; cbn [scan_len factor]; auto).
  assert (HF : 0 < fine_len k) by (unfold fine_len; nia).
  assert (W2 : 2 <= w) by (destruct k; cbn [std_width] in Hw; lia).
  destruct (grid_place k w c p L Hk Hw E1 E2 E3 E4 E5) as [GX GY].
  pose proof (cell_r_range c p L j) as CRR. pose proof (cell_c_range c p L i) as CCR. rewrite E1 in CRR. rewrite E4 in CCR.
  assert (FA : is_1km k = false -> fac c = 2 /\ cpp c = 5 /\ scl c = 2).
  { intros B. destruct L as [_ [(A & _)|(A1 & _ & -> & _ & _ & ->)]].
    - exfalso. destruct Hk as [-> |[-> | ->]]; [discriminate B|discriminate B|]. cbn [scan_len] in E1. congruence.
    - destruct Hk as [-> |[-> | ->]]; [discriminate B|discriminate B|]. subst p. cbn [fine_width]. auto. }
  assert (CP : cpp c = km k).
  { unfold km. destruct (is_1km k) eqn:B; [|now apply FA]. destruct L as [_ [(_ & _ & A & _)|(A & _)]]; [exact A|].
    destruct Hk as [-> |[-> | ->]]; cbn [scan_len] in E1; [congruence|congruence|discriminate B]. }
  assert (CC : cell_c c i = col).
  { unfold cell_c, col, col_cell, first_col, clampz. rewrite E1, E2, E4. destruct Hk as [-> |[-> | ->]]; cbn [is_1km scan_len Z.eqb Pos.eqb]; try reflexivity.
    destruct (FA eq_refl) as (-> & _). reflexivity. }
  assert (CR : cell_r c j = row_cell k j).
  { unfold cell_r, row_cell, clampz. rewrite E1, E2. destruct Hk as [-> |[-> | ->]]; cbn [scan_len factor Z.eqb Pos.eqb].
    - change (4 / 2) with 2. f_equal. f_equal. replace (2 * j - (4 - 1)) with (2 * (j - 2) + 1) by ring. 
      pose proof (Z.div_mod (2 * (j - 2) + 1) (2 * 4) ltac:(lia)). pose proof (Z.mod_pos_bound (2 * (j - 2) + 1) (2 * 4) ltac:(lia)).
      pose proof (Z.div_mod (j - 2) 4 ltac:(lia)). pose proof (Z.mod_pos_bound (j - 2) 4 ltac:(lia)). lia.
    - change (2 / 2) with 1. f_equal. f_equal. replace (2 * j - (2 - 1)) with (2 * (j - 1) + 1) by ring.
      pose proof (Z.div_mod (2 * (j - 1) + 1) (2 * 2) ltac:(lia)). pose proof (Z.mod_pos_bound (2 * (j - 1) + 1) (2 * 2) ltac:(lia)).
      pose proof (Z.div_mod (j - 1) 2 ltac:(lia)). pose proof (Z.mod_pos_bound (j - 1) 2 ltac:(lia)). lia.
    - lia. }
  pose proof (u_range k w i Hk Hw Hi) as UR. fold col in UR. fold u in UR. pose proof (v_range k j Hk Hj) as VR. cbv zeta in VR. fold v in VR.
  assert (FR : (2 <= IZR (factor k) <= 5)%R) by (split; apply IZR_le; lia).
  assert (EU : near b32 (@fdiv _ N (@xc _ N c i) (@nz _ N (ff c))) u 1.35e-7).
  { specialize (GX i Hi). assert (X : xpos c i = i - first_col k - factor k * col) by (rewrite CC in GX; rewrite <- E2; unfold first_col; lia).
    assert (UX : u = (IZR (xpos c i) / IZR (factor k))%R).
    { rewrite X, !minus_IZR, mult_IZR. unfold u, scan_pos. field. lra. }
    assert (XB : (Z.abs (xpos c i) < 2 ^ 24)%Z).
    { apply lt_IZR. rewrite abs_IZR. apply Rle_lt_trans with 12%R; [|change (IZR (2 ^ 24)) with 16777216%R; lra].
      assert (UE : IZR (xpos c i) = (u * IZR (factor k))%R) by (rewrite UX; field; lra).
      rewrite UE, Rabs_mult, (Rabs_pos_eq (IZR (factor k))) by lra. assert (Rabs u <= 2.25)%R by (apply Rabs_le; lra).
      assert (Rabs u * IZR (factor k) <= 2.25 * 5)%R by (apply Rmult_le_compat; auto using Rabs_pos; lra). lra. }
    destruct (xc_exact m c i XB) as [EX FX]. change (FP m) with N in EX. rewrite EX. rewrite E2. rewrite UX.
    assert (AU : (Rabs (IZR (xpos c i) / IZR (factor k)) <= 2.25)%R) by (rewrite <- UX; apply Rabs_le; lra).
    eapply near_weaken; [|apply (nf_div m _ _ _ _ 0 0 2.25 1 2.25 (near_0 _ _ FX) (nf_nz m (factor k) ltac:(lia)) AU)].
    - unfold h. lra.
    - rewrite Rabs_pos_eq; lra.
    - lra.
    - lra.
    - unfold usual. lra. }
  assert (EV : near b32 (@fdiv _ N (@yc _ N c j) (@nz _ N (ff c))) v 9e-8).
  { specialize (GY j Hj). rewrite CR in GY.
    assert (VX : v = (@yc _ RT c j / IZR (factor k))%R).
    { replace (@yc _ RT c j) with (IZR j - (IZR (factor k) - 1) / 2 - IZR (factor k) * IZR (row_cell k j))%R by lra. unfold v, track_pos. field. lra. }
    destruct (yc_exact m c j) as [EY FY]; [rewrite E2; lia|unfold fine_len in Hj; nia|rewrite E1; lia|]. change (FP m) with N in EY. rewrite EY. rewrite E2, VX.
    assert (AV : (Rabs (@yc _ RT c j / IZR (factor k)) <= 1.5)%R) by (rewrite <- VX; apply Rabs_le; lra).
    eapply near_weaken; [|apply (nf_div m _ _ _ _ 0 0 1.5 1 1.5 (near_0 _ _ FY) (nf_nz m (factor k) ltac:(lia)) AV)].
    - unfold h. lra.
    - rewrite Rabs_pos_eq; lra.
    - lra.
    - lra.
    - unfold usual. lra. }
  rewrite CR in CRR. rewrite CC in CCR.
  assert (RB : 0 <= row /\ row + 1 < n) by (unfold row; nia).
  destruct (F row col ltac:(lia) ltac:(lia)) as (La & Lb & Za & B1 & B2 & Ba). destruct (F row (col + 1) ltac:(lia) ltac:(lia)) as (Lc & Ld & Zb & B3 & B4 & Bb).
  destruct (F (row + 1) col ltac:(lia) ltac:(lia)) as (Le & Lf & _ & B5 & B6 & _). destruct (F (row + 1) (col + 1) ltac:(lia) ltac:(lia)) as (Lg & Lh & _ & B7 & B8 & _).
  destruct (coef_near m HA (km k) (z row col) (z row (col + 1)) ta tb fa fb) as (e & l & EA & Ne & Be & Nl & Bl);
    [unfold km; destruct (is_1km k); auto|exact Ba|exact Bb|exact Sa|exact Sb|exact Hsep|].
  fold sep in Ne, Nl, Bl. exists e, l. split; [exact EA|]. intros along place off LL reach HL Hre R1 R2 far.
  assert (HRo : 0 <= s * fine_len k + j < n * factor k) by (unfold fine_len in *; nia).
  pose proof (V (s * fine_len k + j) i HRo Hi) as P.
  pose proof (flat2_at (fine_len k) (fun a _ => a) s j Hj) as D1. pose proof (flat2_at (fine_len k) (fun _ b => b) s j Hj) as D2. unfold flat2 in D1, D2.
  rewrite D1, D2 in P.
  destruct (Z.ltb_spec (s * fine_len k + j) (n / scan_len k * fine_len k)) as [_|B];
    [|exfalso; assert (s + 1 <= n / scan_len k) by (apply Z.div_le_lower_bound; lia); nia].
  rewrite P. clear P V Rn D1 D2. unfold pixel, scan_ll, thr8, a_scan_at, fine_xyz, fine_comp. cbv zeta.
  rewrite CC, CR, CP, E1.
  replace (s * scan_len k + (row_cell k j + 1)) with (row + 1) by (unfold row; ring). fold row. rewrite Za, Zb.
  set (ut := @fdiv _ N (@xc _ N c i) (@nz _ N (ff c))) in *. set (vt := @fdiv _ N (@yc _ N c j) (@nz _ N (ff c))) in *.
  set (ea := @exp_ali _ N (km k) (Some (z row col)) (Some (z row (col + 1)))) in *.
  assert (V1 : (Rabs v <= 1.5)%R) by (apply Rabs_le; lra). assert (V2 : (Rabs (1 - v) <= 1.5)%R) by (apply Rabs_le; lra).
  assert (V3 : (Rabs (v * (1 - v)) <= 0.75)%R).
  { apply Rabs_le. split; [|pose proof (Rle_0_sqr (v - 0.5)) as SQ; unfold Rsqr in SQ; lra].
    assert (0 <= (1.5 - v) * (v + 0.5))%R by (apply Rmult_le_pos; lra). lra. }
  pose proof (near_along m ut u vt v (fst ea) e (snd ea) l sep EU UR EV V1 V2 V3 Hsep Ne Be Nl Bl) as NA. fold along in NA.
  assert (Esl : slack u sep = off) by (unfold slack, off; do 2 f_equal; lra).
  rewrite Esl in NA. change (FP m) with N in NA. set (at_ := @a_scan_value _ N ut vt (fst ea) (snd ea)) in *.
  set (T := fun a b => @cy_lonlat2xyz _ N (aat lon a b) (aat lat a b)).
  assert (HT : forall a b, (a = row \/ a = row + 1) -> (b = col \/ b = col + 1) -> corner_ok (T a b) (lo a b) (la a b)).
  { intros a b Hra Hcb. unfold T. destruct Hra as [-> | ->], Hcb as [-> | ->]; rewrite ?La, ?Lb, ?Lc, ?Ld, ?Le, ?Lf, ?Lg, ?Lh; apply (near_corner m HA); assumption. }
  fold (T row col) (T row (col + 1)) (T (row + 1) (col + 1)) (T (row + 1) col).
  assert (NX : near b32 (@fine_value _ N vt at_ (comp 0 (T row col)) (comp 0 (T row (col + 1))) (comp 0 (T (row + 1) (col + 1))) (comp 0 (T (row + 1) col))) (place at_x) far).
  { apply (comp_near m at_x (fun a b => comp 0 (T a b)) lo la row col vt v at_ along off LL reach EV VR NA R1 R2 Hre).
    - intros a b Hra Hcb. split; [apply (HT a b Hra Hcb)|apply at_bound].
    - intros r Hr. apply (HL r Hr). }
  assert (NY : near b32 (@fine_value _ N vt at_ (comp 1 (T row col)) (comp 1 (T row (col + 1))) (comp 1 (T (row + 1) (col + 1))) (comp 1 (T (row + 1) col))) (place at_y) far).
  { apply (comp_near m at_y (fun a b => comp 1 (T a b)) lo la row col vt v at_ along off LL reach EV VR NA R1 R2 Hre).
    - intros a b Hra Hcb. split; [apply (HT a b Hra Hcb)|apply at_bound].
    - intros r Hr. apply (HL r Hr). }
  assert (NZ : near b32 (@fine_value _ N vt at_ (comp 2 (T row col)) (comp 2 (T row (col + 1))) (comp 2 (T (row + 1) (col + 1))) (comp 2 (T (row + 1) col))) (place at_z) far).
  { apply (comp_near m at_z (fun a b => comp 2 (T a b)) lo la row col vt v at_ along off LL reach EV VR NA R1 R2 Hre).
    - intros a b Hra Hcb. split; [apply (HT a b Hra Hcb)|apply at_bound].
    - intros r Hr. apply (HL r Hr). }
  destruct NX as (x & -> & Fx & Dx). destruct NY as (y & -> & Fy & Dy). destruct NZ as (h & -> & Fh & Dh).
  exists x, y, h. split; [auto|]. split; [reflexivity|]. intros Hfar Hball Haxis.
  apply (proj2 (C72_cython m x y h HR HA)).
  pose proof (Rabs_le_inv _ _ Dx) as Dx'. pose proof (Rabs_le_inv _ _ Dy) as Dy'. pose proof (Rabs_le_inv _ _ Dh) as Dh'.
  set (px := place at_x) in *. set (py := place at_y) in *. set (pz := place at_z) in *. clearbody px py pz far.
  clear -Fx Fy Fh Dx' Dy' Dh' Hfar Hball Haxis.
  assert (B7 : forall t, (t * t <= 6 / 5 * (6370997 * 6370997) -> - 7000000 <= t <= 7000000)%R).
  { intros t Ht. split; apply Rnot_lt_le; intros Hlt.
    - assert (7000000 * 7000000 <= (- t) * (- t))%R by (apply Rmult_le_compat; lra). lra.
    - assert (7000000 * 7000000 <= t * t)%R by (apply Rmult_le_compat; lra). lra. }
  pose proof (Rle_0_sqr px) as Qx. pose proof (Rle_0_sqr py) as Qy. pose proof (Rle_0_sqr pz) as Qz. unfold Rsqr in Qx, Qy, Qz.
  pose proof (B7 px ltac:(lra)) as Px. pose proof (B7 py ltac:(lra)) as Py. pose proof (B7 pz ltac:(lra)) as Pz.
  assert (SQ : forall t p, (-far <= t - p <= far -> -7000000 <= p <= 7000000 -> t * t <= p * p + 2 * 7000000 * 40000 + 40000 * 40000)%R).
  { intros t p Ht Hp. assert (AT : (Rabs (t - p) <= 40000)%R) by (apply Rabs_le; lra). assert (AP : (Rabs p <= 7000000)%R) by (apply Rabs_le; lra).
    replace (t * t)%R with (p * p + 2 * (p * (t - p)) + (t - p) * (t - p))%R by ring.
    assert (p * (t - p) <= 7000000 * 40000)%R.
    { eapply Rle_trans; [apply Rle_abs|]. rewrite Rabs_mult. apply Rmult_le_compat; auto using Rabs_pos. }
    assert ((t - p) * (t - p) <= 40000 * 40000)%R.
    { eapply Rle_trans; [apply Rle_abs|]. rewrite Rabs_mult. apply Rmult_le_compat; auto using Rabs_pos. }
    lra. }
  pose proof (SQ x px Dx' Px). pose proof (SQ y py Dy' Py). pose proof (SQ h pz Dh' Pz).
  split; [exact Fx|]. split; [exact Fy|]. split; [exact Fh|]. split; [lra|].
  assert (ONE : (bpow radix2 (-60) <= 1)%R) by (change 1%R with (bpow radix2 0); apply bpow_le; lia).
  destruct Haxis as [A|A]; [left|right]; (eapply Rle_trans; [exact ONE|]).
  - pose proof (Rabs_triang x (px - x)) as T. replace (x + (px - x))%R with px in T by ring. assert (Rabs (px - x) <= far)%R by (apply Rabs_le; lra). lra.
  - pose proof (Rabs_triang y (py - y)) as T. replace (y + (py - y))%R with py in T by ring. assert (Rabs (py - y) <= far)%R by (apply Rabs_le; lra). lra.
Qed.
Print Assumptions C74_pixels.

(** The separation in degrees of zenith angle: angles 0.006 degrees apart are enough (MODIS stores them in steps of 0.01 degrees) *)
Theorem C74_apart : forall a b fa ta fb tb, (0 <= a <= 70 -> 0 <= b <= 70 ->
  seen (degrees a) fa ta -> seen (degrees b) fb tb ->
  (a <> b -> PI / 1800 * Rabs (a - b) <= apart a b ta tb) /\ (a = b -> PI / 900 * a <= apart a b ta tb) /\
  (6 / 1000 <= Rabs (a - b) \/ a = b /\ 3 / 1000 <= a -> 1e-5 <= apart a b ta tb))%R.
Proof.
  intros a b fa ta fb tb Ba Bb Sa Sb. pose proof (rad_70 a Ba) as Ra. pose proof (rad_70 b Bb) as Rb. pose proof z70_89 as Z9. pose proof PI_bounds as P.
  destruct (seen_phi (degrees a) fa ta) as [_ Ea]; [unfold degrees; lra|exact Sa|]. destruct (seen_phi (degrees b) fb tb) as [_ Eb]; [unfold degrees; lra|exact Sb|].
  change (degrees a - phiR (degrees a))%R with (thetaR (degrees a)) in Ea. change (degrees b - phiR (degrees b))%R with (thetaR (degrees b)) in Eb.
  assert (D1 : a <> b -> (PI / 1800 * Rabs (a - b) <= apart a b ta tb)%R).
  { intros N. unfold apart. destruct (Req_EM_T a b) as [E|_]; [contradiction|]. rewrite Ea, Eb.
    destruct (theta_diff (degrees a) (degrees b) Ra Rb) as [T _]. eapply Rle_trans; [|exact T]. unfold degrees. rewrite <- Rmult_minus_distr_r, Rabs_mult, (Rabs_pos_eq (PI / 180)) by lra. lra. }
  assert (D2 : a = b -> (PI / 900 * a <= apart a b ta tb)%R).
  { intros E. unfold apart. destruct (Req_EM_T a b) as [_|N]; [|contradiction]. rewrite Ea. destruct (theta_range (degrees a) Ra) as [T _]. unfold degrees in T at 1. lra. }
  split; [exact D1|]. split; [exact D2|]. intros [H|[E H]].
  - assert (N : a <> b) by (intros ->; unfold Rminus in H; rewrite Rplus_opp_r, Rabs_R0 in H; lra). specialize (D1 N).
    assert (PI / 1800 * (6 / 1000) <= PI / 1800 * Rabs (a - b))%R by (apply Rmult_le_compat_l; lra). lra.
  - specialize (D2 E). assert (PI / 900 * (3 / 1000) <= PI / 900 * a)%R by (apply Rmult_le_compat_l; lra). lra.
Qed.
Print Assumptions C74_apart.

(** The coefficients *)
Theorem C74_coefficients : forall m w a b fa ta fb tb, accurate b64 m -> (w = 1 \/ w = 5) -> (0 <= a <= 70)%R -> (0 <= b <= 70)%R ->
  seen (degrees a) fa ta -> seen (degrees b) fb tb -> let sep := apart a b ta tb in (1e-5 <= sep)%R ->
  exists e l e' l', @exp_ali _ RN w (Some a) (Some b) = (Some e, Some l) /\ @exp_ali _ (F64_32 m) w (Some a) (Some b) = (Some e', Some l') /\
    (Rabs e <= 2 /\ Rabs l <= 0.000008 / sep /\ Rabs (e' - e) <= 0.000013 / sep /\ Rabs (l' - l) <= 0.0000008 / sep)%R.
Proof.
  intros m w a b fa ta fb tb HA Hw Ba Bb Sa Sb sep Hs.
  destruct (coef_near m HA w a b ta tb fa fb Hw Ba Bb Sa Sb Hs) as (e & l & E & (e' & Ee & _ & De) & Be & (l' & El & _ & Dl) & Bl).
  exists e, l, e', l'. split; [exact E|]. fold sep in De, Dl, Bl. change (FM m) with (F64_32 m) in Ee, El. split.
  - destruct (@exp_ali _ (F64_32 m) w (Some a) (Some b)) as [q r]. cbn [fst snd] in Ee, El. congruence.
  - unfold Rdiv in *. assert (0 < / sep)%R by (apply Rinv_0_lt_compat; lra). lra.
Qed.
Print Assumptions C74_coefficients.

(** ** A case: 5 km to 1 km, two rows, tie points 1/64 degree apart seen under 1, 1.125, ... degrees; row 0, column 4 *)
Definition case_lon : ndarray (option R) := {| adt := Float32; arows := 2; acols := 271; aat := fun _ b => Some (IZR b / 64)%R |}.
Definition case_lat : ndarray (option R) := {| adt := Float32; arows := 2; acols := 271; aat := fun a _ => Some (IZR a / 64)%R |}.
Definition case_satz : ndarray (option R) := {| adt := Float32; arows := 2; acols := 271; aat := fun _ b => Some (1 + IZR b / 8)%R |}.
Lemma seen_at z : (0 <= z <= z89)%R -> seen z (phiR z) (thetaR z).
Proof.
  intros Hz. split; [exact (phiR_range z Hz)|]. split; [|reflexivity]. rewrite (sin_phiR z Hz). unfold kap. change earth with Re. change height with Alt. field. exact sum_pos.
Qed.
Lemma corners_close f row col v a c d : (forall r q, (r = row \/ r = row + 1)%Z -> (q = col \/ q = col + 1)%Z -> Rabs (f r q - c) <= d)%R ->
  (Rabs (corners f row col v a - c) <= (Rabs (1 - v) + Rabs v) * (Rabs (1 - a) + Rabs a) * d)%R.
Proof.
  intros H. unfold corners.
  replace ((1 - v) * ((1 - a) * f row col + a * f row (col + 1)%Z) + v * ((1 - a) * f (row + 1)%Z col + a * f (row + 1)%Z (col + 1)%Z) - c)%R
    with ((1 - v) * ((1 - a) * (f row col - c) + a * (f row (col + 1)%Z - c)) + v * ((1 - a) * (f (row + 1)%Z col - c) + a * (f (row + 1)%Z (col + 1)%Z - c)))%R by ring.
  assert (Q : forall p q, (Rabs p <= d -> Rabs q <= d -> Rabs ((1 - a) * p + a * q) <= (Rabs (1 - a) + Rabs a) * d)%R).
  { intros p q Hp Hq. eapply Rle_trans; [apply Rabs_triang|]. rewrite !Rabs_mult, Rmult_plus_distr_r. apply Rplus_le_compat; apply Rmult_le_compat_l; auto using Rabs_pos. }
  eapply Rle_trans; [apply Rabs_triang|]. rewrite !Rabs_mult, Rmult_assoc, Rmult_plus_distr_r. apply Rplus_le_compat; apply Rmult_le_compat_l; auto using Rabs_pos.
Qed.
Lemma near_origin lo la : (0 <= lo <= 1 / 64 -> 0 <= la <= 1 / 64 ->
  Rabs (at_x lo la - 6370997) <= 3500 /\ Rabs (at_y lo la - 0) <= 3500 /\ Rabs (at_z lo la - 0) <= 3500)%R.
Proof.
  intros H1 H2. pose proof PI_bounds as P. unfold at_x, at_y, at_z.
  assert (A : forall t, (0 <= t <= 1 / 64 -> Rabs (t * (PI / 180)) <= 0.000273)%R).
  { intros t Ht. rewrite Rabs_mult, !Rabs_pos_eq by lra. apply Rle_trans with (1 / 64 * (PI / 180))%R; [apply Rmult_le_compat_r; lra|lra]. }
  pose proof (A lo H1) as Al. pose proof (A la H2) as Ap. clear A. set (l := (lo * (PI / 180))%R) in *. set (p := (la * (PI / 180))%R) in *. clearbody l p.
  pose proof (cos_lip l 0) as C1. pose proof (cos_lip p 0) as C2. pose proof (sin_lip l 0) as S1. pose proof (sin_lip p 0) as S2.
  rewrite ?cos_0, ?sin_0, ?Rminus_0_r in *. 
  assert (K1 : (Rabs (cos l) <= 1)%R) by (apply Rabs_le, COS_bound). assert (K2 : (Rabs (cos p) <= 1)%R) by (apply Rabs_le, COS_bound).
  split; [|split].
  - replace (6370997 * cos p * cos l - 6370997)%R with (6370997 * ((cos p - 1) * cos l + (cos l - 1)))%R by ring.
    rewrite Rabs_mult, (Rabs_pos_eq 6370997) by lra. pose proof (Rabs_triang ((cos p - 1) * cos l) (cos l - 1)) as T. rewrite Rabs_mult in T.
    assert (Rabs (cos p - 1) * Rabs (cos l) <= 0.000273 * 1)%R by (apply Rmult_le_compat; auto using Rabs_pos; lra). lra.
  - rewrite !Rabs_mult, (Rabs_pos_eq 6370997) by lra.
    assert (Rabs (cos p) * Rabs (sin l) <= 1 * 0.000273)%R by (apply Rmult_le_compat; auto using Rabs_pos; lra). lra.
  - rewrite Rabs_mult, (Rabs_pos_eq 6370997) by lra. lra.
Qed.
Example C74_pixels_case : forall m g, in_range b64 pi64 m -> accurate b64 m ->
  exists olon olat x y h, @modis _ (F64_32 m) M5km_1km g case_lon case_lat case_satz = Ok (olon, olat) /\
    (Rabs (x - 6370997) <= 20000 /\ Rabs y <= 20000 /\ Rabs h <= 20000)%R /\
    near_exact 6370997 (8 / 10) (16 / 1000000) x y h (aat olon 0 4, aat olat 0 4).
Proof.
  intros m g HR HA. set (lo := fun (_ b : Z) => (IZR b / 64)%R). set (la := fun (a _ : Z) => (IZR a / 64)%R). set (z := fun (_ b : Z) => (1 + IZR b / 8)%R).
  assert (SH : shaped Float32 2 271 case_lon case_lat case_satz) by (repeat split).
  destruct (@modis_run _ (F64_32 m) M5km_1km g 2 271 case_lon case_lat case_satz ltac:(lia) (or_intror eq_refl) SH) as (c & p & olon & olat & _ & _ & _ & _ & _ & _ & O & _).
  exists olon, olat.
  assert (VAL : forall a b, 0 <= a < 2 -> 0 <= b < 271 -> aat case_lon a b = Some (lo a b) /\ aat case_lat a b = Some (la a b) /\ aat case_satz a b = Some (z a b) /\
     (Rabs (lo a b) <= 180 /\ Rabs (la a b) <= 90 /\ 0 <= z a b <= 70)%R).
  { intros a b Hra Hcb. assert (0 <= IZR a <= 2)%R by (split; apply IZR_le; lia). assert (0 <= IZR b <= 271)%R by (split; apply IZR_le; lia).
    unfold lo, la, z. repeat split; try reflexivity; try (rewrite Rabs_pos_eq; lra); lra. }
  pose proof (C74_pixels m M5km_1km g 2 271 case_lon case_lat case_satz olon olat lo la z HR HA ltac:(unfold even_grid; auto) ltac:(lia) (or_intror eq_refl) SH VAL O 0 0 4
    ltac:(lia) ltac:(cbn; lia) ltac:(cbn; lia) ltac:(cbn; lia)) as C.
  change (row_cell M5km_1km 0) with 0%Z in C. change (col_cell M5km_1km 271 4) with 0%Z in C. cbv zeta in C. change (0 * scan_len M5km_1km + 0) with 0 in C. change (0 + 1) with 1 in C.
  change (0 * fine_len M5km_1km + 0) with 0 in C.
  pose proof PI_bounds as P. assert (K1 : (0 <= degrees 1 <= z89)%R) by (unfold degrees, z89; lra). assert (K2 : (0 <= degrees 1.125 <= z89)%R) by (unfold degrees, z89; lra).
  assert (Z0 : z 0 0 = 1%R) by (unfold z; lra). assert (Z1 : z 0 1 = 1.125%R) by (unfold z; lra). rewrite Z0, Z1 in C.
  pose proof (seen_at _ K1) as S1. pose proof (seen_at _ K2) as S2.
  specialize (C _ _ _ _ S1 S2).
  destruct (C74_apart 1 1.125 _ _ _ _ ltac:(lra) ltac:(lra) S1 S2) as (A1 & _ & A3).
  assert (AB : (Rabs (1 - 1.125) = 0.125)%R) by (rewrite Rabs_left1; lra). rewrite AB in A1, A3. specialize (A1 ltac:(lra)). specialize (A3 ltac:(lra)).
  specialize (C A3). set (sep := apart 1 1.125 (thetaR (degrees 1)) (thetaR (degrees 1.125))) in *.
  destruct C as (e & l & EA & C).
  destruct (C74_coefficients m 5 1 1.125 _ _ _ _ HA (or_intror eq_refl) ltac:(lra) ltac:(lra) S1 S2 A3) as (e0 & l0 & _ & _ & EA' & _ & Be & Bl & _).
  change (km M5km_1km) with 5%Z in EA. rewrite EA in EA'. injection EA' as <- <-. fold sep in Bl.
  assert (IS : (0 < / sep <= 4600)%R).
  { split; [apply Rinv_0_lt_compat; lra|]. replace 4600%R with (/ (/ 4600))%R by lra. apply Rinv_le_contravar; lra. }
  assert (U : (scan_pos M5km_1km 4 - 0 = 0.4)%R) by (unfold scan_pos, first_col; cbn [is_1km factor]; lra).
  assert (Vv : (track_pos M5km_1km 0 - 0 = - 0.4)%R) by (unfold track_pos; cbn [factor]; lra). rewrite U, Vv in C.
  set (al := (0.4 + 0.4 * (1 - 0.4) * e + - 0.4 * (1 - - 0.4) * l)%R) in *.
  assert (U2 : (Rabs (0.4 * (1 - 0.4)) = 0.24)%R) by (rewrite Rabs_pos_eq; lra). rewrite U2 in C.
  set (off := ((0.000013 * 0.24 + 0.00000061) * / sep + 0.000007)%R) in *.
  assert (OB : (0 <= off <= 0.018)%R) by (unfold off; lra).
  assert (LB : (Rabs l <= 0.037)%R) by (unfold Rdiv in Bl; lra). apply Rabs_le_inv in LB, Be.
  assert (AL : (-0.11 <= al <= 0.91)%R) by (unfold al; lra).
  assert (SP : spread lo la 0 0 7000).
  { assert (Q : forall r q, (r = 0 \/ r = 1) -> (q = 0 \/ q = 1) -> (0 <= lo r q <= 1 / 64 /\ 0 <= la r q <= 1 / 64)%R).
    { intros r q [-> | ->] [-> | ->]; unfold lo, la; lra. }
    intros r Hr. change (0 + 1) with 1 in *. destruct (near_origin (lo r 1) (la r 1)) as (X1 & Y1 & W1); [apply Q; auto|apply Q; auto|].
    destruct (near_origin (lo r 0) (la r 0)) as (X0 & Y0 & W0); [apply Q; auto|apply Q; auto|].
    apply Rabs_le_inv in X0, X1, Y0, Y1, W0, W1. repeat split; apply Rabs_le; lra. }
  assert (R1 : (Rabs al + off <= 1.2)%R).
  { assert (Rabs al <= 0.91)%R by (apply Rabs_le; lra). lra. }
  assert (R2 : (Rabs (1 - al) + off <= 1.2)%R).
  { assert (Rabs (1 - al) <= 1.11)%R by (apply Rabs_le; lra). lra. }
  destruct (C 7000%R 1.2%R SP ltac:(lra) R1 R2) as (x & y & h & (Dx & Dy & Dh) & _ & NE). clear C.
  exists x, y, h. split; [exact O|].
  assert (CL : forall (cf : R -> R -> R) c0, (forall lo la, (0 <= lo <= 1 / 64 -> 0 <= la <= 1 / 64 -> Rabs (cf lo la - c0) <= 3500)%R) ->
    (Rabs (corners (fun a b => cf (lo a b) (la a b)) 0 0 (-0.4) al - c0) <= 15000)%R).
  { intros cf c0 Hc. eapply Rle_trans; [apply (corners_close _ 0 0 (-0.4) al c0 3500)|].
    - intros r q Hr Hq. apply Hc; unfold lo, la; destruct Hr as [-> | ->], Hq as [-> | ->]; cbn [Z.add]; lra.
    - rewrite (Rabs_pos_eq (1 - -0.4)), (Rabs_left1 (-0.4)) by lra.
      assert (Rabs (1 - al) + Rabs al <= 1.22)%R. { unfold Rabs. destruct (Rcase_abs (1 - al)), (Rcase_abs al); lra. }
      replace (1 - -0.4 + - -0.4)%R with 1.8%R by lra. lra. }
  pose proof (CL at_x 6370997%R ltac:(intros; now apply near_origin)) as PX. pose proof (CL at_y 0%R ltac:(intros; now apply near_origin)) as PY. pose proof (CL at_z 0%R ltac:(intros; now apply near_origin)) as PZ.
  set (px := corners (fun a b => at_x (lo a b) (la a b)) 0 0 (-0.4) al) in *. set (py := corners (fun a b => at_y (lo a b) (la a b)) 0 0 (-0.4) al) in *.
  set (pz := corners (fun a b => at_z (lo a b) (la a b)) 0 0 (-0.4) al) in *.
  assert (FA : (27 * 1.2 + 2 * 7000 * off <= 300)%R) by lra.
  apply Rabs_le_inv in PX, PY, PZ. split.
  - apply Rabs_le_inv in Dx, Dy, Dh. repeat split; apply Rabs_le; lra.
  - apply NE; [lra| |left; rewrite Rabs_pos_eq; lra].
    assert (px * px <= 6390000 * 6390000)%R by (apply Rmult_le_compat; lra).
    assert (forall t, -15000 <= t <= 15000 -> t * t <= 15000 * 15000)%R as T2.
    { intros t Ht. replace (t * t)%R with (Rabs t * Rabs t)%R by (rewrite <- Rabs_mult; apply Rabs_pos_eq; pose proof (Rle_0_sqr t) as Q; unfold Rsqr in Q; lra).
      assert (Rabs t <= 15000)%R by (apply Rabs_le; lra). apply Rmult_le_compat; auto using Rabs_pos. }
    pose proof (T2 py ltac:(lra)). pose proof (T2 pz ltac:(lra)). lra.
Qed.
