(** C69: between the tie points the MODIS interpolation with satellite zenith angles places the pixels by the viewing geometry. *)
From Coq Require Import ZArith List Bool Lia Reals Lra.
From Verif Require Import Base Num Geo GeoProofs GeoAgree Mem Modis ModisProofs ModisOob ModisAngles PropsGeo PropsModis PropsSimple.
Import ListNotations.
Open Scope Z_scope.

(** ** Specification: a satellite at 709 km above a sphere of radius 6370.997 km *)
Definition earth : R := 6370997 / 1000.
Definition height : R := 709.
(** a point seen with zenith angle zeta has nadir angle phi (law of sines) and is at the angle theta from the subsatellite point *)
Definition seen (zeta phi theta : R) : Prop :=
  (0 <= phi <= PI / 2 /\ (earth + height) * sin phi = earth * sin zeta /\ theta = zeta - phi)%R.
(** the middle of the scan between two points with zenith angles za and zb: its nadir angle is the mean *)
Definition middle (za zb theta_a theta_b zeta phi theta : R) : Prop :=
  exists phi_a phi_b, seen za phi_a theta_a /\ seen zb phi_b theta_b /\ (phi = (phi_a + phi_b) / 2)%R /\ (0 <= zeta <= PI / 2)%R /\ seen zeta phi theta.
(** distance satellite - ground and angle subtended by half the width of the scan *)
Definition distance (zeta phi : R) : R := ((earth + height) * cos phi - earth * cos zeta)%R.
Definition degrees (x : R) : R := (x * (PI / 180))%R.

(** ** The coefficients *)
Lemma seen_phi z phi theta : (0 <= z <= z89)%R -> seen z phi theta -> phi = phiR z /\ theta = (z - phiR z)%R.
Proof.
  intros Hz (B & S & ->). unfold phiR. assert (E : (Re * sin z / (Re + Alt))%R = sin phi).
  { change earth with Re in S. change height with Alt in S. rewrite <- S. field. exact sum_pos. }
  rewrite E, asin_sin by lra. auto.
Qed.
Lemma seen_zeta zeta phi theta : (0 <= zeta <= PI / 2)%R -> seen zeta phi theta -> zeta = zetaR phi.
Proof.
  intros Hz (B & S & _). unfold zetaR. assert (E : ((Re + Alt) * sin phi / Re)%R = sin zeta).
  { change earth with Re in S. change height with Alt in S. rewrite S. field. unfold Re. lra. }
  rewrite E, asin_sin by lra. reflexivity.
Qed.

Section Coefficients.
#[local] Existing Instance RN.
Lemma exp_ali_value (w : Z) a b : (w = 1 \/ w = 5)%Z -> (0 <= a <= 89)%R -> (0 <= b <= 89)%R -> ~ (a = 0 /\ b = 0)%R ->
  let ra := degrees a in let rb := degrees b in
  let phi := ((phiR ra + phiR rb) / 2)%R in let zeta := zetaR phi in
  let ta := (ra - phiR ra)%R in let tb := (rb - phiR rb)%R in
  let den := (if Reqb ta tb then ta * 2 else ta - tb)%R in
  let d := (((Re + Alt) / Re * cos phi - cos zeta) * (IZR w / (2 * Alt)))%R in
  den <> 0%R /\ (0 <= cos zeta * cos zeta - d * d)%R /\
  exp_ali w (Some a) (Some b) = (Some (4 * (((ta + tb) / 2 - (zeta - phi)) / den))%R, Some (4 * (cos zeta - sqrt (cos zeta * cos zeta - d * d)) * sin zeta / den)%R).
Proof.
  intros Hw Ha Hb Hab. cbv zeta. pose proof PI_RGT_0 as HPI. unfold degrees.
  assert (Ka : (0 <= a * (PI / 180) <= z89)%R) by (unfold z89; split; nra).
  assert (Kb : (0 <= b * (PI / 180) <= z89)%R) by (unfold z89; split; nra).
  unfold exp_ali. rewrite !deg2rad_RN. cbn [nst RN]. rewrite !compute_phi_RN by assumption.
  set (ra := (a * (PI / 180))%R) in *. set (rb := (b * (PI / 180))%R) in *.
  unfold compute_theta, fsub, fadd, fmul, fdiv. cbn [nst nsub nadd nmul RN lift2 nz].
  cbn [ndiv RN]. rewrite !(RNdiv_some _ 2) by lra.
  pose proof (sin_mean ra rb Ka Kb) as SM. set (phi := ((phiR ra + phiR rb) / 2)%R) in *.
  destruct (compute_zeta_RN phi SM) as [-> HZ]. set (zeta := zetaR phi) in *. cbn [lift2].
  set (ta := (ra - phiR ra)%R). set (tb := (rb - phiR rb)%R).
  replace (if @neqb _ RN (Some ta) (Some tb) then Some (ta * 2)%R else Some (ta - tb)%R) with (Some (if Reqb ta tb then ta * 2 else ta - tb)%R)
    by (cbn [neqb RN liftb]; destruct (Reqb ta tb); reflexivity).
  set (den := (if Reqb ta tb then ta * 2 else ta - tb)%R).
  assert (Hden : den <> 0%R).
  { unfold den. destruct (Reqb ta tb) eqn:E.
    - apply Reqb_true in E. intros Z.
      assert (A0 : (ra - phiR ra = 0)%R) by (fold ta; lra). assert (B0 : (rb - phiR rb = 0)%R) by (fold tb; lra).
      apply theta_zero in A0; [|exact Ka]. apply theta_zero in B0; [|exact Kb]. unfold ra, rb in *. apply Hab. split; nra.
    - apply Reqb_false in E. lra. }
  split; [exact Hden|].
  assert (HR : (0 <= cos zeta * cos zeta - ((Re + Alt) / Re * cos phi - cos zeta) * (IZR w / (2 * Alt)) * (((Re + Alt) / Re * cos phi - cos zeta) * (IZR w / (2 * Alt))))%R).
  { apply alignment_root; [lia| |exact HZ].
    pose proof (phiR_range ra Ka). pose proof (phiR_range rb Kb). unfold phi. lra. }
  split; [exact HR|].
  rewrite RK_RN, HK_RN. cbn [lift2 lift1 ncos nsin nmul nadd nsub RN].
  rewrite (RNdiv_some _ (2 * Alt)%R) by (unfold Alt; lra). rewrite (RNdiv_some _ Re) by (unfold Re; lra). cbn [lift2].
  cbn [nsqrt RN]. rewrite RNsqrt_some by exact HR. cbn [lift2]. rewrite !RNdiv_some by exact Hden. reflexivity.
Qed.

(** The coefficients put the middle of the scan where the geometry says: at the fraction (theta_a - theta) / (theta_a - theta_b)
    of the interval; points seen under the same angle (left and right of nadir) have it half way. Rows at a distance from
    the middle of the scan are moved by the curvature of the scan. *)
Theorem C69_coefficients : forall w a b ta tb zeta phi theta, (w = 1 \/ w = 5) -> (0 <= a <= 89)%R -> (0 <= b <= 89)%R -> ~ (a = 0 /\ b = 0)%R ->
  middle (degrees a) (degrees b) ta tb zeta phi theta ->
  exists e l curve, exp_ali w (Some a) (Some b) = (Some e, Some l) /\
    (0 <= curve <= cos zeta)%R /\
    (curve * curve + (distance zeta phi / earth * (IZR w / (2 * height))) * (distance zeta phi / earth * (IZR w / (2 * height))) = cos zeta * cos zeta)%R /\
    (ta <> tb -> (1 / 2 + e / 4 = (ta - theta) / (ta - tb)) /\ (l / 4 = (cos zeta - curve) * sin zeta / (ta - tb)))%R /\
    (ta = tb -> e = 0 /\ l / 4 = (cos zeta - curve) * sin zeta / (2 * ta))%R.
Proof.
  intros w a b ta tb zeta phi theta Hw Ha Hb Hab (phi_a & phi_b & Sa & Sb & Hphi & Hz & Sz). pose proof PI_RGT_0 as HPI.
  assert (Ka : (0 <= degrees a <= z89)%R) by (unfold degrees, z89; split; nra).
  assert (Kb : (0 <= degrees b <= z89)%R) by (unfold degrees, z89; split; nra).
  destruct (seen_phi _ _ _ Ka Sa) as [-> Eta]. destruct (seen_phi _ _ _ Kb Sb) as [-> Etb].
  pose proof (seen_zeta _ _ _ Hz Sz) as Ez. destruct Sz as (Bp & Ss & Et).
  destruct (exp_ali_value w a b Hw Ha Hb Hab) as (Hden & HR & E). cbv zeta in Hden, HR, E.
  rewrite <- Hphi in HR, E. rewrite <- Ez in HR, E. rewrite <- Et, <- Eta, <- Etb in E. rewrite <- Eta, <- Etb in Hden.
  set (den := (if Reqb ta tb then ta * 2 else ta - tb)%R) in *.
  set (d := (((Re + Alt) / Re * cos phi - cos zeta) * (IZR w / (2 * Alt)))%R) in *.
  assert (Ed : (distance zeta phi / earth * (IZR w / (2 * height)))%R = d).
  { unfold distance, d. change earth with Re. change height with Alt. field. unfold Re, Alt. lra. }
  rewrite Ed. set (c := sqrt (cos zeta * cos zeta - d * d)%R) in *.
  assert (C0 : (0 <= cos zeta)%R) by (apply cos_ge_0; lra).
  assert (CC : (c * c = cos zeta * cos zeta - d * d)%R) by (apply sqrt_sqrt; exact HR).
  assert (Cp : (0 <= c)%R) by apply sqrt_pos.
  eexists _, _, c. split; [exact E|]. split; [split; [exact Cp|]|].
  { apply Rsqr_incr_0_var; [|exact C0]. unfold Rsqr. nra. }
  split; [lra|]. unfold den in *. destruct (Reqb ta tb) eqn:Q.
  - apply Reqb_true in Q. subst tb. split; [intros X; congruence|]. intros _.
    assert (PE : phiR (degrees a) = phiR (degrees b)).
    { destruct (Req_EM_T (degrees a) (degrees b)) as [G|G]; [now rewrite G|exfalso]. clear -Ka Kb Eta Q G HPI.
      (* theta is strictly increasing *)
      assert (M : forall u v, (0 <= u)%R -> (u < v)%R -> (v <= z89)%R -> (u - phiR u < v - phiR v)%R).
      { intros u v Hu Huv Hv. pose proof z89_lt. pose proof kap_pos.
        destruct (Rlt_dec (phiR v - phiR u) (v - u)) as [|N]; [lra|exfalso].
        pose proof (phiR_range u ltac:(lra)) as Pu. pose proof (phiR_range v ltac:(lra)) as Pv.
        pose proof (sin_phiR u ltac:(lra)) as Su. pose proof (sin_phiR v ltac:(lra)) as Sv.
        (* sin phi_v - sin phi_u = kap (sin v - sin u) while phi_v - phi_u >= v - u and phi <= angle *)
        assert (LE : forall x, (0 <= x <= z89)%R -> (phiR x <= x)%R).
        { intros x Hx. pose proof (phiR_range x Hx). pose proof (sin_phiR x Hx). destruct (Rle_dec (phiR x) x) as [|NN]; [assumption|exfalso].
          assert (0 <= sin x)%R by (apply sin_ge_0; lra). assert (sin x < sin (phiR x))%R by (apply sin_increasing_1; lra). nra. }
        pose proof (LE u ltac:(lra)) as Lu. pose proof (LE v ltac:(lra)) as Lv.
        pose proof (form4 (phiR v) (phiR u)) as F1. pose proof (form4 v u) as F2.
        set (p := ((phiR v - phiR u) / 2)%R) in *. set (q := ((v - u) / 2)%R) in *.
        set (m := ((phiR v + phiR u) / 2)%R) in *. set (n := ((v + u) / 2)%R) in *.
        assert (sin q <= sin p)%R by (apply sin_incr_1; unfold p, q; lra).
        assert (0 < sin q)%R by (apply sin_gt_0; unfold q; lra).
        assert (cos n <= cos m)%R by (apply cos_decr_1; unfold m, n; lra).
        assert (0 < cos n)%R by (apply cos_gt_0; unfold n; lra).
        assert (X : (sin q * cos n <= sin p * cos m)%R) by nra.
        rewrite Su, Sv in F1. assert (0 < sin q * cos n)%R by nra. nra. }
      destruct (Rtotal_order (degrees a) (degrees b)) as [L|[L|L]]; [|contradiction|].
      - pose proof (M _ _ (proj1 Ka) L (proj2 Kb)). lra.
      - pose proof (M _ _ (proj1 Kb) L (proj2 Ka)). lra. }
    assert (phi = phiR (degrees a)) by lra.
    assert (EZ : zeta = degrees a).
    { destruct Sa as (_ & Sa & _). rewrite <- H in Sa. rewrite Ss in Sa.
      assert (sin zeta = sin (degrees a)) by (unfold earth in Sa; nra).
      pose proof z89_lt. rewrite <- (asin_sin zeta), <- (asin_sin (degrees a)) by lra. congruence. }
    assert (T0 : theta = ta) by lra. rewrite <- Q, T0. split; field; lra.
  - apply Reqb_false in Q. split; [|intros X; contradiction]. intros _. split; field; lra.
Qed.
End Coefficients.
Print Assumptions C69_coefficients.
(** not vacuous: 30 and 31 degrees *)
Example C69_coefficients_case : exists ta tb zeta phi theta, middle (degrees 30) (degrees 31) ta tb zeta phi theta.
Proof.
  pose proof PI_RGT_0 as HPI.
  assert (Ka : (0 <= degrees 30 <= z89)%R) by (unfold degrees, z89; split; nra).
  assert (Kb : (0 <= degrees 31 <= z89)%R) by (unfold degrees, z89; split; nra).
  assert (SEEN : forall z, (0 <= z <= z89)%R -> seen z (phiR z) (z - phiR z)).
  { intros z Hz. split; [exact (phiR_range z Hz)|]. split; [|reflexivity]. rewrite (sin_phiR z Hz). unfold kap. change earth with Re. change height with Alt. field. exact sum_pos. }
  set (phi := ((phiR (degrees 30) + phiR (degrees 31)) / 2)%R).
  pose proof (sin_mean _ _ Ka Kb) as SM. fold phi in SM. destruct (compute_zeta_RN phi SM) as [_ HZ]. pose proof z89_lt.
  exists (degrees 30 - phiR (degrees 30))%R, (degrees 31 - phiR (degrees 31))%R, (zetaR phi), phi, (zetaR phi - phi)%R.
  exists (phiR (degrees 30)), (phiR (degrees 31)). split; [now apply SEEN|]. split; [now apply SEEN|]. split; [reflexivity|]. split; [lra|].
  split; [|split; [|reflexivity]].
  - pose proof (phiR_range _ Ka). pose proof (phiR_range _ Kb). unfold phi. lra.
  - pose proof (zeta_le phi SM) as B. pose proof (SIN_bound z89). unfold zetaR. rewrite zeta_arg, sin_asin by lra.
    unfold kap. change earth with Re. change height with Alt. field. unfold Re, Alt. lra.
Qed.

(** ** The pixels *)
(** the cell (pair of neighbouring tie points) used for fine column i and fine row j of a scan, and the position in units of tie-point distances *)
Definition first_col (k : modis_fn) : Z := if is_1km k then 0 else 2.
Definition col_cell (k : modis_fn) (w i : Z) : Z := Z.max 0 (Z.min ((i - first_col k) / factor k) (w - 2)).
Definition row_cell (k : modis_fn) (j : Z) : Z := Z.max 0 (Z.min ((2 * j - (factor k - 1)) / (2 * factor k)) (scan_len k - 2)).
Definition scan_pos (k : modis_fn) (i : Z) : R := ((IZR i - IZR (first_col k)) / IZR (factor k))%R.
Definition track_pos (k : modis_fn) (j : Z) : R := ((IZR j - (IZR (factor k) - 1) / 2) / IZR (factor k))%R.
(** width in km of a tie-point pixel *)
Definition km (k : modis_fn) : Z := if is_1km k then 1 else 5.
(** the four corners of a cell weighted by u along the row and v across the rows *)
Definition corners (f : Z -> Z -> R) (row col : Z) (v u : R) : R :=
  ((1 - v) * ((1 - u) * f row col + u * f row (col + 1)%Z) + v * ((1 - u) * f (row + 1)%Z col + u * f (row + 1)%Z (col + 1)%Z))%R.

Section Pixels.
#[local] Existing Instance RN.
Lemma fine_value_RN v u a b c d : fine_value (Some v) (Some u) (Some a) (Some b) (Some c) (Some d) =
  Some ((1 - v) * ((1 - u) * a + u * b) + v * ((1 - u) * d + u * c))%R.
Proof. unfold fine_value, fadd, fmul, fsub. cbn [nst nadd nmul nsub nz RN lift2]. reflexivity. Qed.
Lemma a_scan_RN ss st e l : a_scan_value (Some ss) (Some st) (Some e) (Some l) = Some (ss + ss * (1 - ss) * e + st * (1 - st) * l)%R.
Proof. unfold a_scan_value, fadd, fmul, fsub. cbn [nst nadd nmul nsub nz RN lift2]. reflexivity. Qed.
Lemma yc_RN c j : @yc _ RN c j = Some (@yc _ RT c j).
Proof.
  unfold yc, half. cbn [ndiv nz RN]. rewrite RNdiv_some by lra. cbn [nst nadd nsub nz RN RT lift2 ndiv].
  destruct (scl c =? 10); [|reflexivity]. destruct (j <? _); [reflexivity|]. destruct (_ <=? j); reflexivity.
Qed.
Lemma xc_RN c i : @xc _ RN c i = Some (IZR (xpos c i)).
Proof. reflexivity. Qed.

(** Every pixel of a whole scan is the direction of the combination of the corners of its cell; the weight along the row
    is its position moved by the coefficients of C69_coefficients *)
Theorem C69_pixels : forall k g n w (lon lat satz olon olat : ndarray (option R)) (lo la z : Z -> Z -> R),
  even_grid k -> 0 <= n -> std_width k w -> shaped Float32 n w lon lat satz ->
  (forall a b, 0 <= a < n -> 0 <= b < w -> aat lon a b = Some (lo a b) /\ aat lat a b = Some (la a b) /\ aat satz a b = Some (z a b) /\ (0 <= z a b <= 89)%R) ->
  (forall a b, 0 <= a < n -> 0 <= b -> b + 1 < w -> ~ (z a b = 0 /\ z a (b + 1)%Z = 0)%R) ->
  modis k g lon lat satz = Ok (olon, olat) ->
  forall s j i, 0 <= s -> (s + 1) * scan_len k <= n -> 0 <= j < fine_len k -> 0 <= i < fine_width k ->
    let row := s * scan_len k + row_cell k j in let col := col_cell k w i in
    let u := (scan_pos k i - IZR col)%R in let v := (track_pos k j - IZR (row_cell k j))%R in
    exists e l, exp_ali (km k) (Some (z row col)) (Some (z row (col + 1))) = (Some e, Some l) /\
      let along := (u + u * (1 - u) * e + v * (1 - v) * l)%R in
      let position (coordinate : R -> R -> R) := corners (fun a b => coordinate (lo a b) (la a b)) row col v along in
      (aat olon (s * fine_len k + j) i, aat olat (s * fine_len k + j) i) =
      cy_xyz2lonlat true (Some (8 / 10)%R) (Some (position at_x), Some (position at_y), Some (position at_z)).
Proof.
  intros k g n w lon lat satz olon olat lo la z Hk Hn Hw S F NZ O s j i Hs Hsn Hj Hi row col u v.
  destruct (modis_run k g n w lon lat satz Hn Hw S) as (c & p & a & b & L & E1 & E2 & E3 & E4 & E5 & Rn & _ & V).
  rewrite Rn in O. injection O as -> ->.
  assert (K : (scan_len k = 10 \/ scan_len k = 2) /\ (factor k = 2 \/ factor k = 4 \/ factor k = 5))
    by (destruct Hk as [-> |[-> | ->]]; cbn [scan_len factor]; auto).
  assert (HF : 0 < fine_len k) by (unfold fine_len; nia).
  assert (W2 : 2 <= w) by (destruct k; cbn [std_width] in Hw; lia).
  destruct (grid_place k w c p L Hk Hw E1 E2 E3 E4 E5) as [GX GY].
  pose proof (cell_r_range c p L j) as CRR. pose proof (cell_c_range c p L i) as CCR. rewrite E1 in CRR. rewrite E4 in CCR.
  assert (FA : is_1km k = false -> fac c = 2 /\ cpp c = 5 /\ scl c = 2).
  { intros B. destruct L as [_ [(A & _)|(A1 & _ & -> & _ & _ & ->)]].
    - exfalso. destruct Hk as [-> |[-> | ->]]; [discriminate B|discriminate B|]. cbn [scan_len] in E1. congruence.
    - destruct Hk as [-> |[-> | ->]]; [discriminate B|discriminate B|]. subst p. cbn [fine_width]. auto. }
  assert (CP : cpp c = km k).
  { unfold km. destruct (is_1km k) eqn:B; [|now apply FA]. destruct L as [_ [(_ & _ & A & _)|(A & _)]]; [exact A|].
    destruct Hk as [-> |[-> | ->]]; cbn [scan_len] in E1; [congruence|congruence|discriminate B]. }
  assert (CC : cell_c c i = col).
  { unfold cell_c, col, col_cell, first_col, clampz. rewrite E1, E2, E4. destruct Hk as [-> |[-> | ->]]; cbn [is_1km scan_len Z.eqb Pos.eqb]; try reflexivity.
    destruct (FA eq_refl) as (-> & _). reflexivity. }
  assert (CR : cell_r c j = row_cell k j).
  { unfold cell_r, row_cell, clampz. rewrite E1, E2. destruct Hk as [-> |[-> | ->]]; cbn [scan_len factor Z.eqb Pos.eqb].
    - change (4 / 2) with 2. f_equal. f_equal. replace (2 * j - (4 - 1)) with (2 * (j - 2) + 1) by ring. 
      pose proof (Z.div_mod (2 * (j - 2) + 1) (2 * 4) ltac:(lia)). pose proof (Z.mod_pos_bound (2 * (j - 2) + 1) (2 * 4) ltac:(lia)).
      pose proof (Z.div_mod (j - 2) 4 ltac:(lia)). pose proof (Z.mod_pos_bound (j - 2) 4 ltac:(lia)). lia.
    - change (2 / 2) with 1. f_equal. f_equal. replace (2 * j - (2 - 1)) with (2 * (j - 1) + 1) by ring.
      pose proof (Z.div_mod (2 * (j - 1) + 1) (2 * 2) ltac:(lia)). pose proof (Z.mod_pos_bound (2 * (j - 1) + 1) (2 * 2) ltac:(lia)).
      pose proof (Z.div_mod (j - 1) 2 ltac:(lia)). pose proof (Z.mod_pos_bound (j - 1) 2 ltac:(lia)). lia.
    - lia. }
  assert (FR : (IZR (factor k) <> 0)%R) by (apply not_0_IZR; lia).
  assert (EU : fdiv (xc c i) (nz (ff c)) = Some u).
  { rewrite xc_RN. unfold fdiv. cbn [nst ndiv nz RN]. rewrite RNdiv_some by (rewrite E2; exact FR). f_equal. specialize (GX i Hi).
    assert (X : xpos c i = i - first_col k - factor k * col) by (rewrite CC in GX; rewrite <- E2; unfold first_col; lia).
    rewrite X, E2, !minus_IZR, mult_IZR. unfold u, scan_pos. now field. }
  assert (EV : fdiv (yc c j) (nz (ff c)) = Some v).
  { rewrite yc_RN. unfold fdiv. cbn [nst ndiv nz RN]. rewrite RNdiv_some by (rewrite E2; exact FR). f_equal. specialize (GY j Hj). rewrite CR in GY.
    replace (@yc _ RT c j) with (IZR j - (IZR (factor k) - 1) / 2 - IZR (factor k) * IZR (row_cell k j))%R by lra.
    rewrite E2. unfold v, track_pos. now field. }
  rewrite CR in CRR. rewrite CC in CCR.
  assert (RB : 0 <= row /\ row + 1 < n) by (unfold row; nia).
  destruct (F row col ltac:(lia) ltac:(lia)) as (La & Lb & Za & Ba). destruct (F row (col + 1) ltac:(lia) ltac:(lia)) as (Lc & Ld & Zb & Bb).
  destruct (F (row + 1) col ltac:(lia) ltac:(lia)) as (Le & Lf & _). destruct (F (row + 1) (col + 1) ltac:(lia) ltac:(lia)) as (Lg & Lh & _).
  destruct (exp_ali_finite (km k) (z row col) (z row (col + 1))) as (e & l & EA); [unfold km; destruct (is_1km k); auto|exact Ba|exact Bb|apply NZ; lia|].
  exists e, l. split; [exact EA|]. cbv zeta.
  assert (HR : 0 <= s * fine_len k + j < n * factor k) by (unfold fine_len in *; nia).
  pose proof (V (s * fine_len k + j) i HR Hi) as P.
  pose proof (flat2_at (fine_len k) (fun a _ => a) s j Hj) as D1. pose proof (flat2_at (fine_len k) (fun _ b => b) s j Hj) as D2. unfold flat2 in D1, D2.
  rewrite D1, D2 in P.
  destruct (Z.ltb_spec (s * fine_len k + j) (n / scan_len k * fine_len k)) as [_|B];
    [|exfalso; assert (s + 1 <= n / scan_len k) by (apply Z.div_le_lower_bound; lia); nia].
  rewrite P. clear P V Rn. unfold pixel, scan_ll, thr8. cbn [nst ndiv nz RN]. rewrite RNdiv_some by lra. f_equal.
  unfold a_scan_at. change (@nz (option R) RN) with (@nz _ RN). rewrite EV. 
  unfold fine_xyz, fine_comp. cbv zeta. rewrite EU, CC, CR, CP, E1.
  replace (s * scan_len k + (row_cell k j + 1)) with (row + 1) by (unfold row; ring). fold row.
  rewrite Za, Zb, EA. cbn [fst snd]. rewrite a_scan_RN.
  rewrite La, Lb, Lc, Ld, Le, Lf, Lg, Lh, !cy_place. cbn [comp Z.eqb Pos.eqb]. cbn [nz RN] in EV. rewrite EV, !fine_value_RN. reflexivity.
Qed.
End Pixels.
Print Assumptions C69_pixels.
