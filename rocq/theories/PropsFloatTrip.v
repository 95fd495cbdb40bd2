(** C73: from longitude and latitude to cartesian coordinates and back in IEEE arithmetic. *)
From Coq Require Import ZArith Lia Bool Reals Lra.
From Flocq.Core Require Import Core.
From Verif Require Import Base Num Geo GeoProofs Float PiBound FloatGeo FloatAcc FloatTrip PropsFloat PropsFloatAcc.
Open Scope R_scope.

Definition d64 : R := 5030569068109113 / 288230376151711744.
Definition d32 : R := 9370165 / 536870912.

Lemma rd_180_64 : rd b64 (180 * d64) = pi64 /\ rd b64 (90 * d64) = pi64 / 2.
Proof.
  unfold d64, pi64. split.
  - rewrite (rd_eq b64 _ 2 7074237752028440); cbn [fprec femin b64]; [..|lia|]; bp.
    + change (2 ^ (- (2 - 53)))%Z with 2251799813685248%Z. lra.
    + change (2 ^ (2 - 1))%Z with 2%Z. change (2 ^ 2)%Z with 4%Z. lra.
    + change (2 ^ (53 - 2))%Z with 2251799813685248%Z. apply Rabs_def1; lra.
  - rewrite (rd_eq b64 _ 1 7074237752028440); cbn [fprec femin b64]; [..|lia|]; bp.
    + change (2 ^ (- (1 - 53)))%Z with 4503599627370496%Z. lra.
    + change (2 ^ (1 - 1))%Z with 1%Z. change (2 ^ 1)%Z with 2%Z. lra.
    + change (2 ^ (53 - 1))%Z with 4503599627370496%Z. apply Rabs_def1; lra.
Qed.
Lemma rd_180_32 : rd b32 (180 * d32) = pi32 /\ rd b32 (90 * d32) = pi32 / 2 /\ rd b32 pi64 = pi32 /\ rd b32 (pi64 / 2) = pi32 / 2.
Proof.
  unfold d32, pi64, pi32. split; [|split; [|split]].
  1,3: rewrite (rd_eq b32 _ 2 13176795); cbn [fprec femin b32]; [..|lia|]; bp;
    [change (2 ^ (- (2 - 24)))%Z with 4194304%Z; lra|change (2 ^ (2 - 1))%Z with 2%Z; change (2 ^ 2)%Z with 4%Z; lra|
     change (2 ^ (24 - 2))%Z with 4194304%Z; apply Rabs_def1; lra].
  all: rewrite (rd_eq b32 _ 1 13176795); cbn [fprec femin b32]; [..|lia|]; bp;
    [change (2 ^ (- (1 - 24)))%Z with 8388608%Z; lra|change (2 ^ (1 - 1))%Z with 1%Z; change (2 ^ 1)%Z with 2%Z; lra|
     change (2 ^ (24 - 1))%Z with 8388608%Z; apply Rabs_def1; lra].
Qed.
Lemma fit_d64 : fit b64 (pi64 / 180) = Some d64.
Proof.
  assert (E : rd b64 (pi64 / 180) = d64).
  { unfold d64, pi64. rewrite (rd_eq b64 _ (-5) 5030569068109113); cbn [fprec femin b64]; [..|lia|]; bp.
    - change (2 ^ (- (-5 - 53)))%Z with 288230376151711744%Z. lra.
    - change (2 ^ (- (-5 - 1)))%Z with 64%Z. change (2 ^ (- -5))%Z with 32%Z. lra.
    - change (2 ^ (53 - -5))%Z with 288230376151711744%Z. apply Rabs_def1; lra. }
  rewrite <- E. apply fit_rd; [apply good_b64|]. rewrite E. unfold d64. rewrite Rabs_pos_eq; lra.
Qed.
Lemma fit_d32 : fit b32 (pi32 / 180) = Some d32.
Proof.
  assert (E : rd b32 (pi32 / 180) = d32).
  { unfold d32, pi32. rewrite (rd_eq b32 _ (-5) 9370165); cbn [fprec femin b32]; [..|lia|]; bp.
    - change (2 ^ (- (-5 - 24)))%Z with 536870912%Z. lra.
    - change (2 ^ (- (-5 - 1)))%Z with 64%Z. change (2 ^ (- -5))%Z with 32%Z. lra.
    - change (2 ^ (24 - -5))%Z with 536870912%Z. apply Rabs_def1; lra. }
  rewrite <- E. apply fit_rd; [apply good_b32|]. rewrite E. unfold d32. rewrite Rabs_pos_eq; lra.
Qed.
Lemma d64_near : Rabs (d64 - PI / 180) <= bpow radix2 (- fprec b64) * (36 / 1000).
Proof.
  pose proof PI_bounds. cbn [fprec b64]. bp. change (2 ^ (- - (53)))%Z with 9007199254740992%Z. unfold d64. apply Rabs_le. lra.
Qed.
Lemma d32_near : Rabs (d32 - PI / 180) <= bpow radix2 (- fprec b32) * (36 / 1000).
Proof.
  pose proof PI_bounds. cbn [fprec b32]. bp. change (2 ^ (- - (24)))%Z with 16777216%Z. unfold d32. apply Rabs_le. lra.
Qed.
Lemma factor_64 : factor b64 b64 pi64 pi64 d64.
Proof.
  destruct rd_180_64 as [A B]. split; [apply fit_d64|]. split; [unfold d64; lra|]. split; [apply d64_near|].
  rewrite A, B. split; [rewrite <- A|split; [rewrite <- B|unfold pi64; lra]]; apply rd_id, rd_gf, good_b64.
Qed.
Lemma factor_64_32 : factor b64 b32 pi64 pi32 d64.
Proof.
  destruct rd_180_64 as [A B]. destruct rd_180_32 as (_ & _ & C & D). split; [apply fit_d64|]. split; [unfold d64; lra|]. split; [apply d64_near|].
  rewrite A, B. split; [exact C|split; [exact D|unfold pi32; lra]].
Qed.
Lemma factor_32 : factor b32 b32 pi32 pi32 d32.
Proof.
  destruct rd_180_32 as (A & B & _). split; [apply fit_d32|]. split; [unfold d32; lra|]. split; [apply d32_near|].
  rewrite A, B. split; [rewrite <- A|split; [rewrite <- B|unfold pi32; lra]]; apply rd_id, rd_gf, good_b32.
Qed.

(** ** No number of the format is too close to a zero of the sine or the cosine *)
Lemma sin_gap b g : 1 <= b <= 3.16 -> g <= 1 / 10 -> 2 * g <= Rabs (PI - b) -> g <= Rabs (sin b).
Proof.
  intros Hb Hg H. pose proof PI_b as P. destruct (Rle_dec b PI) as [L|L].
  - rewrite Rabs_pos_eq in H by lra. rewrite Rabs_pos_eq by (apply sin_ge_0; lra).
    destruct (Rle_dec b (PI / 2)) as [L2|L2].
    + eapply Rle_trans; [|apply sin_chord; lra]. apply Rle_trans with (/ 2 * b); [lra|]. apply Rmult_le_compat_r; [lra|].
      apply (Rmult_le_reg_l PI); [lra|]. replace (PI * (2 / PI)) with 2 by (field; lra). lra.
    + rewrite <- sin_PI_x. eapply Rle_trans; [|apply sin_chord; lra]. apply Rle_trans with (/ 2 * (PI - b)); [lra|]. apply Rmult_le_compat_r; [lra|].
      apply (Rmult_le_reg_l PI); [lra|]. replace (PI * (2 / PI)) with 2 by (field; lra). lra.
  - rewrite Rabs_left in H by lra.
    assert (E : sin b = - sin (b - PI)) by (rewrite <- (sin_PI_x b), <- sin_neg; f_equal; ring).
    rewrite E, Rabs_Ropp, Rabs_pos_eq by (apply sin_ge_0; lra).
    eapply Rle_trans; [|apply sin_chord; lra]. apply Rle_trans with (/ 2 * (b - PI)); [lra|]. apply Rmult_le_compat_r; [lra|].
    apply (Rmult_le_reg_l PI); [lra|]. replace (PI * (2 / PI)) with 2 by (field; lra). lra.
Qed.
Lemma cos_gap b g : Rabs b <= 1.58 -> g <= 1 / 10 -> 2 * g <= Rabs (PI / 2 - Rabs b) -> g <= Rabs (cos b).
Proof.
  intros Hb Hg H. pose proof PI_b as P.
  assert (E : cos b = sin (PI / 2 + Rabs b)).
  { rewrite sin_plus, sin_PI2, cos_PI2. unfold Rabs. destruct (Rcase_abs b); [rewrite cos_neg|]; ring. }
  rewrite E. pose proof (Rabs_pos b). apply sin_gap; [lra|assumption|].
  replace (PI - (PI / 2 + Rabs b)) with (PI / 2 - Rabs b) by field. exact H.
Qed.
Lemma pos_abs g b : generic_format radix2 (FLT_exp (femin g) (fprec g)) b -> generic_format radix2 (FLT_exp (femin g) (fprec g)) (Rabs b).
Proof. apply generic_format_abs. Qed.

Lemma gap_64 b : fl b64 b -> (Rabs b <= pi64 / 2 -> bpow radix2 (-55) <= cos b) /\ (1 <= Rabs b <= pi64 -> bpow radix2 (-55) <= Rabs (sin b)).
Proof.
  intros _. pose proof PI_bounds as P. pose proof PI_b as P2. unfold pi64.
  assert (T : bpow radix2 (-55) = / 36028797018963968) by (bp; change (2 ^ (- -55))%Z with 36028797018963968%Z; reflexivity).
  rewrite T. split; intros H.
  - rewrite <- (Rabs_pos_eq (cos b)).
    + apply cos_gap; [lra|lra|]. rewrite Rabs_pos_eq by lra. lra.
    + apply Rabs_le_inv in H. apply cos_ge_0; lra.
  - assert (E : Rabs (sin b) = Rabs (sin (Rabs b))).
    { unfold Rabs at 3. destruct (Rcase_abs b); [now rewrite sin_neg, Rabs_Ropp|reflexivity]. }
    rewrite E. apply sin_gap; [lra|lra|]. rewrite (Rabs_pos_eq (PI - Rabs b)) by lra. lra.
Qed.

(** below pi in the format, hence at least one unit in the last place below *)
Lemma below_32 b k e : generic_format radix2 (FLT_exp (femin b32) (fprec b32)) b -> (0 <= e <= 10)%Z -> (2 ^ (23 + e) < k < 2 ^ (24 + e))%Z ->
  forall (H : b < IZR k * bpow radix2 (-23)), generic_format radix2 (FLT_exp (femin b32) (fprec b32)) (IZR k * bpow radix2 (-23)) ->
  b <= IZR k * bpow radix2 (-23) - bpow radix2 (e - 23).
Proof.
  intros Fb He Hk H Fk. assert (Hp : Prec_gt_0 (fprec b32)) by reflexivity.
  pose proof (pred_ge_gt radix2 (FLT_exp (femin b32) (fprec b32)) b _ Fb Fk H) as Q.
  assert (Bk : bpow radix2 e < IZR k * bpow radix2 (-23) < bpow radix2 (e + 1)).
  { replace (bpow radix2 e) with (IZR (2 ^ (23 + e)) * bpow radix2 (-23)).
    - replace (bpow radix2 (e + 1)) with (IZR (2 ^ (24 + e)) * bpow radix2 (-23)).
      + split; apply Rmult_lt_compat_r; try apply bpow_gt_0; apply IZR_lt; lia.
      + rewrite <- bpow_Z by lia. rewrite <- bpow_plus. f_equal. lia.
    - rewrite <- bpow_Z by lia. rewrite <- bpow_plus. f_equal. lia. }
  pose proof (bpow_gt_0 radix2 e) as B0.
  rewrite pred_eq_pos in Q by lra. unfold pred_pos in Q.
  assert (Em : mag radix2 (IZR k * bpow radix2 (-23)) = (e + 1)%Z :> Z) by (apply mag_unique_pos; split; [replace (e + 1 - 1)%Z with e by lia|]; lra).
  rewrite Em in Q. replace (e + 1 - 1)%Z with e in Q by lia.
  destruct (Req_bool_spec (IZR k * bpow radix2 (-23)) (bpow radix2 e)) as [Z|_]; [lra|].
  rewrite ulp_neq_0 in Q by lra. unfold cexp in Q. rewrite Em in Q. replace (FLT_exp (femin b32) (fprec b32) (e + 1)) with (e - 23)%Z in Q.
  - exact Q.
  - unfold FLT_exp. cbn [femin fprec b32]. lia.
Qed.
Lemma gap_32 b : fl b32 b -> (Rabs b <= pi32 / 2 -> bpow radix2 (-26) <= Rabs (cos b)) /\ (1 <= Rabs b <= pi32 -> bpow radix2 (-26) <= Rabs (sin b)).
Proof.
  intros [F _]. pose proof PI_bounds as P. pose proof PI_b as P2. apply generic_format_abs in F. unfold pi32.
  assert (T : bpow radix2 (-26) = / 67108864) by (bp; change (2 ^ (- -26))%Z with 67108864%Z; reflexivity).
  assert (T23 : bpow radix2 (-23) = / 8388608) by (bp; change (2 ^ (- -23))%Z with 8388608%Z; reflexivity).
  rewrite T. split; intros H.
  - apply cos_gap; [lra|lra|]. destruct (Req_dec (Rabs b) (13176795 / 4194304 / 2)) as [->|N].
    + rewrite Rabs_left by lra. lra.
    + pose proof (below_32 (Rabs b) 13176795 0 F ltac:(lia) ltac:(lia)) as Q. cbn [Z.sub Z.add Z.opp Z.pos_sub] in Q. rewrite T23 in Q.
      assert (L : Rabs b <= 13176795 * / 8388608 - / 8388608).
      { apply Q; [lra|]. rewrite <- T23. apply gf_dyadic; cbn; lia. }
      rewrite Rabs_pos_eq by lra. lra.
  - assert (E : Rabs (sin b) = Rabs (sin (Rabs b))).
    { unfold Rabs at 3. destruct (Rcase_abs b); [now rewrite sin_neg, Rabs_Ropp|reflexivity]. }
    rewrite E. apply sin_gap; [lra|lra|]. destruct (Req_dec (Rabs b) (13176795 / 4194304)) as [->|N].
    + rewrite Rabs_left by lra. lra.
    + assert (T22 : bpow radix2 (1 - 23) = / 4194304) by (bp; change (2 ^ (- (1 - 23)))%Z with 4194304%Z; reflexivity).
      pose proof (below_32 (Rabs b) 26353590 1 F ltac:(lia) ltac:(lia)) as Q. rewrite T22, T23 in Q.
      assert (L : Rabs b <= 26353590 * / 8388608 - / 4194304).
      { apply Q; [lra|]. replace (26353590 * / 8388608) with (IZR 13176795 * bpow radix2 (-22)).
        - apply gf_dyadic; cbn; lia.
        - bp. change (2 ^ (- -22))%Z with 4194304%Z. lra. }
      rewrite Rabs_pos_eq by lra. lra.
Qed.

(** ** Putting the directions together *)
Section Trip.
Variables (f s : format) (c cs d : R) (m : libm).
Hypothesis Ff : fine f.
Hypothesis Fs : fine s.
Hypothesis Sub : forall v, fl s v -> fl f v.
Hypothesis Fd : factor f s c cs d.
Hypothesis Ha : accurate f m.
Notation u := (bpow radix2 (- fprec f)).
Notation us := (bpow radix2 (- fprec s)).
Notation ang := (ang f s d).

Lemma trip r t e de lon lat : 1000 <= r <= 7000000 -> 7 / 10 <= t <= 9 / 10 -> 0 <= e -> Rabs lon <= 180 -> Rabs lat <= 90 ->
  cs / 2 <= PI / 2 + de -> 0 <= de <= / 100 -> bpow radix2 (-55) <= Rabs (cos (ang lat)) ->
  (1 <= Rabs (ang lon) -> bpow radix2 (-55) <= Rabs (sin (ang lon))) ->
  exists x y z, fwd f s c m r (Some lon) (Some lat) = (Some x, Some y, Some z) /\
    (fl s x /\ fl s y /\ fl s z /\ x * x + y * y + z * z <= 6 / 5 * (r * r) /\ (bpow radix2 (-60) <= Rabs x \/ bpow radix2 (-60) <= Rabs y)) /\
    forall ll, near_exact r t e x y z ll -> exists lon' lat', ll = (Some lon', Some lat') /\
      Rabs (lat' - lat) <= e + 58 * (53 * u + 161 / 10 * us + 2 * de) /\
      (0 < cos (ang lat) -> (exists k, Rabs (lon' - lon - 360 * IZR k) <= e + 58 * (53 * u + 161 / 10 * us + 2 * de)) /\
         (Rabs (ang lon) <= PI -> Rabs (lon' - lon) <= e + 58 * (53 * u + 161 / 10 * us + 2 * de))).
Proof.
  intros Hr Ht He Hlon Hlat Hcs Hde Hg Hs. pose proof PI_b as P.
  destruct (forward f s c cs d m Ff Fs Sub Fd Ha r lon lat Hr Hlon Hlat Hg)
    as (x & y & z & e1 & e2 & e3 & E & Fx & Fy & Fz & H1 & H2 & H3 & Ex & Ey & Ez & Sy).
  pose proof (ang_180 f s c cs d Ff Fs Fd lon Hlon) as Bl. pose proof (ang_90 f s c cs d Ff Fs Fd lat Hlat) as Bp.
  pose proof (ang_err f s c cs d Ff Fs Fd lon Hlon) as Al. pose proof (ang_err f s c cs d Ff Fs Fd lat ltac:(lra)) as Ap.
  destruct (fine_u f Ff) as [U0 U1]. destruct (fine_u s Fs) as [V0 V1].
  pose proof (bpow_gt_0 radix2 (- fprec f)) as Up. pose proof (bpow_gt_0 radix2 (- fprec s)) as Vp.
  destruct Fd as (_ & _ & _ & _ & _ & C).
  set (lam := ang lon) in *. set (phi := ang lat) in *. set (ep := 7 * u + 2 * us) in *.
  assert (Hep : ep <= / 100) by (unfold ep; lra). assert (Hep0 : 0 < ep) by (unfold ep; lra).
  set (k := cos phi) in *. pose proof (bpow_gt_0 radix2 (-55)) as B55.
  assert (Kn : 0 < Rabs k) by lra. assert (K1 : Rabs k <= 1) by (apply Rabs_le, COS_bound).
  set (K := r * Rabs k). assert (HK : 0 < K) by (apply Rmult_lt_0_compat; lra).
  (* distance from the axis *)
  assert (Rho : x * x + y * y <> 0 /\ Rabs (rho x y - K) <= 21 / 10 * ep * K).
  { destruct (Rlt_dec 0 k) as [L|L].
    - assert (EK : K = r * k) by (unfold K; now rewrite Rabs_pos_eq by lra).
      rewrite Ex, Ey, <- EK. now apply pert_rho.
    - assert (EK : K = - (r * k)) by (unfold K; rewrite Rabs_left1 by lra; ring).
      replace x with (K * (cos (lam + PI) + - e1)) by (rewrite EK, neg_cos, Ex; ring).
      replace y with (K * (sin (lam + PI) + - e2)) by (rewrite EK, neg_sin, Ey; ring).
      apply pert_rho; auto; rewrite Rabs_Ropp; assumption. }
  destruct Rho as [Nxy Hrho]. assert (R0 : 0 < rho x y) by now apply rho_pos.
  assert (Rsq : rho x y * rho x y = x * x + y * y) by (apply sqrt_sqrt; nra).
  pose proof Hrho as Hrho'. apply Rabs_le_inv in Hrho'.
  assert (EpK : ep * K <= / 100 * K) by (apply Rmult_le_compat_r; lra).
  assert (Rk : rho x y <= 103 / 100 * K /\ 97 / 100 * K <= rho x y) by lra.
  exists x, y, z. split; [exact E|]. split.
  { split; [exact Fx|]. split; [exact Fy|]. split; [exact Fz|]. split.
    - pose proof (sin2_cos2 phi) as T. unfold Rsqr in T. fold k in T.
      assert (Ks : K * K = r * r * (k * k)).
      { unfold K. replace (r * Rabs k * (r * Rabs k)) with (r * r * (Rabs k * Rabs k)) by ring. rewrite <- Rabs_mult, (Rabs_pos_eq (k * k)) by nra. reflexivity. }
      assert (Z2 : z * z <= r * r * (sin phi * sin phi + 3 / 100)).
      { rewrite Ez. replace (r * (sin phi + e3) * (r * (sin phi + e3))) with (r * r * ((sin phi + e3) * (sin phi + e3))) by ring.
        apply Rmult_le_compat_l; [nra|]. apply Rabs_le_inv in H3. pose proof (SIN_bound phi). nra. }
      assert (X2 : x * x + y * y <= 107 / 100 * (r * r * (k * k))) by (rewrite <- Rsq, <- Ks; nra).
      replace (sin phi * sin phi) with (1 - k * k) in Z2 by lra. assert (0 <= r * r) by nra. nra.
    - assert (Kb : bpow radix2 (-50) <= K).
      { unfold K. apply Rle_trans with (1000 * bpow radix2 (-55)); [|apply Rmult_le_compat; lra].
        change (-50)%Z with (5 + -55)%Z. rewrite bpow_plus. apply Rmult_le_compat_r; [lra|]. bp. change (2 ^ 5)%Z with 32%Z. lra. }
      assert (B6 : bpow radix2 (-60) = / 1024 * bpow radix2 (-50)).
      { change (-60)%Z with (-10 + -50)%Z. rewrite bpow_plus. f_equal. }
      pose proof (bpow_gt_0 radix2 (-50)). rewrite B6.
      destruct (Rle_dec (/ 1024 * bpow radix2 (-50)) (Rabs x)) as [|N1]; [now left|].
      destruct (Rle_dec (/ 1024 * bpow radix2 (-50)) (Rabs y)) as [|N2]; [now right|exfalso].
      apply Rnot_le_lt in N1, N2. pose proof (Rabs_pos x). pose proof (Rabs_pos y).
      assert (X2 : x * x = Rabs x * Rabs x) by (rewrite <- Rabs_mult, Rabs_pos_eq; nra).
      assert (Y2 : y * y = Rabs y * Rabs y) by (rewrite <- Rabs_mult, Rabs_pos_eq; nra).
      set (B := bpow radix2 (-50)) in *. assert (Rabs x * Rabs x <= / 1024 * B * (/ 1024 * B)) by (apply Rmult_le_compat; lra).
      assert (Rabs y * Rabs y <= / 1024 * B * (/ 1024 * B)) by (apply Rmult_le_compat; lra). nra. }
  intros ll (thr & lon' & lat' & lon0 & lat0 & T1 & T2 & T3 & T4 & T5). exists lon', lat'. split; [exact T3|].
  apply Rabs_le_inv in T1.
  assert (Q : lon0 = rlon x y /\ Rabs (lat0 * (PI / 180) - phi) <= 6 * ep + 2 * de).
  { assert (Bphi : Rabs phi <= 1.6) by lra.
    destruct (Rlt_dec (Rabs (z / r)) thr) as [L|L].
    - rewrite exact_low in T2 by (auto; lra). injection T2 as <- <-. split; [reflexivity|].
      rewrite Ez in L |- *. pose proof (lat_z_near r phi e3 ep ltac:(lra) Bphi H3 Hep ltac:(lra)). lra.
    - apply Rnot_lt_le in L.
      assert (Rr : rho x y <= r).
      { rewrite Ez, (z_quot r phi e3 ltac:(lra)) in L. assert (68 / 100 <= Rabs (sin phi)).
        { pose proof (Rabs_triang (sin phi) e3). lra. }
        pose proof (sin2_cos2 phi) as T. unfold Rsqr in T. fold k in T.
        assert (Sq : Rabs (sin phi) * Rabs (sin phi) = sin phi * sin phi) by (rewrite <- Rabs_mult; apply Rabs_pos_eq; nra).
        assert (Kq : Rabs k * Rabs k = k * k) by (rewrite <- Rabs_mult; apply Rabs_pos_eq; nra).
        assert (K74 : Rabs k <= 74 / 100).
        { destruct (Rle_dec (Rabs k) (74 / 100)) as [|N]; [assumption|exfalso].
          assert (74 / 100 * (74 / 100) <= Rabs k * Rabs k) by (apply Rmult_le_compat; lra).
          assert (68 / 100 * (68 / 100) <= Rabs (sin phi) * Rabs (sin phi)) by (apply Rmult_le_compat; lra). lra. }
        assert (r * Rabs k <= r * (74 / 100)) by (apply Rmult_le_compat_l; lra). unfold K in Rk. lra. }
      rewrite exact_high in T2 by (auto; lra). injection T2 as <- <-. split; [reflexivity|].
      rewrite Ez in L |- *.
      apply (lat_xy_near r phi e3 ep ltac:(lra) Bphi H3 Hep (rho x y) de x y); auto; try lra. }
  destruct Q as [-> Qlat].
  assert (Pd : 0 < 180 / PI <= 573 / 10).
  { split; [apply Rdiv_lt_0_compat; lra|]. apply (Rmult_le_reg_r PI); [lra|]. unfold Rdiv. rewrite Rmult_assoc, Rinv_l by lra. lra. }
  (* from radians to degrees *)
  assert (Deg : forall v w a q, Rabs (v * (PI / 180) - w - q) <= a -> Rabs (v - w * (180 / PI) - q * (180 / PI)) <= 573 / 10 * a).
  { intros v w a q H. replace (v - w * (180 / PI) - q * (180 / PI)) with ((v * (PI / 180) - w - q) * (180 / PI)) by (field; lra).
    rewrite Rabs_mult, (Rabs_pos_eq (180 / PI)) by lra. pose proof (Rabs_pos (v * (PI / 180) - w - q)). nra. }
  assert (Adeg : forall w v, Rabs (w - v * (PI / 180)) <= 11 * u + 41 / 10 * us -> Rabs (w * (180 / PI) - v) <= 573 / 10 * (11 * u + 41 / 10 * us)).
  { intros w v H. replace (w * (180 / PI) - v) with ((w - v * (PI / 180)) * (180 / PI)) by (field; lra).
    rewrite Rabs_mult, (Rabs_pos_eq (180 / PI)) by lra. pose proof (Rabs_pos (w - v * (PI / 180))). nra. }
  split.
  { pose proof (Deg lat0 phi (6 * ep + 2 * de) 0) as D1. rewrite Rmult_0_l, !Rminus_0_r in D1. specialize (D1 Qlat).
    pose proof (Adeg phi lat Ap) as D2.
    eapply Rle_trans; [apply (abs_step _ _ _ _ _ T5 (abs_step _ _ _ _ _ D1 D2))|]. unfold ep. lra. }
  intros Hk. assert (EK : K = r * k) by (unfold K; now rewrite Rabs_pos_eq by lra).
  assert (EX : x = K * (cos lam + e1)) by (rewrite EK; exact Ex). assert (EY : y = K * (sin lam + e2)) by (rewrite EK; exact Ey).
  assert (Cos1 : Rabs lam <= 1 -> / 2 < cos lam).
  { intros L. apply Rabs_le_inv in L.
    assert (Q : forall a, 0 <= a <= 1 -> / 2 < cos a).
    { intros a Ha'. replace (/ 2) with (cos (PI / 3)) by (rewrite cos_PI3; lra). apply cos_decreasing_1; lra. }
    destruct (Rle_dec 0 lam); [apply Q; lra|]. rewrite <- cos_neg. apply Q; lra. }
  assert (Side : y <> 0 \/ 0 < x).
  { destruct (Rle_dec (Rabs lam) 1) as [L|L].
    - right. rewrite EX. specialize (Cos1 L). apply Rabs_le_inv in H1. apply Rmult_lt_0_compat; lra.
    - left. intros Zy. specialize (Sy (Hs ltac:(lra))). rewrite Zy in Sy. lra. }
  split.
  - destruct (lon_wrap K lam e1 e2 ep HK ltac:(lra) H1 H2 Hep) as (n & _ & Hn).
    { rewrite <- EX, <- EY. exact Side. }
    rewrite <- EX, <- EY in Hn. exists n. pose proof (Deg _ _ _ _ Hn) as D1.
    replace (2 * IZR n * PI * (180 / PI)) with (360 * IZR n) in D1 by (field; lra).
    pose proof (Adeg lam lon Al) as D2.
    replace (lon' - lon - 360 * IZR n) with ((lon' - rlon x y) + (rlon x y - lam * (180 / PI) - 360 * IZR n) + (lam * (180 / PI) - lon)) by ring.
    eapply Rle_trans; [apply Rabs_triang|]. eapply Rle_trans; [apply Rplus_le_compat_r, Rabs_triang|]. unfold ep in D1. lra.
  - intros Lp. pose proof (lon_near K lam e1 e2 ep HK ltac:(lra) H1 H2 Hep) as D1. cbv zeta in D1. rewrite <- EX, <- EY in D1.
    assert (Dd : Rabs (rlon x y * (PI / 180) - lam) <= 33 / 10 * ep).
    { apply D1; auto. destruct (Rle_dec (Rabs lam) 1) as [L|L]; [auto|].
      specialize (Sy (Hs ltac:(lra))). destruct (Rle_dec 0 lam) as [L0|L0].
      - left. split; [|exact L0]. rewrite Rabs_pos_eq in Lp by lra. assert (0 <= sin lam) by (apply sin_ge_0; lra).
        destruct (Rle_dec 0 y) as [|Ny]; [assumption|exfalso]. assert (KS : 0 <= k * sin lam) by (apply Rmult_le_pos; lra).
        pose proof (Rmult_le_compat_neg_l y 0 (k * sin lam) ltac:(lra) KS). lra.
      - right. left. split; [|lra]. rewrite Rabs_left in Lp by lra. assert (sin lam <= 0).
        { rewrite <- (Ropp_involutive lam), sin_neg. pose proof (sin_ge_0 (- lam) ltac:(lra) ltac:(lra)). lra. }
        destruct (Rle_dec y 0) as [|Ny]; [assumption|exfalso]. assert (KS : 0 <= k * - sin lam) by (apply Rmult_le_pos; lra).
        pose proof (Rmult_le_compat_l y 0 (k * - sin lam) ltac:(lra) KS). lra. }
    pose proof (Deg (rlon x y) lam (33 / 10 * ep) 0) as D3. rewrite Rmult_0_l, !Rminus_0_r in D3. specialize (D3 Dd).
    pose proof (Adeg lam lon Al) as D2.
    eapply Rle_trans; [apply (abs_step _ _ _ _ _ T4 (abs_step _ _ _ _ _ D3 D2))|]. unfold ep. lra.
Qed.
End Trip.

(** ** C73 *)
(** [ll] is the position ([lon], [lat]) up to [e] degrees *)
Definition comes_back (e lon lat : R) (ll : option R * option R) : Prop :=
  exists lon' lat', ll = (Some lon', Some lat') /\ Rabs (lon' - lon) <= e /\ Rabs (lat' - lat) <= e.

Lemma nst_nmul f c m a b : good f -> @nst _ (FN f f c m) (@nmul _ (FN f f c m) a b) = @nmul _ (FN f f c m) a b.
Proof.
  intros G. cbn [nst nmul FN]. destruct a as [a|], b as [b|]; try reflexivity. cbn [bind2].
  destruct (fit f (a * b)) as [w|] eqn:E; [|reflexivity]. cbn [bind1]. apply fit_fl. apply (fit_inv f G _ _ E).
Qed.
(** storing results of numpy's float operations changes nothing *)
Lemma numpy_fwd f c m r lon lat : good f -> @lonlat2xyz_at _ (FN f f c m) (Some r) lon lat = fwd f f c m r lon lat.
Proof.
  intros G. unfold fwd, lonlat2xyz_at. change (FW f f c m) with (FN f f c m). unfold deg2rad. rewrite !(nst_nmul f c m) by assumption. reflexivity.
Qed.

Lemma u64 : bpow radix2 (- fprec b64) = / 9007199254740992.
Proof. cbn [fprec b64]. bp. reflexivity. Qed.
Lemma u32 : bpow radix2 (- fprec b32) = / 16777216.
Proof. cbn [fprec b32]. bp. reflexivity. Qed.

Lemma trip_64 m r t e lon lat : accurate b64 m -> 1000 <= r <= 7000000 -> 7 / 10 <= t <= 9 / 10 -> 0 <= e <= 51 / 10000000 ->
  Rabs lon <= 180 -> Rabs lat <= 90 ->
  exists x y z, fwd b64 b64 pi64 m r (Some lon) (Some lat) = (Some x, Some y, Some z) /\
    (forall r', 6 / 5 * (r * r) <= 5 / 4 * (r' * r') -> position b64 r' x y z) /\
    forall ll, near_exact r t e x y z ll -> comes_back (6 / 1000000) lon lat ll.
Proof.
  intros HA Hr Ht He Hlon Hlat. pose proof PI_bounds as P.
  pose proof (ang_fl b64 b64 pi64 pi64 d64 fine_64 fine_64 factor_64) as AF.
  destruct (gap_64 _ (AF lat ltac:(lra))) as [G1 _]. destruct (gap_64 _ (AF lon Hlon)) as [_ G2].
  specialize (G1 (ang_90 _ _ _ _ _ fine_64 fine_64 factor_64 lat Hlat)).
  pose proof (ang_180 _ _ _ _ _ fine_64 fine_64 factor_64 lon Hlon) as B180.
  pose proof (bpow_gt_0 radix2 (-55)) as B55.
  destruct (trip b64 b64 pi64 pi64 d64 m fine_64 fine_64 (fun v H => H) factor_64 HA r t e 0 lon lat) as (x & y & z & E & (Fx & Fy & Fz & Nb & Ax) & H);
    auto; try (unfold pi64; lra).
  { eapply Rle_trans; [exact G1|]. apply Rle_abs. }
  exists x, y, z. split; [exact E|]. split.
  { intros r' Hr'. repeat split; try apply Fx; try apply Fy; try apply Fz; auto. lra. }
  intros ll Hl. destruct (H ll Hl) as (lon' & lat' & El & H1 & H2). exists lon', lat'. split; [exact El|].
  rewrite u64 in *. destruct H2 as [_ H2]; [lra|]. split; [|lra].
  eapply Rle_trans; [apply H2|lra]. unfold pi64 in B180. lra.
Qed.

(** all three versions on double arrays *)
Theorem C73_double : forall m t lon lat, in_range b64 pi64 m -> accurate b64 m -> Rabs lon <= 180 -> Rabs lat <= 90 ->
  let N := F64 m in
  comes_back (6 / 1000000) lon lat (@xyz2lonlat _ N (@lonlat2xyz _ N (Some lon) (Some lat))) /\
  comes_back (6 / 1000000) lon lat (@cy_xyz2lonlat _ N true (nst (ndiv (nz 8) (nz 10))) (@cy_lonlat2xyz _ N (Some lon) (Some lat))) /\
  (7 / 10 <= t <= 9 / 10 -> comes_back (6 / 1000000) lon lat (@vii_xyz2lonlat _ N (Some t) (@vii_lonlat2xyz _ N (Some lon) (Some lat)))).
Proof.
  intros m t lon lat HR HA Hlon Hlat N.
  assert (ER : @EARTH_RADIUS _ N = Some 6370997) by (unfold EARTH_RADIUS; apply (fit_IZR b64 6370997); auto using good_b64; cbn; lia).
  destruct (trip_64 m 6370997 (8 / 10) (51 / 10000000) lon lat HA ltac:(lra) ltac:(lra) ltac:(lra) Hlon Hlat) as (x & y & z & E & Hp & H).
  assert (Hp1 : position b64 6370997 x y z) by (apply Hp; lra).
  split; [|split].
  - unfold lonlat2xyz. rewrite ER. unfold N, F64. rewrite (numpy_fwd b64) by apply good_b64. rewrite E. apply H.
    eapply near_weaken; [|apply (proj1 (C72_numpy m x y z) HR HA Hp1)]. lra.
  - assert (Ec : @cy_lonlat2xyz _ N (Some lon) (Some lat) = (Some x, Some y, Some z)).
    { unfold cy_lonlat2xyz. rewrite ER. exact E. }
    rewrite Ec. apply H. eapply near_weaken; [|apply (proj1 (C72_cython m x y z HR HA) Hp1)]. lra.
  - intros Ht. destruct (vii_radius m) as (r & Er & Br & Dr & Fr).
    destruct (trip_64 m r t (51 / 10000000) lon lat HA ltac:(lra) ltac:(lra) ltac:(lra) Hlon Hlat) as (x' & y' & z' & E' & Hp' & H').
    assert (Ev : @vii_lonlat2xyz _ N (Some lon) (Some lat) = (Some x', Some y', Some z')).
    { rewrite <- E', <- (numpy_fwd b64) by apply good_b64. unfold vii_lonlat2xyz, lonlat2xyz_at. change (FN b64 b64 pi64 m) with N. change (F64 m) with N in Er. rewrite Er. reflexivity. }
    rewrite Ev. assert (Hp2 : position b64 6371008 x' y' z') by (apply Hp'; nra).
    destruct (vii_near m t HR HA Ht x' y' z' Hp2) as (r2 & Er2 & _ & Hn). rewrite Er in Er2. injection Er2 as <-.
    apply H'. eapply near_weaken; [|exact Hn]. pose proof tol_64. lra.
Qed.
Print Assumptions C73_double.
Example C73_case : Rabs (-180) <= 180 /\ Rabs 90 <= 90 /\ in_range b64 pi64 exact_libm /\ accurate b64 exact_libm.
Proof.
  rewrite Rabs_left, Rabs_pos_eq by lra. destruct C71_exact_libm, C72_exact_libm. split; [lra|]. split; [lra|]. auto.
Qed.

(** ** Float arrays *)
(** positions [ll] is close to: the latitude always, the longitude off the poles up to whole turns,
    and exactly off the antimeridian *)
Definition comes_back_float (e lon lat : R) (ll : option R * option R) : Prop :=
  exists lon' lat', ll = (Some lon', Some lat') /\ Rabs (lat' - lat) <= e /\
    (Rabs lat <= 89.99 -> (exists k, Rabs (lon' - lon - 360 * IZR k) <= e) /\ (Rabs lon <= 179.99 -> Rabs (lon' - lon) <= e)).

Lemma trip_32 f c d m e lon lat : fine f -> (forall v, fl b32 v -> fl f v) -> factor f b32 c pi32 d -> accurate f m -> 0 <= e ->
  Rabs lon <= 180 -> Rabs lat <= 90 ->
  exists x y z, fwd f b32 c m 6370997 (Some lon) (Some lat) = (Some x, Some y, Some z) /\ position b32 6370997 x y z /\
    forall ll, near_exact 6370997 (8 / 10) e x y z ll -> comes_back_float (e + 58 * (53 * bpow radix2 (- fprec f) + / 900000)) lon lat ll.
Proof.
  intros Ff Sub Fd HA He Hlon Hlat. pose proof PI_bounds as P. pose proof PI_b as P2.
  pose proof (ang_fl f b32 c pi32 d Ff fine_32 Fd) as AF.
  destruct (gap_32 _ (AF lat ltac:(lra))) as [G1 _]. destruct (gap_32 _ (AF lon Hlon)) as [_ G2].
  specialize (G1 (ang_90 _ _ _ _ _ Ff fine_32 Fd lat Hlat)).
  pose proof (ang_180 _ _ _ _ _ Ff fine_32 Fd lon Hlon) as B180.
  pose proof (ang_90 _ _ _ _ _ Ff fine_32 Fd lat Hlat) as B90.
  pose proof (bpow_le radix2 (-55) (-26) ltac:(lia)) as B55.
  destruct (trip f b32 c pi32 d m Ff fine_32 Sub Fd HA 6370997 (8 / 10) e (5 / 100000000) lon lat) as (x & y & z & E & (Fx & Fy & Fz & Nb & Ax) & H);
    auto; try (unfold pi32; lra).
  exists x, y, z. split; [exact E|]. split.
  { repeat split; try apply Fx; try apply Fy; try apply Fz; auto. lra. }
  pose proof (bpow_gt_0 radix2 (- fprec f)) as Up. pose proof (proj2 (fine_u f Ff)) as U1.
  intros ll Hl. destruct (H ll Hl) as (lon' & lat' & El & H1 & H2). exists lon', lat'. split; [exact El|].
  rewrite u32 in *. split; [lra|]. intros L89.
  pose proof (ang_err f b32 c pi32 d Ff fine_32 Fd lat ltac:(lra)) as Ap. pose proof (ang_err f b32 c pi32 d Ff fine_32 Fd lon Hlon) as Al.
  rewrite u32 in Ap, Al.
  assert (Cp : 0 < cos (ang f b32 d lat)).
  { apply Rabs_le_inv in Ap, L89. assert (89.99 * (PI / 180) <= PI / 2 - / 10000) by lra.
    assert (- (89.99 * (PI / 180)) <= lat * (PI / 180) <= 89.99 * (PI / 180)) by (split; [rewrite <- Ropp_mult_distr_l_reverse|]; apply Rmult_le_compat_r; lra).
    apply cos_gt_0; lra. }
  destruct (H2 Cp) as [(k & Hk) H3]. split.
  - exists k. lra.
  - intros L179. eapply Rle_trans; [apply H3|lra].
    apply Rabs_le_inv in Al, L179. assert (179.99 * (PI / 180) <= PI - / 10000) by lra.
    assert (- (179.99 * (PI / 180)) <= lon * (PI / 180) <= 179.99 * (PI / 180)) by nra.
    apply Rabs_le. lra.
Qed.

Lemma back_float_weaken e e' lon lat ll : e <= e' -> comes_back_float e lon lat ll -> comes_back_float e' lon lat ll.
Proof.
  intros L (lon' & lat' & H1 & H2 & H3). exists lon', lat'. split; [exact H1|]. split; [lra|]. intros L89.
  destruct (H3 L89) as [(k & Hk) H4]. split; [exists k; lra|]. intros L179. specialize (H4 L179). lra.
Qed.

(** the compiled version on float arrays: what is missing is the longitude of the poles and the
    sign of longitudes of 180 degrees *)
Theorem C73_compiled_floats_partial : forall m lon lat, in_range b64 pi64 m -> accurate b64 m -> Rabs lon <= 180 -> Rabs lat <= 90 ->
  let N := F64_32 m in
  comes_back_float (1 / 10000) lon lat (@cy_xyz2lonlat _ N true (nst (ndiv (nz 8) (nz 10))) (@cy_lonlat2xyz _ N (Some lon) (Some lat))).
Proof.
  intros m lon lat HR HA Hlon Hlat N.
  assert (ER : @EARTH_RADIUS _ N = Some 6370997) by (unfold EARTH_RADIUS; apply (fit_IZR b64 6370997); auto using good_b64; cbn; lia).
  destruct (trip_32 b64 pi64 d64 m (16 / 1000000) lon lat fine_64 fl_larger factor_64_32 HA ltac:(lra) Hlon Hlat) as (x & y & z & E & Hp & H).
  assert (Ec : @cy_lonlat2xyz _ N (Some lon) (Some lat) = (Some x, Some y, Some z)).
  { unfold cy_lonlat2xyz. rewrite ER. exact E. }
  rewrite Ec. eapply back_float_weaken; [|apply H, (proj2 (C72_cython m x y z HR HA) Hp)]. rewrite u64. lra.
Qed.
Print Assumptions C73_compiled_floats_partial.

(** numpy on float arrays *)
Theorem C73_numpy_floats_partial : forall m lon lat, in_range b32 pi32 m -> accurate b32 m -> Rabs lon <= 180 -> Rabs lat <= 90 ->
  let N := F32 m in comes_back_float (1 / 10) lon lat (@xyz2lonlat _ N (@lonlat2xyz _ N (Some lon) (Some lat))).
Proof.
  intros m lon lat HR HA Hlon Hlat N.
  assert (ER : @EARTH_RADIUS _ N = Some 6370997) by (unfold EARTH_RADIUS; apply (fit_IZR b32 6370997); auto using good_b32; cbn; lia).
  destruct (trip_32 b32 pi32 d32 m (95 / 1000) lon lat fine_32 (fun v H => H) factor_32 HA ltac:(lra) Hlon Hlat) as (x & y & z & E & Hp & H).
  unfold lonlat2xyz. rewrite ER. unfold N, F32. rewrite (numpy_fwd b32) by apply good_b32. rewrite E.
  eapply back_float_weaken; [|apply H]; [rewrite u32; lra|].
  eapply near_weaken; [apply tol_32|]. apply (numpy_near m b32 pi32); auto using good_b32, consts_32, Cpi_32; cbn; lia.
Qed.
Print Assumptions C73_numpy_floats_partial.

Example C73_float_case : in_range b32 pi32 exact_libm /\ accurate b32 exact_libm /\ Rabs 180 <= 180 /\ Rabs 89.9 <= 89.99.
Proof. rewrite !Rabs_pos_eq by lra. destruct C71_exact_libm, C72_exact_libm. split; [auto|]. split; [auto|]. lra. Qed.

(** On float arrays the compiled version returns longitudes of 180 degrees as -180 degrees: the
    float nearest to pi is larger than pi. *)
Theorem C73_antimeridian : forall m lat, in_range b64 pi64 m -> accurate b64 m -> Rabs lat <= 89.99 ->
  let N := F64_32 m in exists lon' lat',
  @cy_xyz2lonlat _ N true (nst (ndiv (nz 8) (nz 10))) (@cy_lonlat2xyz _ N (Some 180) (Some lat)) = (Some lon', Some lat') /\
  -180 <= lon' <= -179.99.
Proof.
  intros m lat HR HA Hlat N.
  assert (H180 : Rabs 180 <= 180) by (rewrite Rabs_pos_eq; lra).
  pose proof (C73_compiled_floats_partial m 180 lat HR HA H180 ltac:(lra)) as CB. cbv zeta in CB. fold N in CB.
  assert (ER : @EARTH_RADIUS _ N = Some 6370997) by (unfold EARTH_RADIUS; apply (fit_IZR b64 6370997); auto using good_b64; cbn; lia).
  destruct (trip_32 b64 pi64 d64 m (16 / 1000000) 180 lat fine_64 fl_larger factor_64_32 HA ltac:(lra) H180 ltac:(lra)) as (x & y & z & E & Hp & _).
  assert (Ec : @cy_lonlat2xyz _ N (Some 180) (Some lat) = (Some x, Some y, Some z)).
  { unfold cy_lonlat2xyz. rewrite ER. exact E. }
  rewrite Ec in *. destruct CB as (lon' & lat' & El & _ & Hl). destruct (Hl Hlat) as [(k & Hk) _]. clear Hl.
  pose proof (proj2 (C71_cython m x y z HR) Hp) as V. cbv zeta in V. change (F64_32 m) with N in V.
  destruct V as (lon2 & lat2 & E2 & B2 & _ & S2 & _). rewrite El in E2. injection E2 as <- <-.
  exists lon', lat'. split; [exact El|].
  (* y is negative *)
  pose proof (ang_fl b64 b32 pi64 pi32 d64 fine_64 fine_32 factor_64_32) as AF.
  destruct (gap_32 _ (AF lat ltac:(lra))) as [G1 _]. destruct (gap_32 _ (AF 180 H180)) as [_ G2].
  specialize (G1 (ang_90 _ _ _ _ _ fine_64 fine_32 factor_64_32 lat ltac:(lra))).
  pose proof (bpow_le radix2 (-55) (-26) ltac:(lia)) as B55. pose proof (bpow_gt_0 radix2 (-26)) as B26.
  assert (E180 : ang b64 b32 d64 180 = pi32) by (destruct factor_64_32 as (_ & _ & _ & Q & _); exact Q).
  destruct (forward b64 b32 pi64 pi32 d64 m fine_64 fine_32 fl_larger factor_64_32 HA 6370997 180 lat ltac:(lra) H180 ltac:(lra) ltac:(lra))
    as (x' & y' & z' & e1 & e2 & e3 & E' & _ & _ & _ & _ & _ & _ & _ & _ & _ & Sy).
  rewrite E in E'. injection E' as <- <- <-. rewrite E180 in *. pose proof PI_bounds as P. pose proof PI_b as P2.
  assert (Sn : sin pi32 < 0).
  { rewrite <- (sin_PI_x pi32), <- (Ropp_involutive (PI - pi32)), sin_neg. unfold pi32. pose proof (sin_gt_0 (- (PI - 13176795 / 4194304)) ltac:(lra) ltac:(lra)). lra. }
  assert (Cp : 0 < cos (ang b64 b32 d64 lat)).
  { pose proof (ang_err b64 b32 pi64 pi32 d64 fine_64 fine_32 factor_64_32 lat ltac:(lra)) as Ap. rewrite u32, u64 in Ap.
    apply Rabs_le_inv in Ap, Hlat. assert (89.99 * (PI / 180) <= PI / 2 - / 10000) by lra.
    assert (- (89.99 * (PI / 180)) <= lat * (PI / 180) <= 89.99 * (PI / 180)) by (split; [rewrite <- Ropp_mult_distr_l_reverse|]; apply Rmult_le_compat_r; lra).
    apply cos_gt_0; lra. }
  assert (Y0 : y < 0).
  { assert (P32 : 1 <= Rabs pi32 <= pi32) by (unfold pi32; rewrite Rabs_pos_eq; lra).
    specialize (Sy ltac:(specialize (G2 P32); lra)). destruct (Rlt_dec y 0) as [|N0]; [assumption|exfalso].
    assert (KS : 0 <= cos (ang b64 b32 d64 lat) * - sin pi32) by (apply Rmult_le_pos; lra).
    pose proof (Rmult_le_compat_l y 0 _ ltac:(lra) KS). lra. }
  specialize (S2 Y0). apply Rabs_le_inv in Hk.
  assert (K0 : (k <= -1)%Z).
  { apply Z.lt_succ_r. replace (Z.succ (-1)) with 0%Z by reflexivity. apply lt_IZR. lra. }
  apply IZR_le in K0. lra.
Qed.
Print Assumptions C73_antimeridian.

(** On float arrays numpy's version forgets small longitudes: 1/128 degree (868 m) comes back as 0,
    already with a correctly rounding library. *)
Theorem C73_refuted : exists m lon lat, in_range b32 pi32 m /\ accurate b32 m /\ fl b32 lon /\ fl b32 lat /\ Rabs lon <= 1 /\ Rabs lat <= 1 /\
  ~ comes_back (5 / 1000) lon lat (let N := F32 m in @xyz2lonlat _ N (@lonlat2xyz _ N (Some lon) (Some lat))).
Proof.
  exists exact_libm, (/ 128), 0. split; [apply C71_exact_libm|]. split; [apply C72_exact_libm|].
  assert (G : good b32) by apply good_b32.
  assert (F128 : generic_format radix2 (FLT_exp (femin b32) (fprec b32)) (/ 128)).
  { replace (/ 128) with (bpow radix2 (-7)) by (bp; change (2 ^ (- -7))%Z with 128%Z; reflexivity). apply gf_bpow; auto. cbn. lia. }
  assert (Bmax : 1 < bpow radix2 (femax b32)) by (change 1 with (bpow radix2 0); apply bpow_lt; cbn; lia).
  split; [split; [exact F128|]; rewrite Rabs_pos_eq; lra|]. split; [split; [apply generic_format_0|rewrite Rabs_R0; lra]|].
  split; [rewrite Rabs_pos_eq; lra|]. split; [rewrite Rabs_R0; lra|].
  cbv zeta. set (N := F32 exact_libm).
  assert (ER : @EARTH_RADIUS _ N = Some 6370997) by (unfold EARTH_RADIUS; apply (fit_IZR b32 6370997); auto; cbn; lia).
  pose proof PI_b as P.
  assert (Small : forall v, Rabs v <= 8000000 -> fit b32 v = Some (rd b32 v)).
  { intros v Hv. apply (fit_bound b32 v 8000000); auto; cbn; lia. }
  (* the angles *)
  assert (El : @deg2rad _ N (Some (/ 128)) = Some (/ 128 * d32)).
  { unfold deg2rad. cbn [nmul ndiv npi nz N F32 FN]. rewrite (fit_IZR b32 180) by (auto; cbn; lia). cbn [bind2].
    destruct (Req_EM_T 180 0) as [Z|_]; [lra|]. rewrite fit_d32. cbn [bind2]. rewrite Small by (unfold d32; rewrite Rabs_pos_eq; lra).
    f_equal. apply rd_id. replace (/ 128 * d32) with (IZR 9370165 * bpow radix2 (-36)) by (unfold d32; bp; change (2 ^ (- -36))%Z with 68719476736%Z; lra).
    apply gf_dyadic; cbn; lia. }
  assert (Ep : @deg2rad _ N (Some 0) = Some 0).
  { unfold deg2rad. cbn [nmul ndiv npi nz N F32 FN]. rewrite (fit_IZR b32 180) by (auto; cbn; lia). cbn [bind2].
    destruct (Req_EM_T 180 0) as [Z|_]; [lra|]. rewrite fit_d32. cbn [bind2]. rewrite Rmult_0_l, Small by (rewrite Rabs_R0; lra). now rewrite rd_0. }
  set (b := / 128 * d32) in *. assert (Bb : 0 < b <= 14 / 100000) by (unfold b, d32; lra).
  assert (C0 : @ncos _ N (Some 0) = Some 1).
  { cbn [ncos N F32 FN bind1 m_cos exact_libm]. rewrite cos_0. apply (fit_IZR b32 1); auto; cbn; lia. }
  assert (Cb : @ncos _ N (Some b) = Some 1).
  { cbn [ncos N F32 FN bind1 m_cos exact_libm].
    assert (L : 1 - b * b <= cos b <= 1).
    { split; [|apply COS_bound]. replace b with (2 * (b / 2)) at 3 by field. rewrite cos_2a_sin.
      pose proof (sin_lt_x (b / 2) ltac:(lra)). pose proof (sin_gt_0 (b / 2) ltac:(lra) ltac:(lra)). nra. }
    assert (R1 : rd b32 (cos b) = 1).
    { destruct (Req_dec (cos b) 1) as [->|Nc]; [apply rd_id, (gfI b32 1); auto; cbn; lia|].
      assert (b * b <= 14 / 100000 * (14 / 100000)) by (apply Rmult_le_compat; lra).
      rewrite (rd_eq b32 (cos b) 0 16777216); cbn [fprec femin b32]; [..|lia|]; bp.
      - change (2 ^ (- (0 - 24)))%Z with 16777216%Z. lra.
      - change (2 ^ (- (0 - 1)))%Z with 2%Z. change (2 ^ 0)%Z with 1%Z. lra.
      - change (2 ^ (24 - 0))%Z with 16777216%Z. apply Rabs_def1; lra. }
    rewrite (Small (cos b)), R1; [reflexivity|]. rewrite Rabs_pos_eq; nra. }
  assert (Sb : exists w, @nsin _ N (Some b) = Some w /\ 0 <= w <= 15 / 100000).
  { exists (rd b32 (sin b)). pose proof (sin_lt_x b ltac:(lra)). pose proof (sin_gt_0 b ltac:(lra) ltac:(lra)). split.
    - cbn [nsin N F32 FN bind1 m_sin exact_libm]. apply Small. rewrite Rabs_pos_eq; lra.
    - pose proof (fine_err b32 (sin b) fine_32) as Q. rewrite u32, (Rabs_pos_eq (sin b)) in Q by lra.
      assert (bpow radix2 (-150) <= / 1000000000) by (apply Rle_trans with (bpow radix2 (-30)); [apply bpow_le; lia|]; bp; change (2 ^ (- -30))%Z with 1073741824%Z; lra).
      apply Rabs_le_inv in Q. split; [|lra]. apply rd_ge_gf; auto; [apply generic_format_0|lra]. }
  destruct Sb as (w & Ew & Bw).
  assert (Ex : forall o, @lonlat2xyz _ N (Some (/ 128)) (Some 0) = o -> exists y, o = (Some 6370997, Some y, @nmul _ N (Some 6370997) (@nsin _ N (Some 0))) /\ fl b32 y /\ Rabs y <= 1000).
  { intros o <-. unfold lonlat2xyz, lonlat2xyz_at. rewrite ER, El, Ep, C0, Cb, Ew.
    assert (E1 : @nmul _ N (Some 6370997) (Some 1) = Some 6370997).
    { cbn [nmul N F32 FN bind2]. rewrite Rmult_1_r. apply (fit_IZR b32 6370997); auto; cbn; lia. }
    rewrite !E1. exists (rd b32 (6370997 * w)). 
    assert (Fy : fit b32 (6370997 * w) = Some (rd b32 (6370997 * w))) by (apply Small; rewrite Rabs_pos_eq; lra).
    split; [cbn [nmul N F32 FN bind2]; now rewrite Fy|]. split; [apply (fit_inv b32 G _ _ Fy)|].
    rewrite rd_abs by auto. apply rd_le_gf; auto; [apply (gfI b32 1000); auto; cbn; lia|]. rewrite Rabs_pos_eq; lra. }
  destruct (Ex _ eq_refl) as (y & Ey & Fy & By).
  intros (lon' & lat' & Eq & Hl & _). rewrite Ey in Eq.
  pose proof (C72_float_meridian exact_libm y (@nmul _ N (Some 6370997) (@nsin _ N (Some 0)))) as Q.
  assert (A1 : rd b32 (m_acos exact_libm 1) = 0) by (cbn [m_acos exact_libm]; now rewrite acos_1, rd_0).
  specialize (Q A1 Fy By). change (F32 exact_libm) with N in Q. rewrite Eq in Q. cbn [fst] in Q. injection Q as ->.
  apply Rabs_le_inv in Hl. lra.
Qed.
Print Assumptions C73_refuted.
