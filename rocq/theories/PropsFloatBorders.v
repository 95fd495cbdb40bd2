(** C136: rounding errors of _linear_extrapolate and of fill_borders on double arrays. *)
From Coq Require Import ZArith List Lia Bool Arith Reals Lra.
From Flocq.Core Require Import Core.
From Verif Require Import Spec Base Num Splits Geo Float FloatGeo FloatAcc FloatTrip FloatNear Modis Interp PlProofs InterpProofs Legacy LegacyProofs LegacyInst BorderProofs Borders FloatBorders.
Import ListNotations.
#[local] Existing Instance RT.
Open Scope R_scope.

Section C136.
Variable l : libm.
Notation nd := (near b64).

(** ** _linear_extrapolate *)
(** two tie positions at a moderate distance *)
Definition tie_pair (p0 p1 : R) : Prop := fl b64 p0 /\ fl b64 p1 /\ / 1000 <= Rabs (p0 - p1) <= 10000.

Theorem C136_extrapolate : forall p0 p1 x d0 d1 q B D, tie_pair p0 p1 -> fl b64 x -> 1 <= q <= 1000 -> Rabs (x - p1) <= q * Rabs (p0 - p1) ->
  length d0 = length d1 -> Forall (fl b64) d0 -> Forall (fl b64) d1 ->
  / 100000 <= D -> q * D <= 100000000 -> B <= 100000000 ->
  (forall j, (j < length d0)%nat -> Rabs (nth j d1 0) <= B /\ Rabs (nth j d0 0 - nth j d1 0) <= D) ->
  exists r, @linear_extrapolate _ (F64 l) [Some p0; Some p1] [map Some d0; map Some d1] (Some x) = Ok (map Some r) /\
    length r = length d0 /\ Forall (fl b64) r /\
    forall j, (j < length d0)%nat ->
      Rabs (nth j r 0 - straight_line p0 (nth j d0 0) p1 (nth j d1 0) x) <= (1800 * q * D + 120 * B) / 1000000000000000000.
Proof.
  intros p0 p1 x d0 d1 q B D (F0 & F1 & G) Fx Hq Hx L D0 D1 HD HqD HB H.
  set (g := Rabs (p0 - p1)) in *.
  assert (NW : forall v, fl b64 v -> nd (Some v) v (12 / 100000000000000000 * g)).
  { intros v Fv. eapply near_weaken; [|apply near_0; exact Fv]. lra. }
  assert (E : forall j, (j < length d0)%nat -> exists v, nth j (map2 (@lin_at _ (F64 l) (Some p0) (Some p1) (Some x)) (map Some d0) (map Some d1)) None = Some v /\ fl b64 v /\
    Rabs (v - straight_line p0 (nth j d0 0) p1 (nth j d1 0) x) <= (1800 * q * D + 120 * B) / 1000000000000000000).
  { intros j Hj. rewrite (nth_map2 _ _ _ j None None) by (rewrite map_length; lia). rewrite !(nth_map' Some _ j 0) by lia.
    destruct (H j Hj) as [HB1 HDj]. rewrite Forall_forall in D0, D1.
    assert (B0 : 0 <= B) by (pose proof (Rabs_pos (nth j d1 0)); lra).
    assert (Q : nd (@lin_at _ (F64 l) (Some p0) (Some p1) (Some x) (Some (nth j d0 0)) (Some (nth j d1 0))) (straight_line p0 (nth j d0 0) p1 (nth j d1 0) x)
      (0 * (1 + 2001 / 1000 * q) + 15 * (12 / 100000000000000000) * q * D + eps b64 * B)).
    { apply (lin_near l (12 / 100000000000000000) g q 0 B D); auto; try lra; apply near_0; (apply D0 + apply D1); apply nth_In; lia. }
    destruct Q as (v & Ev & Fv & Dv).
    exists v. split; [exact Ev|]. split; [exact Fv|]. eapply Rle_trans; [exact Dv|]. pose proof eps_64.
    assert (eps b64 * B <= 12 / 100000000000000000 * B) by (apply Rmult_le_compat_r; lra). lra. }
  set (r' := map2 (@lin_at _ (F64 l) (Some p0) (Some p1) (Some x)) (map Some d0) (map Some d1)) in *.
  assert (Lr : length r' = length d0) by (unfold r'; rewrite map2_length, !map_length; lia).
  exists (map (fun v => match v with Some a => a | None => 0 end) r').
  assert (R : forall j, (j < length d0)%nat -> Some (nth j (map (fun v => match v with Some a => a | None => 0 end) r') 0) = nth j r' None).
  { intros j Hj. rewrite (nth_map' _ r' j None) by lia. destruct (E j Hj) as (v & Ev & _). now rewrite Ev. }
  split; [|split; [now rewrite map_length|split]].
  - cbn [linear_extrapolate]. f_equal. fold r'. apply (list_eq_nth None); [now rewrite !map_length|]. intros j Hj. rewrite <- R by lia. now rewrite (nth_map' Some _ j 0) by (rewrite map_length; lia).
  - apply Forall_nth. intros j dd Hj. rewrite map_length, Lr in Hj. rewrite (nth_indep _ dd 0) by (rewrite map_length; lia).
    destruct (E j Hj) as (v & Ev & Fv & _). specialize (R j Hj). rewrite Ev in R. injection R as ->. exact Fv.
  - intros j Hj. destruct (E j Hj) as (v & Ev & _ & Dv). specialize (R j Hj). rewrite Ev in R. injection R as ->. exact Dv.
Qed.

(** extrapolating to the second tie position returns the second row, bit for bit ... *)
Theorem C136_second : forall p0 p1 d0 d1, tie_pair p0 p1 -> length d0 = length d1 ->
  Forall (fun v => fl b64 v /\ Rabs v <= 100000000) d0 -> Forall (fun v => fl b64 v /\ Rabs v <= 100000000) d1 ->
  @linear_extrapolate _ (F64 l) [Some p0; Some p1] [map Some d0; map Some d1] (Some p1) = Ok (map Some d1).
Proof.
  intros p0 p1 d0 d1 (F0 & F1 & G) L H0 H1. cbn [linear_extrapolate]. f_equal.
  set (g := Rabs (p0 - p1)) in *.
  assert (Z : fit b64 0 = Some 0) by (apply (fit_IZR b64 0 good_b64); cbn; lia).
  assert (A3 : exists s, @nmul _ (F64 l) (@nz _ (F64 l) 1) (@nsub _ (F64 l) (Some p0) (Some p1)) = Some s /\ s <> 0).
  { pose proof eps_64 as U.
    assert (Ug : eps b64 * g <= / 100000 * g) by (apply Rmult_le_compat_r; lra).
    assert (A2 : nd (@nsub _ (F64 l) (Some p0) (Some p1)) (p0 - p1) (eps b64 * g)).
    { eapply near_weaken; [|apply (near_sub b64 b64 pi64 l fine_64 _ _ _ _ 0 0 g (near_0 _ _ F0) (near_0 _ _ F1))]; [lra|fold g; lra|unfold big; lra]. }
    pose proof (near_nz b64 b64 pi64 l fine_64 1 ltac:(lia)) as O.
    assert (MM : Rabs 1 <= 1) by (rewrite Rabs_R1; lra).
    pose proof (near_mul b64 b64 pi64 l fine_64 _ _ _ _ _ _ 1 g (2 * g) O A2 MM ltac:(fold g; lra) ltac:(lra) ltac:(unfold big; lra)) as (s & Es & _ & Ds).
    exists s. split; [exact Es|]. intros ->. rewrite Rmult_1_l in Ds.
    replace (0 - (p0 - p1)) with (- (p0 - p1)) in Ds by ring. rewrite Rabs_Ropp in Ds. fold g in Ds. lra. }
  destruct A3 as (s & Es & Ns).
  revert d1 L H1. induction H0 as [|a d0 [Fa Ba] H0 IH]; intros d1 L H1; destruct d1 as [|b d1]; simpl in L; try lia; [reflexivity|].
  inversion H1 as [|? ? [Fb Bb] H1']; subst. cbn [map map2]. f_equal; [|apply IH; [lia|exact H1']].
  unfold lin_at. rewrite Es.
  assert (E1 : @nsub _ (F64 l) (Some p1) (Some p1) = Some 0) by (cbn [nsub F64 FN bind2]; rewrite Rminus_diag_eq by reflexivity; exact Z).
  rewrite E1.
  assert (E2 : @ndiv _ (F64 l) (Some 0) (Some s) = Some 0).
  { cbn [ndiv F64 FN bind2]. destruct (Req_EM_T s 0); [contradiction|]. unfold Rdiv. rewrite Rmult_0_l. exact Z. }
  rewrite E2.
  assert (E3 : exists t, @nsub _ (F64 l) (Some a) (Some b) = Some t).
  { destruct (near_sub b64 b64 pi64 l fine_64 _ _ _ _ 0 0 300000000 (near_0 _ _ Fa) (near_0 _ _ Fb)) as (t & Et & _); [|unfold big; lra|eauto].
    pose proof (Rabs_triang a (- b)) as T. rewrite Rabs_Ropp in T. unfold Rminus at 1. lra. }
  destruct E3 as (t & ->).
  assert (E4 : @nmul _ (F64 l) (Some 0) (Some t) = Some 0) by (cbn [nmul F64 FN bind2]; rewrite Rmult_0_l; exact Z).
  rewrite E4. cbn [nadd F64 FN bind2]. rewrite Rplus_0_r. apply fit_fl. exact Fb.
Qed.

(** ... but extrapolating to the first tie position need not return the first row *)
Theorem C136_first_not_exact : exists p0 p1 d0 d1, tie_pair p0 p1 /\ fl b64 d0 /\ fl b64 d1 /\ 0 < d0 /\
  @linear_extrapolate _ (F64 l) [Some p0; Some p1] [[Some d0]; [Some d1]] (Some p0) = Ok [Some 0].
Proof.
  pose proof (fit_IZR b64 0 good_b64 ltac:(cbn; lia) ltac:(lia)) as Z0.
  pose proof (fit_IZR b64 1 good_b64 ltac:(cbn; lia) ltac:(lia)) as Z1.
  assert (Fl0 : fl b64 0) by apply (fit_inv b64 good_b64 _ _ Z0). assert (Fl1 : fl b64 1) by apply (fit_inv b64 good_b64 _ _ Z1).
  assert (Sm : fl b64 (bpow radix2 (-60))).
  { split; [apply (gf_bpow b64 good_b64); cbn; lia|]. rewrite Rabs_pos_eq by apply bpow_ge_0. apply bpow_lt. cbn. lia. }
  exists 1, 0, (bpow radix2 (-60)), 1.
  split. { split; [exact Fl1|]. split; [exact Fl0|]. rewrite Rminus_0_r, Rabs_R1. lra. }
  split; [exact Sm|]. split; [exact Fl1|]. split; [apply bpow_gt_0|].
  cbn [linear_extrapolate map2]. f_equal. f_equal. unfold lin_at.
  cbn [nsub nmul ndiv nadd nz F64 FN bind2]. rewrite Z1. cbn [bind2]. rewrite Rminus_0_r, Z1. cbn [bind2]. rewrite Rmult_1_l, Z1. cbn [bind2].
  destruct (Req_EM_T 1 0); [lra|]. unfold Rdiv. rewrite Rinv_1, Rmult_1_l, Z1. cbn [bind2].
  assert (E : fit b64 (bpow radix2 (-60) - 1) = Some (-1)).
  { assert (Rr : rd b64 (bpow radix2 (-60) - 1) = -1).
    { replace (bpow radix2 (-60) - 1) with (- (1 - bpow radix2 (-60))) by ring. rewrite rd_opp. f_equal.
      rewrite (rd_eq b64 _ 0 (2 ^ 53)).
      - cbn [fprec b64]. change (2 ^ 53)%Z with 9007199254740992%Z. rewrite (bpow_Zn (0 - 53)) by lia. change (2 ^ - (0 - 53))%Z with 9007199254740992%Z. lra.
      - change (bpow radix2 0) with 1. rewrite (bpow_Zn (0 - 1)), (bpow_Zn (-60)) by lia. change (2 ^ - (0 - 1))%Z with 2%Z. change (2 ^ - -60)%Z with 1152921504606846976%Z. lra.
      - cbn. lia.
      - cbn [fprec b64]. rewrite (bpow_Z (53 - 0)), (bpow_Zn (-60)) by lia. change (2 ^ (53 - 0))%Z with 9007199254740992%Z. change (2 ^ 53)%Z with 9007199254740992%Z.
        change (2 ^ - -60)%Z with 1152921504606846976%Z. apply Rabs_def1; lra. }
    rewrite (fit_some b64 good_b64 _ 1).
    - now rewrite Rr.
    - cbn. lia.
    - rewrite (bpow_Z 1), (bpow_Zn (-60)) by lia. change (2 ^ - -60)%Z with 1152921504606846976%Z. change (2 ^ 1)%Z with 2%Z. apply Rabs_le. lra. }
  rewrite E. cbn [bind2]. rewrite Rmult_1_l.
  pose proof (fit_IZR b64 (-1) good_b64 ltac:(cbn; lia) ltac:(lia)) as Zm. rewrite Zm. cbn [bind2].
  replace (1 + -1) with 0 by ring. exact Z0.
Qed.

(** ** the grids of the legacy functions *)
Lemma nz_exact z : (Z.abs z < 2 ^ 24)%Z -> @nz _ (F64 l) z = Some (IZR z).
Proof. intros H. apply (fit_IZR b64 z good_b64); [cbn; lia|exact H]. Qed.
Lemma div_exact a b q : (Z.abs a < 2 ^ 24)%Z -> (Z.abs b < 2 ^ 24)%Z -> (Z.abs q < 2 ^ 24)%Z -> (b <> 0)%Z -> (a = q * b)%Z ->
  @ndiv _ (F64 l) (@nz _ (F64 l) a) (@nz _ (F64 l) b) = Some (IZR q).
Proof.
  intros Ha Hb Hq Nb ->. rewrite !nz_exact by assumption. cbn [ndiv F64 FN bind2].
  assert (IZR b <> 0) by (now apply not_0_IZR). destruct (Req_EM_T (IZR b) 0); [contradiction|].
  replace (IZR (q * b) / IZR b) with (IZR q) by (rewrite mult_IZR; field; assumption).
  apply (fit_IZR b64 q good_b64); [cbn; lia|exact Hq].
Qed.

Lemma window_64 (P' : list (option R)) n c m : length P' = n -> (c * m + m <= n)%nat ->
  (forall i, (i < n)%nat -> exists v, nth i P' (@nz _ (F64 l) 0) = Some v /\ IZR (Z.of_nat i) <= v < IZR (Z.of_nat i) + 1) ->
  @window _ (F64 l) P' (Some (IZR (Z.of_nat (c * m)))) (Some (IZR (Z.of_nat (c * m + m)))) = seq (c * m) m.
Proof.
  intros L Hc HP. unfold window. rewrite L. apply filter_seq_interval; [lia|].
  intros i Hi. destruct (HP i Hi) as (v & -> & Hv). cbn [nleb nltb F64 FN liftb]. f_equal.
  - destruct (Nat.leb_spec (c * m) i) as [H|H].
    + apply Rleb_true. assert (IZR (Z.of_nat (c * m)) <= IZR (Z.of_nat i)) by (apply IZR_le; lia). lra.
    + apply Rleb_false. assert (IZR (Z.of_nat i) + 1 <= IZR (Z.of_nat (c * m))) by (rewrite <- plus_IZR; apply IZR_le; lia). lra.
  - destruct (Nat.ltb_spec i (c * m + m)) as [H|H].
    + apply Rltb_true. assert (IZR (Z.of_nat i) + 1 <= IZR (Z.of_nat (c * m + m))) by (rewrite <- plus_IZR; apply IZR_le; lia). lra.
    + apply Rltb_false. assert (IZR (Z.of_nat (c * m + m)) <= IZR (Z.of_nat i)) by (apply IZR_le; lia). lra.
Qed.

Section Layout.
Variables (g m k : nat) (delta o : R) (P' H' cols' hcols' : list (option R)) (cols hcols : list R).
Hypothesis Hg : (1 <= g)%nat.
Hypothesis Hm : (2 <= m)%nat.
Hypothesis Hk : (1 <= k)%nat.
Hypothesis Sz : (Z.of_nat (g * (k * m)) <= 1000000)%Z.
Hypothesis Hdelta : 0 <= delta < 1.
Hypothesis HX0 : Rabs (- o / IZR (Z.of_nat g) - 1 - delta) <= 7 / 5.
Hypothesis HX1 : Rabs (1 - (1 + o) / IZR (Z.of_nat g) - delta) <= 7 / 5.
Hypothesis NP : Forall2 (fun x t => nd x t wpos) P' (Pn delta (k * m)).
Hypothesis NH : Forall2 (fun x t => nd x t wpos) H' (Hn g o (g * (k * m))).
Hypothesis CO : cols_ok l cols' hcols' cols hcols.
Hypothesis IP : forall i, (i < k * m)%nat -> exists v, nth i P' (@nz _ (F64 l) 0) = Some v /\ IZR (Z.of_nat i) <= v < IZR (Z.of_nat i) + 1.

Lemma layout_near ties : Forall (moderate (k * m) (length cols)) ties ->
  exists sf sr,
    @fill_borders _ (F64 l) [DimY; DimX] (mkI P' cols' H' hcols' (Z.of_nat (g * m)) (map doubles64 ties) 1 3 (map (fun _ => []) ties)) = (Ok tt, sf) /\
    fill_borders [DimY; DimX] (st0 g m delta o cols hcols 3 (map (fun _ => []) ties) (k * m) ties) = (Ok tt, sr) /\
    Forall2 (Forall2 (Forall2 (fun x t => nd x t efill2))) (tie_data sf) (tie_data sr) /\
    Forall2 (fun x t => nd x t wpos) (row_indices sf) (row_indices sr) /\
    Forall2 (fun x t => nd x t wpos) (col_indices sf) (col_indices sr).
Proof using All.
  intros HT. assert (g0 : 0 < IZR (Z.of_nat g)) by (apply IZR_lt; lia).
  apply (fill_near l g m k P' H' (Pn delta (k * m)) (Hn g o (g * (k * m))) cols' hcols' cols hcols 1 3); auto.
  - apply Pn_length.
  - apply Hn_length.
  - intros i Hi. rewrite !nth_Pn by lia. unfold posn. rewrite Nat2Z.inj_succ, succ_IZR. ring.
  - intros c Hc. rewrite nth_Hn by nia. rewrite nth_Pn by nia. unfold hposn, posn.
    replace ((IZR (Z.of_nat (g * m * c)) - o) / IZR (Z.of_nat g) - (IZR (Z.of_nat (c * m + 1)) + delta)) with (- o / IZR (Z.of_nat g) - 1 - delta); [exact HX0|].
    rewrite Nat2Z.inj_add, !Nat2Z.inj_mul, plus_IZR, !mult_IZR. change (IZR (Z.of_nat 1)) with 1. field. lra.
  - intros c Hc. assert (CM : (c * m + m <= k * m)%nat) by nia. rewrite nth_Hn by nia. rewrite nth_Pn by nia. unfold hposn, posn.
    replace ((IZR (Z.of_nat (g * m * c + g * m - 1)) - o) / IZR (Z.of_nat g) - (IZR (Z.of_nat (c * m + m - 1)) + delta)) with (1 - (1 + o) / IZR (Z.of_nat g) - delta); [exact HX1|].
    rewrite !Nat2Z.inj_sub by nia. rewrite !Nat2Z.inj_add, !Nat2Z.inj_mul, !minus_IZR, !plus_IZR, !mult_IZR. change (IZR (Z.of_nat 1)) with 1. field. lra.
  - intros c Hc. assert (CM : (c * m + m <= k * m)%nat) by nia.
    assert (KM : (k * m <= g * (k * m))%nat) by nia.
    assert (GC : (g * (c * m) + g * m <= g * (k * m))%nat) by nia.
    assert (F : @ndiv _ (F64 l) (@nz _ (F64 l) (Z.of_nat (g * (k * m)))) (@nz _ (F64 l) (Z.of_nat (k * m))) = @nz _ (F64 l) (Z.of_nat g)).
    { rewrite (div_exact _ _ (Z.of_nat g)) by nia. symmetry. apply nz_exact. nia. }
    rewrite F.
    rewrite (div_exact (Z.of_nat (g * m) * Z.of_nat c) (Z.of_nat g) (Z.of_nat (c * m))) by nia.
    rewrite (div_exact (Z.of_nat (g * m) * Z.of_nat c + Z.of_nat (g * m)) (Z.of_nat g) (Z.of_nat (c * m + m))) by nia.
    apply (window_64 P' (k * m)); [rewrite (Forall2_len _ _ _ NP); apply Pn_length|exact CM|exact IP].
  - intros c Hc. assert (CM : (c * m + m <= k * m)%nat) by nia. destruct (chunk_bounds g m Hg Hm (k * m) c ltac:(nia)) as [B1 B2]. cbv zeta in B1, B2. rt.
    rewrite (window_Pn g m delta Hg Hm Hdelta (k * m) c) by (auto; lia). f_equal. nia.
Qed.
End Layout.

Lemma in_arange i a b s : (0 < s)%Z -> In i (np_arange a b s) -> (a <= i < b)%Z.
Proof.
  intros Hs H. unfold np_arange in H. apply in_map_iff in H. destruct H as (j & <- & Hj).
  apply In_range0 in Hj. pose proof (Z.mul_div_le (b - a + s - 1) s Hs). nia.
Qed.

(** the positions: every position of the grids is a rounded fraction *)
Lemma near_frac i d : (0 <= i <= 500000)%Z -> (2 <= d <= 5)%Z -> nd (@ndiv _ (F64 l) (@nz _ (F64 l) i) (@nz _ (F64 l) d)) (IZR i / IZR d) wpos.
Proof.
  intros Hi Hd. pose proof (near_nz b64 b64 pi64 l fine_64 i ltac:(lia)) as A. pose proof (near_nz b64 b64 pi64 l fine_64 d ltac:(lia)) as B.
  assert (2 <= IZR d <= 5) by (split; apply IZR_le; lia). assert (0 <= IZR i <= 500000) by (split; apply IZR_le; lia).
  assert (D1 : 0 <= IZR i / IZR d <= 250000).
  { split; [apply Rmult_le_pos; [lra|apply Rlt_le, Rinv_0_lt_compat; lra]|]. apply (Rmult_le_reg_r (IZR d)); [lra|].
    unfold Rdiv. rewrite Rmult_assoc, Rinv_l, Rmult_1_r by lra. lra. }
  assert (Q : Rabs (IZR i / IZR d) <= 250000) by (apply Rabs_le; lra).
  eapply near_weaken; [|apply (near_div b64 b64 pi64 l fine_64 _ _ _ _ 0 0 250000 2 250000 A B Q)]; try lra.
  - pose proof eps_64. unfold wpos. lra.
  - rewrite Rabs_pos_eq; lra.
  - unfold big. lra.
Qed.
Lemma near_shift i a d : (0 <= i <= 200000)%Z -> (1 <= a <= 3)%Z -> (2 <= d <= 5)%Z ->
  nd (@ndiv _ (F64 l) (@nsub _ (F64 l) (@nz _ (F64 l) i) (@ndiv _ (F64 l) (@nz _ (F64 l) a) (@nz _ (F64 l) 2))) (@nz _ (F64 l) d)) ((IZR i - IZR a / 2) / IZR d) wpos.
Proof.
  intros Hi Ha Hd. pose proof eps_64 as U.
  pose proof (near_nz b64 b64 pi64 l fine_64 i ltac:(lia)) as A. pose proof (near_nz b64 b64 pi64 l fine_64 d ltac:(lia)) as B.
  pose proof (near_nz b64 b64 pi64 l fine_64 a ltac:(lia)) as C. pose proof (near_nz b64 b64 pi64 l fine_64 2 ltac:(lia)) as T.
  assert (2 <= IZR d <= 5) by (split; apply IZR_le; lia). assert (0 <= IZR i <= 200000) by (split; apply IZR_le; lia). assert (1 <= IZR a <= 3) by (split; apply IZR_le; lia).
  assert (C1 : nd (@ndiv _ (F64 l) (@nz _ (F64 l) a) (@nz _ (F64 l) 2)) (IZR a / 2) (2 * eps b64)).
  { assert (Q : Rabs (IZR a / 2) <= 2) by (apply Rabs_le; lra).
    eapply near_weaken; [|apply (near_div b64 b64 pi64 l fine_64 _ _ _ _ 0 0 2 2 2 C T Q)]; try lra; [rewrite Rabs_pos_eq; lra|unfold big; lra]. }
  assert (C2 : nd (@nsub _ (F64 l) (@nz _ (F64 l) i) (@ndiv _ (F64 l) (@nz _ (F64 l) a) (@nz _ (F64 l) 2))) (IZR i - IZR a / 2) (25 / 1000000000000)).
  { eapply near_weaken; [|apply (near_sub b64 b64 pi64 l fine_64 _ _ _ _ _ _ 200003 A C1)]; [lra| |unfold big; lra].
    assert (Rabs (IZR i - IZR a / 2) <= 200002) by (apply Rabs_le; lra). lra. }
  assert (Q : Rabs ((IZR i - IZR a / 2) / IZR d) <= 100001).
  { unfold Rdiv at 1. rewrite Rabs_mult, Rabs_inv, (Rabs_pos_eq (IZR d)) by lra. apply (Rmult_le_reg_r (IZR d)); [lra|].
    rewrite Rmult_assoc, Rinv_l, Rmult_1_r by lra. apply Rle_trans with 200002; [apply Rabs_le; lra|lra]. }
  eapply near_weaken; [|apply (near_div b64 b64 pi64 l fine_64 _ _ _ _ _ 0 100001 2 100002 C2 B Q)]; try lra.
  - unfold wpos. lra.
  - rewrite Rabs_pos_eq; lra.
  - unfold big. lra.
Qed.
Lemma near_whole i : (0 <= i <= 200000)%Z -> nd (@nz _ (F64 l) i) (IZR i) wpos.
Proof. intros Hi. eapply near_weaken; [|apply (near_nz b64 b64 pi64 l fine_64); lia]. unfold wpos. lra. Qed.

(** both arithmetics decide alike whether a border column is missing *)
Lemma neq_near x y a b : nd x a wpos -> nd y b wpos -> / 10 <= Rabs (a - b) -> negb (@neqb _ (F64 l) x y) = negb (@neqb _ RT a b).
Proof.
  intros (v & -> & _ & Ev) (w & -> & _ & Ew) H. cbn [neqb F64 FN liftb RT]. unfold wpos in *. apply Rabs_le_inv in Ev. apply Rabs_le_inv in Ew.
  assert (N1 : v <> w) by (intros ->; assert (Rabs (a - b) <= / 20) by (apply Rabs_le; lra); lra).
  assert (N2 : a <> b) by (intros ->; rewrite Rminus_diag_eq, Rabs_R0 in H by reflexivity; lra).
  f_equal. transitivity false; [|symmetry]; now apply Reqb_false.
Qed.
Lemma glast_near cols' hcols' cols hcols : Forall2 (fun x t => nd x t wpos) cols' cols -> Forall2 (fun x t => nd x t wpos) hcols' hcols ->
  cols <> [] -> hcols <> [] -> / 10 <= Rabs (last cols 0 - last hcols 0) -> @glast _ (F64 l) cols' hcols' = @glast _ RT cols hcols.
Proof.
  intros F1 F2 N1 N2 H. unfold glast. apply neq_near; [| |exact H]; rewrite !last_nth;
    [rewrite (Forall2_len _ _ _ F1); apply (Forall2_at _ _ _ _ _ _ F1); destruct cols; [congruence|simpl; lia]
    |rewrite (Forall2_len _ _ _ F2); apply (Forall2_at _ _ _ _ _ _ F2); destruct hcols; [congruence|simpl; lia]].
Qed.
Lemma gfirst_near cols' hcols' cols hcols : Forall2 (fun x t => nd x t wpos) cols' cols -> Forall2 (fun x t => nd x t wpos) hcols' hcols ->
  cols <> [] -> hcols <> [] -> / 10 <= Rabs (hd 0 cols - hd 0 hcols) -> @gfirst _ (F64 l) cols' hcols' = @gfirst _ RT cols hcols.
Proof.
  intros F1 F2 N1 N2 H. unfold gfirst. apply neq_near; [| |exact H]; rewrite !hd_nth;
    [apply (Forall2_at _ _ _ _ _ _ F1); destruct cols; [congruence|simpl; lia]|apply (Forall2_at _ _ _ _ _ _ F2); destruct hcols; [congruence|simpl; lia]].
Qed.

Lemma last_Pn delta n : (1 <= n)%nat -> last (Pn delta n) 0 = posn delta (n - 1).
Proof. intros H. rewrite last_nth, Pn_length. apply nth_Pn. lia. Qed.
Lemma last_Hn g o n : (1 <= n)%nat -> last (Hn g o n) 0 = hposn g o (n - 1).
Proof. intros H. rewrite last_nth, Hn_length. apply nth_Hn. lia. Qed.
Lemma Pn_ne delta n : (1 <= n)%nat -> Pn delta n <> [].
Proof. intros H E. apply (f_equal (@length R)) in E. rewrite Pn_length in E. simpl in E. lia. Qed.

Lemma frac_grid a b s d : (0 <= a)%Z -> (0 < s)%Z -> (b <= 500000)%Z -> (2 <= d <= 5)%Z ->
  Forall2 (fun x t => nd x t wpos) (@grid_div _ (F64 l) d (np_arange a b s)) (grid_div d (np_arange a b s)).
Proof. intros Ha Hs Hb Hd. apply Forall2_same. intros i Hi. apply in_arange in Hi; [|exact Hs]. apply near_frac; lia. Qed.
Lemma whole_grid b : (b <= 200000)%Z -> Forall2 (fun x t => nd x t wpos) (@grid_of _ (F64 l) (np_arange 0 b 1)) (grid_of (np_arange 0 b 1)).
Proof. intros Hb. apply Forall2_same. intros i Hi. apply in_arange in Hi; [|lia]. apply near_whole. lia. Qed.
Lemma shift_grid a b d : (b <= 200000)%Z -> (1 <= a <= 3)%Z -> (2 <= d <= 5)%Z ->
  Forall2 (fun x t => nd x t wpos) (@grid_shift_div _ (F64 l) a 2 d (np_arange 0 b 1)) (grid_shift_div a 2 d (np_arange 0 b 1)).
Proof. intros Hb Ha Hd. apply Forall2_same. intros i Hi. apply in_arange in Hi; [|lia]. apply near_shift; lia. Qed.

Lemma cols5_ok : cols_ok l (@grid_div _ (F64 l) 5 (np_arange 2 1354 5)) (@grid_div _ (F64 l) 5 (np_arange 0 1354 1)) cols5 hcols5.
Proof.
  assert (F1 : Forall2 (fun x t => nd x t wpos) (@grid_div _ (F64 l) 5 (np_arange 2 1354 5)) cols5).
  { unfold cols5. rewrite <- (grid_2_5 1354 271) by (now vm_compute). apply frac_grid; lia. }
  assert (F2 : Forall2 (fun x t => nd x t wpos) (@grid_div _ (F64 l) 5 (np_arange 0 1354 1)) hcols5).
  { unfold hcols5. rewrite <- (grid_div_Hn 5 1354) by lia. apply frac_grid; lia. }
  assert (N1 : cols5 <> []) by (apply Pn_ne; lia). assert (N2 : hcols5 <> []) by (apply Hn_ne; lia).
  split; [exact F1|]. split; [exact F2|]. rewrite len_cols5. split; [lia|]. split; [exact N2|].
  pose proof (fun i H => nth_Pn (2 / 5) 271 i H) as NP. fold cols5 in NP. rewrite !NP by lia. rewrite hd_nth. unfold hcols5 at 1. rewrite nth_Hn by lia.
  assert (EL : last hcols5 0 = hposn 5 0 1353) by (apply (last_Hn 5 0 1354); lia). rewrite EL. unfold hposn, posn.
  change (IZR (Z.of_nat 0)) with 0. change (IZR (Z.of_nat 1)) with 1. change (IZR (Z.of_nat 5)) with 5.
  replace (IZR (Z.of_nat (271 - 2))) with 269 by (f_equal; vm_compute; reflexivity). replace (IZR (Z.of_nat (271 - 1))) with 270 by (f_equal; vm_compute; reflexivity).
  replace (IZR (Z.of_nat 1353)) with 1353 by (f_equal; vm_compute; reflexivity).
  split; [rewrite Rabs_left; lra|]. split; [apply Rabs_le; lra|]. split; [rewrite Rabs_left; lra|]. split; [apply Rabs_le; lra|]. split.
  - apply gfirst_near; auto. rewrite !hd_nth. unfold hcols5. rewrite NP, nth_Hn by lia. unfold hposn, posn.
    change (IZR (Z.of_nat 0)) with 0. change (IZR (Z.of_nat 5)) with 5. rewrite Rabs_pos_eq; lra.
  - apply glast_near; auto. rewrite EL, last_nth, len_cols5, NP by lia. unfold hposn, posn. change (IZR (Z.of_nat 5)) with 5.
    replace (IZR (Z.of_nat (271 - 1))) with 270 by (f_equal; vm_compute; reflexivity). replace (IZR (Z.of_nat 1353)) with 1353 by (f_equal; vm_compute; reflexivity).
    rewrite Rabs_left; lra.
Qed.

(** the whole-number columns and the finer ones of the 1 km functions *)
Lemma cols1_ok (g n : nat) : (2 <= g <= 4)%nat -> n = (g * 1354)%nat ->
  cols_ok l (@grid_of _ (F64 l) (np_arange 0 1354 1)) (@grid_div _ (F64 l) (Z.of_nat g) (np_arange 0 (Z.of_nat n) 1)) cols1 (Hn g 0 n).
Proof.
  intros Hg En.
  assert (F1 : Forall2 (fun x t => nd x t wpos) (@grid_of _ (F64 l) (np_arange 0 1354 1)) cols1).
  { unfold cols1. rewrite <- (grid_of_Pn 1354). apply whole_grid. lia. }
  assert (F2 : Forall2 (fun x t => nd x t wpos) (@grid_div _ (F64 l) (Z.of_nat g) (np_arange 0 (Z.of_nat n) 1)) (Hn g 0 n)).
  { rewrite <- (grid_div_Hn g n) by lia. apply frac_grid; lia. }
  assert (N1 : cols1 <> []) by (apply Pn_ne; lia). assert (N2 : Hn g 0 n <> []) by (apply Hn_ne; lia).
  split; [exact F1|]. split; [exact F2|]. rewrite len_cols1. split; [lia|]. split; [exact N2|].
  pose proof (fun i H => nth_Pn 0 1354 i H) as NP. fold cols1 in NP. rewrite !NP by lia. rewrite hd_nth. rewrite nth_Hn by lia.
  rewrite last_Hn by lia. 
  assert (g2 : 2 <= IZR (Z.of_nat g) <= 4) by (split; apply IZR_le; lia).
  assert (EH : hposn g 0 (n - 1) = 1354 - / IZR (Z.of_nat g)).
  { unfold hposn. rewrite En, Nat2Z.inj_sub, Nat2Z.inj_mul, minus_IZR, mult_IZR by lia. replace (IZR (Z.of_nat 1354)) with 1354 by (f_equal; vm_compute; reflexivity).
    change (IZR (Z.of_nat 1)) with 1. field. lra. }
  assert (gi : / 4 <= / IZR (Z.of_nat g) <= / 2) by (split; apply Rinv_le_contravar; lra).
  assert (E0 : hposn g 0 0 = 0) by (unfold hposn; change (IZR (Z.of_nat 0)) with 0; rewrite Rminus_0_r; unfold Rdiv; apply Rmult_0_l).
  rewrite EH, E0. unfold posn.
  change (IZR (Z.of_nat 0)) with 0. change (IZR (Z.of_nat 1)) with 1.
  replace (IZR (Z.of_nat (1354 - 2))) with 1352 by (f_equal; vm_compute; reflexivity). replace (IZR (Z.of_nat (1354 - 1))) with 1353 by (f_equal; vm_compute; reflexivity).
  split; [rewrite Rabs_left; lra|]. split; [apply Rabs_le; lra|]. split; [rewrite Rabs_left; lra|]. split; [apply Rabs_le; lra|]. split.
  - unfold gfirst. rewrite !hd_nth, NP, nth_Hn, E0 by lia. unfold posn. change (IZR (Z.of_nat 0)) with 0. rewrite Rplus_0_l.
    change (@neqb _ RT 0 0) with (Reqb 0 0). rewrite Reqb_refl.
    assert (C0 : nth 0 (@grid_of _ (F64 l) (np_arange 0 1354 1)) (@nz _ (F64 l) 0) = Some 0).
    { change 1354%Z with (Z.of_nat 1354). unfold grid_of. rewrite np_arange_seq, map_map. rewrite (nth_map' _ _ 0 0%nat) by (rewrite seq_length; lia). rewrite seq_nth by lia. apply (nz_exact 0). lia. }
    assert (D0 : nth 0 (@grid_div _ (F64 l) (Z.of_nat g) (np_arange 0 (Z.of_nat n) 1)) (@nz _ (F64 l) 0) = Some 0).
    { unfold grid_div. rewrite np_arange_seq, map_map. rewrite (nth_map' _ _ 0 0%nat) by (rewrite seq_length; lia). rewrite seq_nth by lia. apply (div_exact _ _ 0); lia. }
    rewrite C0, D0. cbn [neqb F64 FN liftb]. now rewrite Reqb_refl.
  - apply glast_near; auto. rewrite last_Hn by lia. rewrite EH, last_nth, len_cols1, NP by lia. unfold posn.
    replace (IZR (Z.of_nat (1354 - 1))) with 1353 by (f_equal; vm_compute; reflexivity). rewrite Rabs_left; lra.
Qed.

(** ** fill_borders on the grids of modis5kmto1km, modis1kmto500m and modis1kmto250m *)
(** the border filling succeeds in doubles and its positions and tie values are those of the exact border
    filling (C05, C08) up to 3e-11 and half a millimetre *)
Definition fills (grid64 : istate (option R)) (gridR : istate R) : Prop :=
  exists sf sr,
    @fill_borders _ (F64 l) [DimY; DimX] grid64 = (Ok tt, sf) /\ fill_borders [DimY; DimX] gridR = (Ok tt, sr) /\
    Forall2 (Forall2 (Forall2 (fun x t => nd x t (/ 2000)))) (tie_data sf) (tie_data sr) /\
    Forall2 (fun x t => nd x t (3 / 100000000000)) (row_indices sf) (row_indices sr) /\
    Forall2 (fun x t => nd x t (3 / 100000000000)) (col_indices sf) (col_indices sr).

Theorem C136_modis5km : forall k data, (1 <= Z.of_nat k <= 20000)%Z -> Forall (moderate (k * 2) 271) data ->
  fills (@modis5km_grid _ (F64 l) (Z.of_nat (k * 2)) (map doubles64 data)) (modis5km_grid (Z.of_nat (k * 2)) data).
Proof.
  intros k data Hk HM. unfold fills. rewrite grid5_st0.
  unfold modis5km_grid, make. cbn [fst snd]. rewrite map_map. change 10%Z with (Z.of_nat (5 * 2)).
  assert (EP : @grid_div _ RT 5 (np_arange 2 (Z.of_nat (k * 2) * 5) 5) = Pn (2 / 5) (k * 2)).
  { apply grid_2_5. symmetry. apply Z.div_unique with (r := 2%Z); lia. }
  assert (NP : Forall2 (fun x t => nd x t wpos) (@grid_div _ (F64 l) 5 (np_arange 2 (Z.of_nat (k * 2) * 5) 5)) (Pn (2 / 5) (k * 2))).
  { rewrite <- EP. apply frac_grid; lia. }
  apply (layout_near 5 2 k (2 / 5) 0); [lia|lia|lia|lia|lra|..].
  - change (IZR (Z.of_nat 5)) with 5. apply Rabs_le. lra.
  - change (IZR (Z.of_nat 5)) with 5. apply Rabs_le. lra.
  - exact NP.
  - rewrite <- (grid_div_Hn 5) by lia. replace (Z.of_nat (k * 2) * 5)%Z with (Z.of_nat (5 * (k * 2))) by lia. apply frac_grid; lia.
  - exact cols5_ok.
  - intros i Hi. pose proof (Forall2_at _ _ _ i (@nz _ (F64 l) 0) 0 NP ltac:(rewrite Pn_length; lia)) as (v & Ev & _ & Dv). exists v. split; [exact Ev|].
    rewrite nth_Pn in Dv by exact Hi. unfold posn, wpos in Dv. apply Rabs_le_inv in Dv. lra.
  - now rewrite len_cols5.
Qed.
Print Assumptions C136_modis5km.

Lemma whole_in n i : (Z.of_nat n <= 200000)%Z -> (i < n)%nat ->
  exists v, nth i (@grid_of _ (F64 l) (np_arange 0 (Z.of_nat n) 1)) (@nz _ (F64 l) 0) = Some v /\ IZR (Z.of_nat i) <= v < IZR (Z.of_nat i) + 1.
Proof.
  intros Hn Hi. exists (IZR (Z.of_nat i)). split; [|lra]. unfold grid_of. rewrite np_arange_seq, map_map.
  rewrite (nth_map' _ _ i 0%nat) by (rewrite seq_length; lia). rewrite seq_nth by lia. apply nz_exact. lia.
Qed.

Theorem C136_modis500m : forall k data, (1 <= Z.of_nat k <= 4000)%Z -> Forall (moderate (k * 10) 1354) data ->
  fills (@modis500m_grid _ (F64 l) (Z.of_nat (k * 10)) (map doubles64 data)) (modis500m_grid (Z.of_nat (k * 10)) data).
Proof.
  intros k data Hk HM. unfold fills. rewrite grid500_st0.
  unfold modis500m_grid, make. cbn [fst snd]. rewrite map_map. change 20%Z with (Z.of_nat (2 * 10)).
  eapply layout_near; [lia|lia|lia|lia|lra|..].
  - change (IZR (Z.of_nat 2)) with 2. apply Rabs_le. lra.
  - change (IZR (Z.of_nat 2)) with 2. apply Rabs_le. lra.
  - rewrite <- grid_of_Pn. apply whole_grid. lia.
  - rewrite <- (grid_shift_Hn 2 1 2 (1 / 2)) by reflexivity. replace (Z.of_nat (k * 10) * 2)%Z with (Z.of_nat (2 * (k * 10))) by lia. apply shift_grid; lia.
  - apply (cols1_ok 2 2708); [lia|reflexivity].
  - intros i Hi. apply whole_in; lia.
  - now rewrite len_cols1.
Qed.
Print Assumptions C136_modis500m.

Theorem C136_modis250m : forall k data, (1 <= Z.of_nat k <= 4000)%Z -> Forall (moderate (k * 10) 1354) data ->
  fills (@modis250m_grid _ (F64 l) (Z.of_nat (k * 10)) (map doubles64 data)) (modis250m_grid (Z.of_nat (k * 10)) data).
Proof.
  intros k data Hk HM. unfold fills. rewrite grid250_st0.
  unfold modis250m_grid, make. cbn [fst snd]. rewrite map_map. change 40%Z with (Z.of_nat (4 * 10)).
  eapply layout_near; [lia|lia|lia|lia|lra|..].
  - change (IZR (Z.of_nat 4)) with 4. apply Rabs_le. lra.
  - change (IZR (Z.of_nat 4)) with 4. apply Rabs_le. lra.
  - rewrite <- grid_of_Pn. apply whole_grid. lia.
  - rewrite <- (grid_shift_Hn 4 3 2 (3 / 2)) by reflexivity. replace (Z.of_nat (k * 10) * 4)%Z with (Z.of_nat (4 * (k * 10))) by lia. apply shift_grid; lia.
  - apply (cols1_ok 4 (4 * 1354)); [lia|reflexivity].
  - intros i Hi. apply whole_in; lia.
  - now rewrite len_cols1.
Qed.
Print Assumptions C136_modis250m.
End C136.
Print Assumptions C136_extrapolate.
Print Assumptions C136_second.
Print Assumptions C136_first_not_exact.

(** a concrete case: one scan of the 5 km grid, with values 1000 j + 5000 i *)
Definition c136_row (i : nat) : list R := map (fun j => IZR (1000 * Z.of_nat j + 5000 * Z.of_nat i)) (seq 0 271).
Example C136_case : moderate (1 * 2) 271 [c136_row 0; c136_row 1].
Proof.
  assert (N : forall i j, (j < 271)%nat -> nth j (c136_row i) 0 = IZR (1000 * Z.of_nat j + 5000 * Z.of_nat i)).
  { intros i j Hj. unfold c136_row. rewrite (nth_map' _ (seq 0 271) j 0%nat) by (rewrite seq_length; lia). now rewrite seq_nth by lia. }
  assert (L : forall i, length (c136_row i) = 271%nat) by (intros i; unfold c136_row; now rewrite map_length, seq_length).
  assert (E : forall i, (i < 1 * 2)%nat -> nth i [c136_row 0; c136_row 1] [] = c136_row i) by (intros [|[|i]] H; [reflexivity|reflexivity|lia]).
  split; [reflexivity|]. split; [constructor; [apply L|constructor; [apply L|constructor]]|]. split; [|split].
  - intros i j Hi Hj. rewrite E by exact Hi. rewrite N by exact Hj. split.
    + pose proof (fit_IZR b64 (1000 * Z.of_nat j + 5000 * Z.of_nat i) good_b64 ltac:(cbn; lia) ltac:(lia)) as Z. apply (fit_inv b64 good_b64 _ _ Z).
    + rewrite <- abs_IZR. apply IZR_le. lia.
  - intros i j Hi Hj. rewrite !E by lia. rewrite !N by exact Hj. rewrite <- minus_IZR, <- abs_IZR. apply IZR_le. lia.
  - intros i j Hi Hj. rewrite !E by lia. rewrite !N by lia. rewrite <- minus_IZR, <- abs_IZR. apply IZR_le. lia.
Qed.
Example C136_pair : tie_pair 0 1 /\ fl b64 (- / 4) /\ Rabs (- / 4 - 1) <= 5 / 4 * Rabs (0 - 1).
Proof.
  pose proof (fit_IZR b64 0 good_b64 ltac:(cbn; lia) ltac:(lia)) as Z0.
  pose proof (fit_IZR b64 1 good_b64 ltac:(cbn; lia) ltac:(lia)) as Z1.
  split; [|split].
  - split; [apply (fit_inv b64 good_b64 _ _ Z0)|]. split; [apply (fit_inv b64 good_b64 _ _ Z1)|].
    rewrite Rminus_0_l, Rabs_Ropp, Rabs_R1. lra.
  - replace (- / 4) with (- bpow radix2 (-2)) by (rewrite bpow_Zn by lia; reflexivity).
    split; [apply (gf_opp b64), (gf_bpow b64 good_b64); cbn; lia|]. rewrite Rabs_Ropp, Rabs_pos_eq by apply bpow_ge_0. apply bpow_lt. cbn. lia.
  - rewrite Rminus_0_l, Rabs_Ropp, Rabs_R1. apply Rabs_le. lra.
Qed.
