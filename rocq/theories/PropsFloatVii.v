(** C86 - C89: the VII interpolation on double arrays.

    [near f x t e] (FloatNear.v): [x] is a number of the format [f] within [e] of [t]. [F64 m] (Float.v): IEEE double
    arithmetic over the mathematical library [m]. *)
From Coq Require Import ZArith List Bool Arith Lia Reals Lra.
From Flocq.Core Require Import Core.
From Verif Require Import Base Num Geo Float PiBound FloatGeo FloatAcc FloatTrip FloatNear Vii ViiProofs PropsFloat PropsFloatAcc PropsFloatTrip FloatVii PropsVii.
Import ListNotations.
Open Scope R_scope.

(** one call on any list of arrays; [data], [out] an input and its output *)
Definition yields {T} (N : NumOps T) (nan : T) (datas : list (darray T)) (s f n_scans : nat) (data out : darray T) : Prop :=
  args_ok datas s f n_scans /\
  exists outs k, tie_points_interpolation nan datas s f = Ok outs /\ nth_error datas k = Some data /\ nth_error outs k = Some out.

Lemma yields_pixels {T} (N : NumOps T) nan datas s f n_scans data out : yields N nan datas s f n_scans data out ->
  pixels_of s f n_scans data out /\ nrows data = (n_scans * s)%nat /\ (2 <= ncols data)%nat /\ (1 <= f)%nat /\ (2 <= s)%nat.
Proof.
  intros (Ha & outs & k & E & H1 & H2). destruct (interpolation_ok nan datas s f n_scans Ha) as (outs' & E' & P).
  rewrite E in E'. injection E' as <-.
  destruct Ha as (first & rest & -> & Hs & Hf & Hn & Hr & Hc & Hd).
  assert (In data (first :: rest)) by (eapply nth_error_In; eauto).
  rewrite Forall_forall in Hd. destruct (Hd data H) as [D _]. apply shape_eqb_eq in D as [D1 D2].
  split; [|lia]. clear -P H1 H2. revert k H1 H2. induction P as [|d o ds os P0 P IH]; intros [|k] H1 H2; cbn in H1, H2; try discriminate.
  - injection H1 as ->. injection H2 as ->. exact P0.
  - exact (IH k H1 H2).
Qed.

(** every tie point is a double of size at most [B]; v i k is the value of tie point (i, k) *)
Definition doubles (data : darray (option R)) (v : nat -> nat -> R) (B : R) : Prop :=
  finite_da data v /\ forall i k, (i < nrows data)%nat -> (k < ncols data)%nat -> fl b64 (v i k) /\ Rabs (v i k) <= B.

(** bilinear interpolation of the four tie points around a pixel *)
Definition four (v : nat -> nat -> R) (i c : nat) (t u : R) : R :=
  (1 - t) * (1 - u) * v i c + (1 - t) * u * v i (c + 1)%nat + t * (1 - u) * v (i + 1)%nat c + t * u * v (i + 1)%nat (c + 1)%nat.
Lemma bilin_four v i c t u : bilin v i c t u = four v i c t u.
Proof. unfold bilin, lin, four. ring. Qed.

Lemma neighbours s n_scans nc j r a c b : (j < n_scans)%nat -> (r < s - 1)%nat -> (c < nc - 1)%nat ->
  (lo_of (j * s + r) a + 1 < n_scans * s)%nat /\ (lo_of c b + 1 < nc)%nat /\ (j * s + r + 1 < n_scans * s)%nat.
Proof.
  intros Hj Hr Hc. destruct (lo_range (j * s + r) a (n_scans * s)) as [L1 L2]; [nia|]. destruct (lo_range c b nc) as [L3 L4]; [lia|]. split; [lia|]. split; [lia|]. nia.
Qed.

(** a pixel whose tie points are known up to [e] *)
Lemma yields_near m nan datas s f n_scans data out v B e j r a c b :
  yields (F64 m) nan datas s f n_scans data out -> (Z.of_nat f <= 10000)%Z -> usual B -> 0 <= e <= B / 1000 ->
  (forall i k, (i < nrows data)%nat -> (k < ncols data)%nat -> near b64 (at_ data i k) (v i k) e /\ Rabs (v i k) <= B) ->
  (j < n_scans)%nat -> (r < s - 1)%nat -> (a < f)%nat -> (c < ncols data - 1)%nat -> (b < f)%nat ->
  near b64 (at_ out (j * (s - 1) * f + r * f + a)%nat (c * f + b)%nat) (four v (j * s + r) c (INR a / INR f) (INR b / INR f)) (e + 143 / 10 * eps b64 * (B + e)).
Proof.
  intros HP Hf HB He Hv Hj Hr Ha Hc Hb.
  destruct (yields_pixels _ _ _ _ _ _ _ _ HP) as ((_ & _ & _ & P) & Hrow & Hcol & Hf1 & Hs). rewrite P by auto.
  destruct (neighbours s n_scans (ncols data) j r a c b Hj Hr Hc) as (N1 & N2 & N3).
  rewrite <- bilin_four. apply (pixel_near m f (at_ data) v); auto; [lia| |].
  - intros i k Hi Hk. apply Hv; lia.
  - intros k Hk. split; apply Hv; lia.
Qed.

(** ** C86 *)
(** Every pixel is within 15 * 2^-53 times the largest tie point of the bilinear interpolation of its four tie points. *)
Theorem C86_pixels : forall m nan datas s f n_scans data out v B j r a c b,
  yields (F64 m) nan datas s f n_scans data out -> doubles data v B -> (Z.of_nat f <= 10000)%Z -> / 1000 <= B <= 100000000 ->
  (j < n_scans)%nat -> (r < s - 1)%nat -> (a < f)%nat -> (c < ncols data - 1)%nat -> (b < f)%nat ->
  near b64 (at_ out (j * (s - 1) * f + r * f + a)%nat (c * f + b)%nat) (four v (j * s + r) c (INR a / INR f) (INR b / INR f)) (15 * bpow radix2 (-53) * B).
Proof.
  intros m nan datas s f n_scans data out v B j r a c b HP [Hv HF] Hf HB Hj Hr Ha Hc Hb.
  eapply FloatNear.near_weaken; [|apply (yields_near m nan datas s f n_scans data out v B 0 j r a c b HP Hf HB)]; auto; [|lra|].
  - unfold eps. cbn [fprec b64]. assert (0 <= bpow radix2 (-53) * B) by (apply Rmult_le_pos; [apply bpow_ge_0|lra]). change (- (53))%Z with (-53)%Z. lra.
  - intros i k Hi Hk. destruct (HF i k Hi Hk) as [F1 F2]. split; [|exact F2]. rewrite Hv by auto. now apply near_0.
Qed.
Print Assumptions C86_pixels.

(** ** C87 *)
(** the tie points are multiples of 2^-e of size at most H * 2^-e *)
Definition multiples (data : darray (option R)) (A : nat -> nat -> Z) (e H : Z) : Prop :=
  forall i k, (i < nrows data)%nat -> (k < ncols data)%nat -> at_ data i k = Some (IZR (A i k) * bpow radix2 (- e)) /\ (Z.abs (A i k) <= H)%Z.

(** The pixels on tie points are the tie points, if the tie points are fixed-point numbers of 52 bits and the factor is a power
    of two. Missing: other data and factors, where it is false. *)
Theorem C87_tie_points_partial : forall m nan datas s k n_scans data out A e H j r c,
  yields (F64 m) nan datas s (2 ^ k) n_scans data out -> (k <= 20)%nat -> (0 <= e <= 900)%Z -> (2 * H < 2 ^ 53)%Z -> multiples data A e H ->
  (j < n_scans)%nat -> (r < s - 1)%nat -> (c < ncols data - 1)%nat ->
  at_ out (j * (s - 1) * 2 ^ k + r * 2 ^ k)%nat (c * 2 ^ k)%nat = at_ data (j * s + r)%nat c.
Proof.
  intros m nan datas s k n_scans data out A e H j r c HP Hk He HH HA Hj Hr Hc.
  destruct (yields_pixels _ _ _ _ _ _ _ _ HP) as ((_ & _ & _ & P) & Hrow & Hcol & Hf1 & Hs).
  destruct (neighbours s n_scans (ncols data) j r 0 c 0 Hj Hr Hc) as (N1 & N2 & N3).
  replace (j * (s - 1) * 2 ^ k + r * 2 ^ k)%nat with (j * (s - 1) * 2 ^ k + r * 2 ^ k + 0)%nat by lia.
  replace (c * 2 ^ k)%nat with (c * 2 ^ k + 0)%nat by lia. rewrite P by lia.
  rewrite (proj1 (HA (j * s + r)%nat c ltac:(lia) ltac:(lia))). apply (pixel_tie m k (at_ data) A (j * s + r) c e H); auto.
  - intros i x Hi Hx. apply HA; lia.
  - intros x Hx. apply HA; lia.
Qed.
Print Assumptions C87_tie_points_partial.

(** With 2k bits to spare every pixel is the exact bilinear value. *)
Theorem C87_exact_partial : forall m nan datas s k n_scans data out A e H j r a c b,
  yields (F64 m) nan datas s (2 ^ k) n_scans data out -> (k <= 10)%nat -> (0 <= e <= 800)%Z -> (2 * (H * 4 ^ Z.of_nat k) < 2 ^ 53)%Z -> multiples data A e H ->
  (j < n_scans)%nat -> (r < s - 1)%nat -> (a < 2 ^ k)%nat -> (c < ncols data - 1)%nat -> (b < 2 ^ k)%nat ->
  at_ out (j * (s - 1) * 2 ^ k + r * 2 ^ k + a)%nat (c * 2 ^ k + b)%nat =
  Some (four (fun i x => IZR (A i x) * bpow radix2 (- e)) (j * s + r) c (INR a / INR (2 ^ k)) (INR b / INR (2 ^ k))).
Proof.
  intros m nan datas s k n_scans data out A e H j r a c b HP Hk He HH HA Hj Hr Ha Hc Hb.
  destruct (yields_pixels _ _ _ _ _ _ _ _ HP) as ((_ & _ & _ & P) & Hrow & Hcol & Hf1 & Hs).
  destruct (neighbours s n_scans (ncols data) j r a c b Hj Hr Hc) as (N1 & N2 & N3). rewrite P by auto.
  rewrite <- bilin_four. apply (pixel_fixed m k (at_ data) A (j * s + r) a c b e H); auto.
  - intros i x Hi Hx. apply HA; lia.
  - intros x Hx. split; apply HA; lia.
Qed.
Print Assumptions C87_exact_partial.

(** ** C88 *)
(** Pixels depend only on the tie points of their own scan, in any arithmetic, except in the first pixel row of the scan.
    Missing: that row, where it is false. *)
Theorem C88_own_scan_partial : forall T (N : NumOps T) nan datas1 datas2 s f n_scans data1 data2 out1 out2 j r a c b,
  yields N nan datas1 s f n_scans data1 out1 -> yields N nan datas2 s f n_scans data2 out2 ->
  ncols data1 = ncols data2 -> scan_agrees s j data1 data2 ->
  (j < n_scans)%nat -> (r < s - 1)%nat -> (a < f)%nat -> (c < ncols data1 - 1)%nat -> (b < f)%nat ->
  (j = 0 \/ 0 < r * f + a)%nat ->
  at_ out1 (j * (s - 1) * f + r * f + a)%nat (c * f + b)%nat = at_ out2 (j * (s - 1) * f + r * f + a)%nat (c * f + b)%nat.
Proof.
  intros T N nan datas1 datas2 s f n_scans data1 data2 out1 out2 j r a c b HP1 HP2 E A Hj Hr Ha Hc Hb H0.
  destruct (yields_pixels _ _ _ _ _ _ _ _ HP1) as ((_ & _ & _ & P1) & _). destruct (yields_pixels _ _ _ _ _ _ _ _ HP2) as ((_ & _ & _ & P2) & _).
  rewrite P1, P2 by (auto; lia).
  assert (R : forall i, (i = lo_of (j * s + r) a \/ i = lo_of (j * s + r) a + 1)%nat -> (j * s <= i < j * s + s)%nat).
  { intros i Hi. unfold lo_of in Hi. destruct (Nat.eqb_spec a 0), (Nat.leb_spec 1 (j * s + r)); cbn [andb] in Hi; destruct H0 as [->|H0]; try lia;
      assert (1 <= r)%nat by nia; lia. }
  destruct (lo_range c b (ncols data1)) as [C1 C2]; [lia|].
  unfold pixel, gen1. cbv zeta. rewrite !A by (try lia; apply R; auto). reflexivity.
Qed.
Print Assumptions C88_own_scan_partial.

(** two scans of 2 x 2 tie points; all tie points are 45 except [w] in the last row of the first scan *)
Definition two_scans (w : R) : darray (option R) := {| dims := (0, 1)%nat; nrows := 4; ncols := 2; at_ := fun i k => if (i =? 1)%nat then Some w else Some 45 |}.
Lemma two_scans_args w : args_ok [two_scans w] 2 8 2.
Proof. exists (two_scans w), []. repeat split; cbn; try lia. repeat constructor. Qed.
Lemma two_scans_doubles w : fl b64 w -> doubles (two_scans w) (fun i _ => if (i =? 1)%nat then w else 45) (Rmax (Rabs w) 45).
Proof.
  intros F. split.
  - intros i k Hi Hk. cbn. now destruct (i =? 1)%nat.
  - intros i k Hi Hk. cbv beta. destruct (i =? 1)%nat; [split; [exact F|apply Rmax_l]|]. split.
    + pose proof (fix_fl 45 0 ltac:(lia) ltac:(lia)) as K. cbn [Z.opp bpow] in K. now rewrite Rmult_1_r in K.
    + rewrite (Rabs_pos_eq 45) by lra. apply Rmax_r.
Qed.
Lemma p60 : bpow radix2 60 = 1152921504606846976. Proof. reflexivity. Qed.
Lemma fl_p60 : fl b64 (bpow radix2 60).
Proof.
  split; [apply generic_format_bpow; unfold FLT_exp; cbn; lia|]. rewrite Rabs_pos_eq by apply bpow_ge_0. apply bpow_lt. cbn. lia.
Qed.

(** the first row of the second scan *)
Lemma lost m out : pixels_of (N := F64 m) 2 8 2 (two_scans (bpow radix2 60)) out -> at_ out 8 0 = Some 0.
Proof.
  intros (_ & _ & _ & P). specialize (P 1%nat 0%nat 0%nat 0%nat 0%nat ltac:(lia) ltac:(lia) ltac:(lia) ltac:(cbn; lia) ltac:(lia)).
  change (1 * (2 - 1) * 8 + 0 * 8 + 0)%nat with 8%nat in P. change (0 * 8 + 0)%nat with 0%nat in P. rewrite P. clear P.
  set (N := F64 m).
  assert (Z8 : @nz _ N 8 = Some 8) by (apply (nz_fix m 8); lia).
  assert (Z0 : @nz _ N 0 = Some 0) by (apply (nz_fix m 0); lia).
  assert (F0 : fit b64 0 = Some 0) by exact Z0.
  assert (F57 : fl b64 (- bpow radix2 57)).
  { split; [apply generic_format_opp, generic_format_bpow; unfold FLT_exp; cbn; lia|]. rewrite Rabs_Ropp, Rabs_pos_eq by apply bpow_ge_0. apply bpow_lt. cbn. lia. }
  assert (F60 : fl b64 (- bpow radix2 60)).
  { destruct fl_p60 as [K1 K2]. split; [now apply generic_format_opp|now rewrite Rabs_Ropp]. }
  assert (R45 : fit b64 (45 - bpow radix2 60) = Some (- bpow radix2 60)).
  { assert (E : rd b64 (45 - bpow radix2 60) = - bpow radix2 60).
    { replace (45 - bpow radix2 60) with (- (bpow radix2 60 - 45)) by ring. rewrite rd_opp. f_equal.
      rewrite (rd_eq b64 _ 60 9007199254740992); cbn [fprec femin b64]; [..|lia|]; bp.
      - change (2 ^ (60 - 53))%Z with 128%Z. change (2 ^ 60)%Z with 1152921504606846976%Z. lra.
      - change (2 ^ (60 - 1))%Z with 576460752303423488%Z. change (2 ^ 60)%Z with 1152921504606846976%Z. lra.
      - change (2 ^ 60)%Z with 1152921504606846976%Z. change (2 ^ (- (53 - 60)))%Z with 128%Z. apply Rabs_def1; lra. }
    unfold fit. rewrite E. destruct (Rlt_dec _ _) as [_|D]; [reflexivity|]. destruct D. apply F60. }
  assert (G : @gen1 _ N 8 (1 * 2 + 0) 0 (fun i => at_ (two_scans (bpow radix2 60)) i 0) = Some 0).
  { unfold gen1. change (lo_of (1 * 2 + 0) 0) with 1%nat. cbn [two_scans at_ Nat.eqb Nat.add]. cbv zeta.
    change (Z.of_nat ((1 * 2 + 0) * 8 + 0) - Z.of_nat (1 * 8))%Z with 8%Z. change (Z.of_nat 8) with 8%Z. rewrite Z8.
    cbn [nadd nmul ndiv nsub N F64 FN bind2]. rewrite R45. cbn [bind2]. destruct (Req_EM_T 8 0) as [?|_]; [lra|].
    replace (- bpow radix2 60 / 8) with (- bpow radix2 57) by (rewrite p60; change (bpow radix2 57) with 144115188075855872; lra).
    rewrite (fit_fl b64 _ F57). cbn [bind2].
    replace (- bpow radix2 57 * 8) with (- bpow radix2 60) by (rewrite p60; change (bpow radix2 57) with 144115188075855872; lra).
    rewrite (fit_fl b64 _ F60). cbn [bind2]. replace (- bpow radix2 60 + bpow radix2 60) with 0 by ring. exact F0. }
  unfold pixel.
  rewrite (gen1_ext 8 0 0 _ (fun k => if (k =? 0)%nat then Some 0 else Some 0)).
  2:{ intros k. rewrite (gen1_ext 8 _ 0 _ (fun i => at_ (two_scans (bpow radix2 60)) i 0)) by reflexivity. rewrite G. now destruct (k =? 0)%nat. }
  unfold gen1. change (lo_of 0 0) with 0%nat. cbn [Nat.eqb Nat.add]. cbv zeta. change (Z.of_nat (0 * 8 + 0) - Z.of_nat (0 * 8))%Z with 0%Z. change (Z.of_nat 8) with 8%Z.
  rewrite Z8, Z0. cbn [nadd nmul ndiv nsub N F64 FN bind2]. replace (0 - 0) with 0 by ring. rewrite F0. cbn [bind2]. destruct (Req_EM_T 8 0) as [?|_]; [lra|].
  replace (0 / 8) with 0 by lra. rewrite F0. cbn [bind2]. rewrite Rmult_0_l, F0. cbn [bind2]. now rewrite Rplus_0_l.
Qed.

Lemma two_scans_yields m w : exists out, yields (F64 m) None [two_scans w] 2 8 2 (two_scans w) out /\ pixels_of (N := F64 m) 2 8 2 (two_scans w) out.
Proof.
  destruct (@interpolation_ok _ (F64 m) None [two_scans w] 2 8 2 (two_scans_args w)) as (outs & E & P).
  inversion P as [|? out ? ? P1 P']; subst. inversion P'; subst. exists out. split; [|exact P1].
  split; [apply two_scans_args|]. exists [out], 0%nat. auto.
Qed.

(** A pixel on a tie point of value 45 is 0. *)
Theorem C87_refuted : forall m, exists nan datas s f n_scans data out v B j r c,
  yields (F64 m) nan datas s f n_scans data out /\ doubles data v B /\ (j < n_scans)%nat /\ (r < s - 1)%nat /\ (c < ncols data - 1)%nat /\
  at_ data (j * s + r)%nat c = Some 45 /\ at_ out (j * (s - 1) * f + r * f)%nat (c * f)%nat = Some 0.
Proof.
  intros m. destruct (two_scans_yields m (bpow radix2 60)) as (out & Y & P).
  exists None, [two_scans (bpow radix2 60)], 2%nat, 8%nat, 2%nat, (two_scans (bpow radix2 60)), out. eexists. eexists. exists 1%nat, 0%nat, 0%nat.
  split; [exact Y|]. split; [apply two_scans_doubles, fl_p60|]. split; [lia|]. split; [lia|]. split; [cbn; lia|]. split; [reflexivity|].
  exact (lost m out P).
Qed.
Print Assumptions C87_refuted.

(** The value of a pixel of the second scan depends on the first scan. *)
Theorem C88_refuted : forall m, exists nan datas1 datas2 s f n_scans data1 data2 out1 out2 v1 v2 B1 B2 j i k,
  yields (F64 m) nan datas1 s f n_scans data1 out1 /\ yields (F64 m) nan datas2 s f n_scans data2 out2 /\
  doubles data1 v1 B1 /\ doubles data2 v2 B2 /\ ncols data1 = ncols data2 /\ scan_agrees s j data1 data2 /\ (j < n_scans)%nat /\
  (j * (s - 1) * f <= i < (j + 1) * (s - 1) * f)%nat /\ (k < ncols out1)%nat /\ at_ out1 i k <> at_ out2 i k.
Proof.
  intros m. destruct (two_scans_yields m 45) as (out1 & Y1 & P1). destruct (two_scans_yields m (bpow radix2 60)) as (out2 & Y2 & P2).
  exists None, [two_scans 45], [two_scans (bpow radix2 60)], 2%nat, 8%nat, 2%nat, (two_scans 45), (two_scans (bpow radix2 60)), out1, out2.
  eexists. eexists. eexists. eexists. exists 1%nat, 8%nat, 0%nat. split; [exact Y1|]. split; [exact Y2|].
  assert (F45 : fl b64 45) by (pose proof (fix_fl 45 0 ltac:(lia) ltac:(lia)) as K; cbn [Z.opp bpow] in K; now rewrite Rmult_1_r in K).
  split; [now apply two_scans_doubles|]. split; [apply two_scans_doubles, fl_p60|]. split; [reflexivity|]. split.
  { intros i k Hi Hk. cbn [two_scans at_]. destruct (Nat.eqb_spec i 1); [lia|reflexivity]. }
  split; [lia|]. split; [cbn; lia|]. split; [destruct P1 as (_ & _ & -> & _); cbn; lia|].
  rewrite (lost m out2 P2).
  pose proof (C87_tie_points_partial m None [two_scans 45] 2 3 2 (two_scans 45) out1 (fun _ _ => 45%Z) 0 45 1 0 0 Y1 ltac:(lia) ltac:(lia) ltac:(lia)) as K.
  change (1 * (2 - 1) * 2 ^ 3 + 0 * 2 ^ 3)%nat with 8%nat in K. change (0 * 2 ^ 3)%nat with 0%nat in K. rewrite K; try lia; [|intros i k _ _|cbn; lia].
  - cbn. intros [= H]. lra.
  - cbn [two_scans at_ Z.opp bpow]. rewrite Rmult_1_r. split; [now destruct (i =? 1)%nat|lia].
Qed.
Print Assumptions C88_refuted.

(** ** Cases of C86 - C88: tie points 45 and 44 *)
Example C86_case : forall m, exists out,
  yields (F64 m) None [two_scans 44] 2 8 2 (two_scans 44) out /\
  near b64 (at_ out 4 3) (44 / 2 + 45 / 2) (15 * bpow radix2 (-53) * 45) /\ at_ out 8 0 = Some 45 /\ at_ out 4 3 = Some (89 / 2).
Proof.
  intros m. destruct (two_scans_yields m 44) as (out & Y & P). exists out. split; [exact Y|].
  assert (F44 : fl b64 44) by (pose proof (fix_fl 44 0 ltac:(lia) ltac:(lia)) as K; cbn [Z.opp bpow] in K; now rewrite Rmult_1_r in K).
  assert (M : multiples (two_scans 44) (fun i _ => if (i =? 1)%nat then 44 else 45)%Z 0 45).
  { intros i k _ _. cbn [two_scans at_ Z.opp bpow]. destruct (i =? 1)%nat; rewrite Rmult_1_r; split; auto; lia. }
  assert (B : Rmax (Rabs 44) 45 = 45) by (rewrite Rabs_pos_eq by lra; apply Rmax_right; lra).
  split; [|split].
  - pose proof (C86_pixels m None [two_scans 44] 2 8 2 (two_scans 44) out _ _ 0 0 4 0 3 Y (two_scans_doubles 44 F44) ltac:(lia)) as K.
    rewrite B in K. specialize (K ltac:(lra) ltac:(lia) ltac:(lia) ltac:(lia) ltac:(cbn; lia) ltac:(lia)).
    cbn [Nat.mul Nat.add Nat.sub Nat.eqb] in K. unfold four in K. cbn [Nat.eqb Nat.add] in K.
    eapply near_move; [|exact K]. rewrite Rminus_diag_eq, Rabs_R0; [lra|]. replace (INR 4) with 4 by (rewrite INR_IZR_INZ; reflexivity). replace (INR 3) with 3 by (rewrite INR_IZR_INZ; reflexivity). replace (INR 8) with 8 by (rewrite INR_IZR_INZ; reflexivity). lra.
  - exact (C87_tie_points_partial m None [two_scans 44] 2 3 2 (two_scans 44) out _ 0 45 1 0 0 Y ltac:(lia) ltac:(lia) ltac:(lia) M ltac:(lia) ltac:(lia) ltac:(cbn; lia)).
  - pose proof (C87_exact_partial m None [two_scans 44] 2 3 2 (two_scans 44) out _ 0 45 0 0 4 0 3 Y ltac:(lia) ltac:(lia) ltac:(lia) M ltac:(lia) ltac:(lia) ltac:(cbn; lia) ltac:(cbn; lia) ltac:(cbn; lia)) as K.
    change (0 * (2 - 1) * 2 ^ 3 + 0 * 2 ^ 3 + 4)%nat with 4%nat in K. change (0 * 2 ^ 3 + 3)%nat with 3%nat in K. rewrite K. f_equal.
    unfold four. cbn [Nat.mul Nat.add Nat.eqb Z.opp bpow]. replace (INR 4) with 4 by (rewrite INR_IZR_INZ; reflexivity). replace (INR 3) with 3 by (rewrite INR_IZR_INZ; reflexivity). replace (INR (2 ^ 3)) with 8 by (rewrite INR_IZR_INZ; reflexivity). lra.
Qed.

(** ** C89: tie_points_geo_interpolation *)
Section Geo.
Variable m : libm.

Lemma fl_opp v : fl b64 v -> fl b64 (- v).
Proof. intros [F1 F2]. split; [now apply generic_format_opp|now rewrite Rabs_Ropp]. Qed.

Lemma np_abs_64 v : fl b64 v -> @np_abs _ (F64 m) (Some v) = Some (Rabs v).
Proof.
  intros F. unfold np_abs. pose proof (nz_fix m 0 ltac:(lia)) as Z0. change (DX m) with (F64 m) in Z0. rewrite Z0.
  cbn [nltb nsub F64 FN liftb bind2]. unfold Rltb. destruct (Rlt_dec v 0) as [L|L].
  - rewrite Rabs_left by exact L. replace (0 - v) with (- v) by ring. apply fit_fl. now apply fl_opp.
  - rewrite Rabs_pos_eq by lra. reflexivity.
Qed.

(** the mode: exact for the latitudes; for the longitudes up to the rounding of their difference *)
Lemma mode_64 lon lat vlon vlat thr B : doubles lon vlon B -> doubles lat vlat B -> B <= 1000 ->
  (1 <= nrows lon)%nat -> (1 <= ncols lon)%nat -> nrows lon = nrows lat -> ncols lon = ncols lat ->
  (safe_lonlat lon vlon vlat thr -> @to_cart _ (F64 m) lon lat (Some thr) = false) /\
  (forall i j, (i < nrows lon)%nat -> (j < ncols lon)%nat -> thr < Rabs (vlat i j) -> @to_cart _ (F64 m) lon lat (Some thr) = true) /\
  (forall i j k l, (i < nrows lon)%nat -> (j < ncols lon)%nat -> (k < nrows lon)%nat -> (l < ncols lon)%nat ->
     180 + bpow radix2 (-45) <= vlon i j - vlon k l -> @to_cart _ (F64 m) lon lat (Some thr) = true).
Proof.
  intros [F1 D1] [F2 D2] HB Hr Hc E1 E2. unfold to_cart.
  assert (F3 : finite_da (map_da (@np_abs _ (F64 m)) lat) (fun i j => Rabs (vlat i j))).
  { intros i j Hi Hj. cbn [map_da nrows ncols at_] in *. rewrite F2 by assumption. apply np_abs_64. now apply D2. }
  rewrite (elements_finite _ _ F1), (elements_finite _ _ F3). cbn [map_da nrows ncols]. rewrite <- E1, <- E2.
  change (@da_max _ (F64 m)) with (@da_max _ RN). change (@da_min _ (F64 m)) with (@da_min _ RN).
  destruct (fold_max_R (real_elements (nrows lon) (ncols lon) (fun i j => Rabs (vlat i j)))) as (m1 & -> & M1).
  destruct (fold_max_R (real_elements (nrows lon) (ncols lon) vlon)) as (m2 & -> & M2).
  destruct (fold_min_R (real_elements (nrows lon) (ncols lon) vlon)) as (m3 & -> & M3).
  assert (Ne : forall v, real_elements (nrows lon) (ncols lon) v <> []).
  { intros v H. assert (X : In (v 0%nat 0%nat) (real_elements (nrows lon) (ncols lon) v)) by (apply In_real_elements; exists 0%nat, 0%nat; repeat split; lia).
    rewrite H in X. contradiction. }
  destruct m1 as [[m1|]|]; [|contradiction|exfalso; eapply Ne; eauto].
  destruct m2 as [[m2|]|]; [|contradiction|exfalso; eapply Ne; eauto].
  destruct m3 as [[m3|]|]; [|contradiction|exfalso; eapply Ne; eauto].
  destruct M1 as [A1 B1], M2 as [A2 B2], M3 as [A3 B3].
  apply In_real_elements in A1 as (i1 & j1 & Hi1 & Hj1 & <-). apply In_real_elements in A2 as (i2 & j2 & Hi2 & Hj2 & <-).
  apply In_real_elements in A3 as (i3 & j3 & Hi3 & Hj3 & <-).
  pose proof (nz_fix m 180 ltac:(lia)) as Z180. change (DX m) with (F64 m) in Z180. rewrite Z180.
  cbn [nltb nsub F64 FN liftb bind2].
  destruct (D1 i2 j2 Hi2 Hj2) as [_ L2]. destruct (D1 i3 j3 Hi3 Hj3) as [_ L3].
  assert (FB : fit b64 (vlon i2 j2 - vlon i3 j3) = Some (rd b64 (vlon i2 j2 - vlon i3 j3))).
  { apply (fit_bound b64 _ 2000 good_b64 ltac:(cbn; lia) ltac:(lia)). apply Rabs_le. apply Rabs_le_inv in L2. apply Rabs_le_inv in L3. lra. }
  rewrite FB. cbn [liftb].
  assert (G180 : forall x, x <= 180 -> rd b64 x <= 180).
  { intros x Hx. apply rd_le_gf; [apply good_b64| |exact Hx]. apply gfI; auto using good_b64; cbn; lia. }
  assert (S180 : forall x, 180 + bpow radix2 (-45) <= x -> 180 < rd b64 x).
  { intros x Hx. apply Rlt_le_trans with (180 + bpow radix2 (-45)); [pose proof (bpow_gt_0 radix2 (-45)); lra|].
    apply rd_ge_gf; [apply good_b64| |exact Hx].
    pose proof (fix_fl (180 * 2 ^ 45 + 1) 45 ltac:(lia) ltac:(lia)) as K.
    replace (180 + bpow radix2 (-45)) with (IZR (180 * 2 ^ 45 + 1) * bpow radix2 (- (45))); [apply K|].
    rewrite plus_IZR, mult_IZR. change (2 ^ 45)%Z with 35184372088832%Z. bp. change (2 ^ (- - (45)))%Z with 35184372088832%Z. change (2 ^ (- (-45)))%Z with 35184372088832%Z. lra. }
  split; [|split].
  - intros [S1 S2]. apply orb_false_iff. split; apply not_true_iff_false; rewrite Rltb_true; apply Rle_not_lt; [now apply S1|]. apply G180. now apply S2.
  - intros i j Hi Hj H. apply orb_true_iff. left. apply Rltb_true.
    assert (X : Rabs (vlat i j) <= Rabs (vlat i1 j1)) by (apply B1, In_real_elements; eauto). lra.
  - intros i j k l Hi Hj Hk Hl H. apply orb_true_iff. right. apply Rltb_true. apply S180.
    assert (X : vlon i j <= vlon i2 j2) by (apply B2, In_real_elements; eauto 6).
    assert (Y : vlon i3 j3 <= vlon k l) by (apply B3, In_real_elements; eauto 6). lra.
Qed.

(** positions on the sphere of viiinterpolator.py *)
Definition Rm : R := 63710087714 / 10000.
Definition pos_x (lon lat : R) : R := Rm * cos (lat * (PI / 180)) * cos (lon * (PI / 180)).
Definition pos_y (lon lat : R) : R := Rm * cos (lat * (PI / 180)) * sin (lon * (PI / 180)).
Definition pos_z (lon lat : R) : R := Rm * sin (lat * (PI / 180)).

Hypothesis HA : accurate b64 m.
Lemma near_angle v : Rabs v <= 180 -> near b64 (@deg2rad _ (F64 m) (Some v)) (v * (PI / 180)) (17 / 10000000000000000) /\ Rabs (v * (PI / 180)) <= 3.2.
Proof.
  intros H. destruct (ang_eq b64 b64 pi64 pi64 d64 m fine_64 fine_64 factor_64 v H) as [E1 E]. 
  pose proof (ang_err b64 b64 pi64 pi64 d64 fine_64 fine_64 factor_64 v H) as A. pose proof PI_bounds as P.
  pose proof (ang_fl b64 b64 pi64 pi64 d64 fine_64 fine_64 factor_64 v H) as F.
  assert (Q : ang b64 b64 d64 v = rd b64 (v * d64)).
  { rewrite E1 in E. change (@nst _ (FW b64 b64 pi64 m) (Some (rd b64 (v * d64)))) with (fit b64 (rd b64 (v * d64))) in E.
    apply (fit_inv b64 good_b64) in E as [E _]. rewrite E. apply round_generic; [apply valid_rnd_N|]. apply rd_gf, good_b64. }
  change (FW b64 b64 pi64 m) with (F64 m) in E1. split.
  - exists (ang b64 b64 d64 v). split; [now rewrite E1, Q|]. split; [exact F|]. eapply Rle_trans; [exact A|].
    cbn [fprec b64]. bp. change (2 ^ (- - (53)))%Z with 9007199254740992%Z. lra.
  - rewrite Rabs_mult, (Rabs_pos_eq (PI / 180)) by lra. apply Rle_trans with (180 * (PI / 180)); [apply Rmult_le_compat_r; lra|lra].
Qed.

Lemma near_xyz lon lat : Rabs lon <= 180 -> Rabs lat <= 90 ->
  exists x y z, @vii_lonlat2xyz _ (F64 m) (Some lon) (Some lat) = (x, y, z) /\ near b64 x (pos_x lon lat) (30 / 1000000000) /\ near b64 y (pos_y lon lat) (30 / 1000000000) /\ near b64 z (pos_z lon lat) (30 / 1000000000).
Proof.
  intros Hlon Hlat. destruct (near_angle lon Hlon) as [Nl Bl]. destruct (near_angle lat ltac:(lra)) as [Np Bp]. pose proof eps_64 as E.
  assert (Ac : forall x, Rabs (cos x) <= 1) by (intros; apply Rabs_le, COS_bound).
  assert (As : forall x, Rabs (sin x) <= 1) by (intros; apply Rabs_le, SIN_bound).
  destruct (vii_radius m) as (r & Er & Br & Dr & Fr).
  assert (Nr : near b64 (@MEAN_EARTH_RADIUS _ (F64 m)) Rm (/ 1000000000)).
  { exists r. split; [exact Er|]. split; [|exact Dr]. split; [exact Fr|]. rewrite Rabs_pos_eq by lra.
    apply Rlt_le_trans with (bpow radix2 40); [change (bpow radix2 40) with 1099511627776; lra|apply bpow_le; cbn; lia]. }
  unfold vii_lonlat2xyz. do 3 eexists. split; [reflexivity|].
  set (lr := @deg2rad _ (F64 m) (Some lon)) in *. set (pr := @deg2rad _ (F64 m) (Some lat)) in *.
  set (l := lon * (PI / 180)) in *. set (p := lat * (PI / 180)) in *.
  set (e1 := 20 / 10000000000000000).
  assert (Cp : near b64 (@ncos _ (F64 m) pr) (cos p) e1) by (eapply FloatNear.near_weaken; [|apply (near_cos b64 b64 pi64 m fine_64 HA _ _ _ Np)]; unfold e1; lra).
  assert (Sp : near b64 (@nsin _ (F64 m) pr) (sin p) e1) by (eapply FloatNear.near_weaken; [|apply (near_sin b64 b64 pi64 m fine_64 HA _ _ _ Np)]; unfold e1; lra).
  assert (Cl : near b64 (@ncos _ (F64 m) lr) (cos l) e1) by (eapply FloatNear.near_weaken; [|apply (near_cos b64 b64 pi64 m fine_64 HA _ _ _ Nl)]; unfold e1; lra).
  assert (Sl : near b64 (@nsin _ (F64 m) lr) (sin l) e1) by (eapply FloatNear.near_weaken; [|apply (near_sin b64 b64 pi64 m fine_64 HA _ _ _ Nl)]; unfold e1; lra).
  assert (R1 : Rabs Rm <= Rm) by (unfold Rm; rewrite Rabs_pos_eq; lra).
  set (e2 := 150 / 10000000000).
  assert (RC : near b64 (@nmul _ (F64 m) (@MEAN_EARTH_RADIUS _ (F64 m)) (@ncos _ (F64 m) pr)) (Rm * cos p) e2).
  { eapply FloatNear.near_weaken; [|apply (near_mul b64 b64 pi64 m fine_64 _ _ _ _ _ _ Rm 1 6371010 Nr Cp R1 (Ac p))]; unfold e1, e2, Rm, big; lra. }
  assert (RS : near b64 (@nmul _ (F64 m) (@MEAN_EARTH_RADIUS _ (F64 m)) (@nsin _ (F64 m) pr)) (Rm * sin p) e2).
  { eapply FloatNear.near_weaken; [|apply (near_mul b64 b64 pi64 m fine_64 _ _ _ _ _ _ Rm 1 6371010 Nr Sp R1 (As p))]; unfold e1, e2, Rm, big; lra. }
  assert (B1 : Rabs (Rm * cos p) <= Rm).
  { rewrite Rabs_mult, (Rabs_pos_eq Rm) by (unfold Rm; lra). specialize (Ac p). unfold Rm. lra. }
  split; [|split].
  - eapply FloatNear.near_weaken; [|apply (near_mul b64 b64 pi64 m fine_64 _ _ _ _ _ _ Rm 1 6371010 RC Cl B1 (Ac l))]; unfold e1, e2, Rm, big; lra.
  - eapply FloatNear.near_weaken; [|apply (near_mul b64 b64 pi64 m fine_64 _ _ _ _ _ _ Rm 1 6371010 RC Sl B1 (As l))]; unfold e1, e2, Rm, big; lra.
  - eapply FloatNear.near_weaken; [|exact RS]; unfold e2; lra.
Qed.
End Geo.

(** ** Convexity *)
Lemma lin_sq a b t : 0 <= t <= 1 -> lin a b t * lin a b t <= lin (a * a) (b * b) t.
Proof.
  intros Ht. unfold lin. pose proof (Rle_0_sqr (a - b)) as S. unfold Rsqr in S.
  assert (0 <= t * (1 - t) * ((a - b) * (a - b))) by (apply Rmult_le_pos; [apply Rmult_le_pos; lra|exact S]). nra.
Qed.
Lemma lin_le a b a' b' t : 0 <= t <= 1 -> a <= a' -> b <= b' -> lin a b t <= lin a' b' t.
Proof. intros. unfold lin. nra. Qed.
Lemma four_sq v i c t u : 0 <= t <= 1 -> 0 <= u <= 1 -> four v i c t u * four v i c t u <= four (fun i k => v i k * v i k) i c t u.
Proof.
  intros Ht Hu. rewrite <- !bilin_four. unfold bilin. eapply Rle_trans; [apply lin_sq; exact Hu|]. apply lin_le; [exact Hu|apply lin_sq; exact Ht|apply lin_sq; exact Ht].
Qed.
Lemma on_sphere lo la : pos_x lo la * pos_x lo la + pos_y lo la * pos_y lo la + pos_z lo la * pos_z lo la = Rm * Rm.
Proof.
  unfold pos_x, pos_y, pos_z. pose proof (sin2_cos2 (la * (PI / 180))) as A. pose proof (sin2_cos2 (lo * (PI / 180))) as B. unfold Rsqr in A, B.
  set (cp := cos (la * (PI / 180))) in *. set (sp := sin (la * (PI / 180))) in *. set (cl := cos (lo * (PI / 180))) in *. set (sl := sin (lo * (PI / 180))) in *.
  replace (Rm * cp * cl * (Rm * cp * cl) + Rm * cp * sl * (Rm * cp * sl) + Rm * sp * (Rm * sp)) with (Rm * Rm * (cp * cp * (sl * sl + cl * cl) + sp * sp)) by ring.
  rewrite B. replace (cp * cp * 1 + sp * sp) with 1 by lra. ring.
Qed.
Lemma pos_bound lo la : Rabs (pos_x lo la) <= Rm /\ Rabs (pos_y lo la) <= Rm /\ Rabs (pos_z lo la) <= Rm.
Proof.
  pose proof (on_sphere lo la) as S. assert (R0 : 0 <= Rm) by (unfold Rm; lra).
  assert (K : forall a b c, a * a + b * b + c * c = Rm * Rm -> Rabs a <= Rm).
  { intros a b c H. apply Rabs_le. split; nra. }
  split; [apply (K _ (pos_y lo la) (pos_z lo la)); lra|]. split; [apply (K _ (pos_x lo la) (pos_z lo la)); lra|]. apply (K _ (pos_x lo la) (pos_y lo la)); lra.
Qed.
Lemma place_norm (f : nat -> nat -> R * R) i c t u : 0 <= t <= 1 -> 0 <= u <= 1 ->
  let place (p : R -> R -> R) := four (fun i k => p (fst (f i k)) (snd (f i k))) i c t u in
  place pos_x * place pos_x + place pos_y * place pos_y + place pos_z * place pos_z <= Rm * Rm.
Proof.
  intros Ht Hu place. unfold place.
  pose proof (four_sq (fun i k => pos_x (fst (f i k)) (snd (f i k))) i c t u Ht Hu) as X.
  pose proof (four_sq (fun i k => pos_y (fst (f i k)) (snd (f i k))) i c t u Ht Hu) as Y.
  pose proof (four_sq (fun i k => pos_z (fst (f i k)) (snd (f i k))) i c t u Ht Hu) as Z.
  cbv beta in X, Y, Z.
  eapply Rle_trans; [apply Rplus_le_compat; [apply Rplus_le_compat; [exact X|exact Y]|exact Z]|]. apply Req_le.
  unfold four.
  pose proof (on_sphere (fst (f i c)) (snd (f i c))) as S1. pose proof (on_sphere (fst (f i (c + 1)%nat)) (snd (f i (c + 1)%nat))) as S2.
  pose proof (on_sphere (fst (f (i + 1)%nat c)) (snd (f (i + 1)%nat c))) as S3. pose proof (on_sphere (fst (f (i + 1)%nat (c + 1)%nat)) (snd (f (i + 1)%nat (c + 1)%nat))) as S4.
  set (s1 := Rm * Rm) in *.
  transitivity ((1 - t) * (1 - u) * s1 + (1 - t) * u * s1 + t * (1 - u) * s1 + t * u * s1); [|ring].
  rewrite <- S1 at 1. rewrite <- S2 at 1. rewrite <- S3 at 1. rewrite <- S4 at 1. ring.
Qed.

Lemma moved d x y z px py pz : d = 50 / 1000000000 -> fl b64 x -> fl b64 y -> fl b64 z -> Rabs (x - px) <= d -> Rabs (y - py) <= d -> Rabs (z - pz) <= d ->
  px * px + py * py + pz * pz <= Rm * Rm -> / 1000000 <= Rabs px \/ / 1000000 <= Rabs py -> position b64 6371008 x y z.
Proof.
  intros Ed Fx Fy Fz Dx Dy Dz N A. split; [exact Fx|]. split; [exact Fy|]. split; [exact Fz|]. split.
  - assert (Q : forall a b, Rabs (a - b) <= d -> a * a <= 11 / 10 * (b * b) + 11 * (d * d)).
    { intros a b H. apply Rabs_le_inv in H. pose proof (Rle_0_sqr ((a - b) - b / 10)) as K. unfold Rsqr in K. nra. }
    pose proof (Q _ _ Dx). pose proof (Q _ _ Dy). pose proof (Q _ _ Dz). assert (d * d <= 1) by (rewrite Ed; lra). unfold Rm in N. lra.
  - assert (T : bpow radix2 (-60) <= / 2000000) by (bp; change (2 ^ (- -60))%Z with 1152921504606846976%Z; lra).
    assert (Q : forall a b, Rabs (a - b) <= d -> / 1000000 <= Rabs b -> bpow radix2 (-60) <= Rabs a).
    { intros a b H H2. pose proof (Rabs_triang_inv b a) as K. rewrite Rabs_minus_sym in K. lra. }
    destruct A as [A|A]; [left|right]; eapply Q; eauto.
Qed.

Lemma doubles_le data v B B' : doubles data v B -> B <= B' -> doubles data v B'.
Proof. intros [F D] H. split; [exact F|]. intros i k Hi Hk. destruct (D i k Hi Hk). split; [assumption|lra]. Qed.

(** ** C89 *)
(** No latitude above the threshold and longitudes within 180 degrees: longitude and latitude of every pixel are the bilinear
    interpolations up to 3 * 10^-13 degrees. *)
Theorem C89_geodetic : forall m nan lon lat vlon vlat s f n_scans thr zt,
  doubles lon vlon 180 -> doubles lat vlat 90 -> args_ok [lon; lat] s f n_scans -> (Z.of_nat f <= 10000)%Z -> safe_lonlat lon vlon vlat thr ->
  exists olon olat, @tie_points_geo_interpolation _ (F64 m) nan lon lat s f (Some thr) zt = Ok (olon, olat) /\
    forall j r a c b, (j < n_scans)%nat -> (r < s - 1)%nat -> (a < f)%nat -> (c < ncols lon - 1)%nat -> (b < f)%nat ->
      let t := INR a / INR f in let u := INR b / INR f in
      near b64 (at_ olon (j * (s - 1) * f + r * f + a)%nat (c * f + b)%nat) (four vlon (j * s + r) c t u) (3 / 10000000000000) /\
      near b64 (at_ olat (j * (s - 1) * f + r * f + a)%nat (c * f + b)%nat) (four vlat (j * s + r) c t u) (3 / 10000000000000).
Proof.
  intros m nan lon lat vlon vlat s f n_scans thr zt D1 D2 Ha Hf Hs.
  pose proof Ha as (first & rest & [= <- <-] & Hs2 & Hf1 & Hn & Hr & Hc & Hd).
  assert (D : shape_eqb lat lon = true) by (rewrite Forall_forall in Hd; apply (Hd lat); right; now left).
  apply shape_eqb_eq in D as [E1 E2].
  assert (R1 : (1 <= nrows lon)%nat) by nia.
  destruct (mode_64 m lon lat vlon vlat thr 180 D1 (doubles_le lat vlat 90 180 D2 ltac:(lra)) ltac:(lra) R1 ltac:(lia) (eq_sym E1) (eq_sym E2)) as (TC & _).
  specialize (TC Hs). destruct (@interpolation_ok _ (F64 m) nan _ _ _ _ Ha) as (outs & E & P).
  inversion P as [|? olon ? ? P1 P']; subst. inversion P' as [|? olat ? ? P2 P'']; subst. inversion P''; subst.
  exists olon, olat. split.
  { unfold tie_points_geo_interpolation. rewrite (proj2 (shape_eqb_eq lon lat)) by auto. cbn [negb].
    destruct (Nat.eqb_spec (nrows lat) 0); [lia|]. destruct (Nat.eqb_spec (ncols lat) 0); [lia|]. cbn [orb].
    rewrite TC, E. reflexivity. }
  assert (Q1 : yields (F64 m) nan [lon; lat] s f n_scans lon olon) by (split; [exact Ha|]; exists [olon; olat], 0%nat; auto).
  assert (Q2 : yields (F64 m) nan [lon; lat] s f n_scans lat olat) by (split; [exact Ha|]; exists [olon; olat], 1%nat; auto).
  assert (T : bpow radix2 (-53) = / 9007199254740992) by (bp; reflexivity).
  intros j r a c b Hj Hrr Haf Hcc Hb. cbv zeta. split.
  - eapply FloatNear.near_weaken; [|apply (C86_pixels m nan [lon; lat] s f n_scans lon olon vlon 180 j r a c b Q1 D1 Hf ltac:(lra) Hj Hrr Haf Hcc Hb)]. rewrite T. lra.
  - eapply FloatNear.near_weaken; [|apply (C86_pixels m nan [lon; lat] s f n_scans lat olat vlat 90 j r a c b Q2 D2 Hf ltac:(lra) Hj Hrr Haf ltac:(lia) Hb)]. rewrite T. lra.
Qed.
Print Assumptions C89_geodetic.

(** Otherwise the position of every pixel is within 50 nm, in each coordinate, of the bilinear interpolation of the positions of the
    tie points; longitude and latitude are those of the computed position up to 0.000005 degrees, more than 1 micrometre
    away from the axis of the Earth. *)
Theorem C89_cartesian : forall m nan lon lat vlon vlat s f n_scans thr zt,
  in_range b64 pi64 m -> accurate b64 m -> 7 / 10 <= zt <= 9 / 10 ->
  doubles lon vlon 180 -> doubles lat vlat 90 -> args_ok [lon; lat] s f n_scans -> (Z.of_nat f <= 10000)%Z ->
  (exists i j, (i < nrows lon)%nat /\ (j < ncols lon)%nat /\ thr < Rabs (vlat i j)) \/
  (exists i j k l, (i < nrows lon)%nat /\ (j < ncols lon)%nat /\ (k < nrows lon)%nat /\ (l < ncols lon)%nat /\ 180 + bpow radix2 (-45) <= vlon i j - vlon k l) ->
  exists olon olat, @tie_points_geo_interpolation _ (F64 m) nan lon lat s f (Some thr) (Some zt) = Ok (olon, olat) /\
    forall j r a c b, (j < n_scans)%nat -> (r < s - 1)%nat -> (a < f)%nat -> (c < ncols lon - 1)%nat -> (b < f)%nat ->
      let place (p : R -> R -> R) := four (fun i k => p (vlon i k) (vlat i k)) (j * s + r) c (INR a / INR f) (INR b / INR f) in
      let ll := (at_ olon (j * (s - 1) * f + r * f + a)%nat (c * f + b)%nat, at_ olat (j * (s - 1) * f + r * f + a)%nat (c * f + b)%nat) in
      let d := 50 / 1000000000 in
      exists x y z, Rabs (x - place pos_x) <= d /\ Rabs (y - place pos_y) <= d /\ Rabs (z - place pos_z) <= d /\
        ll = @vii_xyz2lonlat _ (F64 m) (Some zt) (Some x, Some y, Some z) /\
        (/ 1000000 <= Rabs (place pos_x) \/ / 1000000 <= Rabs (place pos_y) ->
         exists radius, Rabs (radius - Rm) <= / 1000000000 /\ near_exact radius zt (5 / 1000000) x y z ll).
Proof.
  intros m nan lon lat vlon vlat s f n_scans thr zt HR HA Hzt D1 D2 Ha Hf Hs.
  pose proof Ha as (first & rest & [= <- <-] & Hs2 & Hf1 & Hn & Hr & Hc & Hd).
  assert (D : shape_eqb lat lon = true /\ dims_eqb lat lon = true) by (rewrite Forall_forall in Hd; apply (Hd lat); right; now left).
  destruct D as [D0 D3]. apply shape_eqb_eq in D0 as [E1 E2]. apply dims_eqb_eq in D3.
  assert (R1 : (1 <= nrows lon)%nat) by nia.
  destruct (mode_64 m lon lat vlon vlat thr 180 D1 (doubles_le lat vlat 90 180 D2 ltac:(lra)) ltac:(lra) R1 ltac:(lia) (eq_sym E1) (eq_sym E2)) as (_ & TA & TB).
  assert (TC : @to_cart _ (F64 m) lon lat (Some thr) = true).
  { destruct Hs as [(i & j & Hi & Hj & L)|(i & j & k & l & Hi & Hj & Hk & Hl & L)]; eauto. }
  set (xyz := zip_da (@vii_lonlat2xyz _ (F64 m)) lon lat).
  set (x := map_da (fun p => fst (fst p)) xyz). set (y := map_da (fun p => snd (fst p)) xyz). set (z := map_da snd xyz).
  assert (Hx : args_ok [x; y; z] s f n_scans).
  { exists x, [y; z]. repeat split; auto. repeat constructor; try (apply shape_eqb_eq; auto); apply dims_eqb_eq; reflexivity. }
  destruct (@interpolation_ok _ (F64 m) nan _ _ _ _ Hx) as (outs & E & P).
  inversion P as [|? ox ? ? P1 P']; subst. inversion P' as [|? oy ? ? P2 P'']; subst. inversion P'' as [|? oz ? ? P3 P3']; subst. inversion P3'; subst.
  eexists. eexists. split.
  { unfold tie_points_geo_interpolation, align_longitude. rewrite (proj2 (shape_eqb_eq lon lat)), (proj2 (dims_eqb_eq lon lat)) by auto. cbn [negb].
    destruct (Nat.eqb_spec (nrows lat) 0); [lia|]. destruct (Nat.eqb_spec (ncols lat) 0); [lia|]. cbn [orb].
    rewrite TC. cbn [bind]. fold xyz. fold x y z. rewrite E. cbn [bind]. reflexivity. }
  assert (YX : yields (F64 m) nan [x; y; z] s f n_scans x ox) by (split; [exact Hx|]; exists [ox; oy; oz], 0%nat; auto).
  assert (YY : yields (F64 m) nan [x; y; z] s f n_scans y oy) by (split; [exact Hx|]; exists [ox; oy; oz], 1%nat; auto).
  assert (YZ : yields (F64 m) nan [x; y; z] s f n_scans z oz) by (split; [exact Hx|]; exists [ox; oy; oz], 2%nat; auto).
  assert (NX : forall i k, (i < nrows lon)%nat -> (k < ncols lon)%nat ->
    near b64 (at_ x i k) (pos_x (vlon i k) (vlat i k)) (30 / 1000000000) /\ near b64 (at_ y i k) (pos_y (vlon i k) (vlat i k)) (30 / 1000000000) /\
    near b64 (at_ z i k) (pos_z (vlon i k) (vlat i k)) (30 / 1000000000)).
  { intros i k Hi Hk. unfold x, y, z, xyz. cbn [map_da zip_da at_]. destruct D1 as [F1 G1], D2 as [F2 G2]. rewrite F1, F2 by lia.
    destruct (near_xyz m HA (vlon i k) (vlat i k)) as (a1 & a2 & a3 & -> & K); [apply G1; lia|apply G2; lia|]. exact K. }
  pose proof eps_64 as Ep.
  assert (UB : usual Rm) by (unfold usual, Rm; lra).
  assert (EB : 0 <= 30 / 1000000000 <= Rm / 1000) by (unfold Rm; lra).
  assert (EE : 30 / 1000000000 + 143 / 10 * eps b64 * (Rm + 30 / 1000000000) <= 50 / 1000000000) by (unfold Rm; lra).
  intros j r a c b Hj Hrr Haf Hcc Hb place ll d.
  set (i0 := (j * (s - 1) * f + r * f + a)%nat) in *. set (k0 := (c * f + b)%nat) in *.
  assert (VX : near b64 (at_ ox i0 k0) (place pos_x) d).
  { eapply FloatNear.near_weaken; [exact EE|]. apply (yields_near m nan [x; y; z] s f n_scans x ox _ Rm _ j r a c b YX Hf UB EB); auto.
    intros i k Hi Hk. split; [apply NX; assumption|apply pos_bound]. }
  assert (VY : near b64 (at_ oy i0 k0) (place pos_y) d).
  { eapply FloatNear.near_weaken; [exact EE|]. apply (yields_near m nan [x; y; z] s f n_scans y oy _ Rm _ j r a c b YY Hf UB EB); auto.
    intros i k Hi Hk. split; [apply NX; assumption|apply pos_bound]. }
  assert (VZ : near b64 (at_ oz i0 k0) (place pos_z) d).
  { eapply FloatNear.near_weaken; [exact EE|]. apply (yields_near m nan [x; y; z] s f n_scans z oz _ Rm _ j r a c b YZ Hf UB EB); auto.
    intros i k Hi Hk. split; [apply NX; assumption|apply pos_bound]. }
  destruct VX as (px & EX & FX & DX). destruct VY as (py & EY & FY & DY). destruct VZ as (pz & EZ & FZ & DZ).
  exists px, py, pz. split; [exact DX|]. split; [exact DY|]. split; [exact DZ|].
  assert (EL : ll = @vii_xyz2lonlat _ (F64 m) (Some zt) (Some px, Some py, Some pz)).
  { unfold ll. cbn [map_da zip_da at_ fst snd]. rewrite EX, EY, EZ. destruct (vii_xyz2lonlat (Some zt) (Some px, Some py, Some pz)). reflexivity. }
  split; [exact EL|]. intros AX. rewrite EL. apply C72_vii; auto.
  assert (T1 : 0 <= INR a / INR f <= 1) by (pose proof (frac_bounds a f Haf) as K; unfold frac in K; lra).
  assert (T2 : 0 <= INR b / INR f <= 1) by (pose proof (frac_bounds b f Hb) as K; unfold frac in K; lra).
  apply (moved d px py pz (place pos_x) (place pos_y) (place pos_z)); auto.
  apply (place_norm (fun i k => (vlon i k, vlat i k)) (j * s + r) c (INR a / INR f) (INR b / INR f) T1 T2).
Qed.
Print Assumptions C89_cartesian.

(** ** Cases of C89: one scan of 2 x 2 tie points across the antimeridian; latitudes 0 *)
Definition across (i k : nat) : R := if (k =? 0)%nat then 180 else -180.
Definition ex64_lon : darray (option R) := {| dims := (0, 1)%nat; nrows := 2; ncols := 2; at_ := fun i k => Some (across i k) |}.
Definition ex64_lat : darray (option R) := {| dims := (0, 1)%nat; nrows := 2; ncols := 2; at_ := fun i k => Some 0 |}.
Lemma fl_int n : (Z.abs n < 2 ^ 53)%Z -> fl b64 (IZR n).
Proof. intros H. pose proof (fix_fl n 0 H ltac:(lia)) as K. cbn [Z.opp bpow] in K. now rewrite Rmult_1_r in K. Qed.
Lemma ex64_ok : doubles ex64_lon across 180 /\ doubles ex64_lat (fun _ _ => 0) 90 /\ args_ok [ex64_lon; ex64_lat] 2 8 1.
Proof.
  split; [|split].
  - split; [intros i k _ _; reflexivity|]. intros i k _ _. unfold across.
    destruct (k =? 0)%nat; (split; [apply (fl_int); lia|]); [rewrite Rabs_pos_eq; lra|]. replace (-180) with (- (180)) by lra. rewrite Rabs_Ropp, Rabs_pos_eq; lra.
  - split; [intros i k _ _; reflexivity|]. intros i k _ _. split; [apply fl_int; lia|]. rewrite Rabs_R0. lra.
  - exists ex64_lon, [ex64_lat]. split; [reflexivity|]. split; [lia|]. split; [lia|]. split; [lia|]. split; [reflexivity|]. split; [cbn; lia|].
    repeat constructor.
Qed.
Example C89_case : forall m, in_range b64 pi64 m -> accurate b64 m -> exists olon olat,
  @tie_points_geo_interpolation _ (F64 m) None ex64_lon ex64_lat 2 8 (Some 60) (Some (3 / 4)) = Ok (olon, olat) /\
  exists x y z, Rabs (x + Rm) <= 50 / 1000000000 /\ Rabs y <= 50 / 1000000000 /\ Rabs z <= 50 / 1000000000 /\
    exists radius, Rabs (radius - Rm) <= / 1000000000 /\ near_exact radius (3 / 4) (5 / 1000000) x y z (at_ olon 2 4, at_ olat 2 4).
Proof.
  intros m HR HA. destruct ex64_ok as (D1 & D2 & A).
  destruct (C89_cartesian m None ex64_lon ex64_lat across (fun _ _ => 0) 2 8 1 60 (3 / 4) HR HA ltac:(lra) D1 D2 A ltac:(lia)) as (olon & olat & E & K).
  { right. exists 0%nat, 0%nat, 0%nat, 1%nat. cbn. repeat split; try lia. unfold across. cbn [Nat.eqb].
    assert (bpow radix2 (-45) <= 1) by (apply (bpow_le radix2 (-45) 0); lia). change (bpow radix2 (-45) <= 1) in H. cbn [bpow] in *. lra. }
  exists olon, olat. split; [exact E|].
  specialize (K 0 0 2 0 4 ltac:(lia) ltac:(lia) ltac:(lia) ltac:(cbn; lia) ltac:(lia))%nat. cbv zeta in K.
  set (place := fun p : R -> R -> R => four (fun i k => p (across i k) 0) (0 * 2 + 0) 0 (INR 2 / INR 8) (INR 4 / INR 8)) in K.
  assert (PX : forall i k, pos_x (across i k) 0 = - Rm).
  { intros i k. unfold pos_x, across. rewrite Rmult_0_l, cos_0. destruct (k =? 0)%nat.
    - replace (180 * (PI / 180)) with PI by field. rewrite cos_PI. ring.
    - replace (-180 * (PI / 180)) with (- PI) by field. rewrite cos_neg, cos_PI. ring. }
  assert (PY : forall i k, pos_y (across i k) 0 = 0).
  { intros i k. unfold pos_y, across. destruct (k =? 0)%nat.
    - replace (180 * (PI / 180)) with PI by field. rewrite sin_PI. ring.
    - replace (-180 * (PI / 180)) with (- PI) by field. rewrite sin_neg, sin_PI. ring. }
  assert (PZ : forall i k, pos_z (across i k) 0 = 0) by (intros; unfold pos_z; rewrite Rmult_0_l, sin_0; ring).
  assert (EX : place pos_x = - Rm) by (unfold place, four; rewrite !PX; ring).
  assert (EY : place pos_y = 0) by (unfold place, four; rewrite !PY; ring).
  assert (EZ : place pos_z = 0) by (unfold place, four; rewrite !PZ; ring).
  destruct K as (x & y & z & Dx & Dy & Dz & _ & N). rewrite EX in Dx, N. rewrite EY in Dy, N. rewrite EZ in Dz.
  exists x, y, z. split; [replace (x + Rm) with (x - - Rm) by ring; exact Dx|]. split; [now rewrite Rminus_0_r in Dy|]. split; [now rewrite Rminus_0_r in Dz|].
  apply N. left. rewrite Rabs_Ropp, Rabs_pos_eq; unfold Rm; lra.
Qed.
Example C89_case_geodetic : forall m, exists olon olat,
  @tie_points_geo_interpolation _ (F64 m) None ex64_lat ex64_lat 2 8 (Some 60) (Some (3 / 4)) = Ok (olon, olat) /\
  near b64 (at_ olon 2 4) 0 (3 / 10000000000000).
Proof.
  intros m. destruct ex64_ok as (_ & D2 & _).
  assert (A : args_ok [ex64_lat; ex64_lat] 2 8 1).
  { exists ex64_lat, [ex64_lat]. split; [reflexivity|]. split; [lia|]. split; [lia|]. split; [lia|]. split; [reflexivity|]. split; [cbn; lia|]. repeat constructor. }
  destruct (C89_geodetic m None ex64_lat ex64_lat (fun _ _ => 0) (fun _ _ => 0) 2 8 1 60 (Some (3 / 4)) (doubles_le _ _ 90 180 D2 ltac:(lra)) D2 A ltac:(lia)) as (olon & olat & E & K).
  { split; intros; [rewrite Rabs_R0|]; lra. }
  exists olon, olat. split; [exact E|]. destruct (K 0 0 2 0 4 ltac:(lia) ltac:(lia) ltac:(lia) ltac:(cbn; lia) ltac:(lia))%nat as [N _].
  cbv zeta in N. unfold four in N. rewrite !Rmult_0_r, !Rplus_0_r in N. exact N.
Qed.
