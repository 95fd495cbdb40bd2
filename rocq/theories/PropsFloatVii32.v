(** C140, C141: the VII interpolation on float32 arrays. *)
From Coq Require Import ZArith List Bool Arith Lia Reals Lra.
From Flocq.Core Require Import Core.
From Flocq Require Import Sterbenz.
From Verif Require Import Base Num Geo Float PiBound FloatGeo FloatAcc FloatTrip FloatNear Vii ViiProofs PropsFloat PropsFloatAcc PropsFloatTrip FloatVii PropsVii ViiSingle PropsFloatVii.
Import ListNotations.
Open Scope R_scope.

(** ** The result of one array *)
Section Any.
Context {T : Type} (N32 N64 : NumOps T).
Variable nan : T.
Definition pixel_32 (f : nat) (y : nat -> nat -> T) (R a C b : nat) : T :=
  @gen1 _ N64 f C b (fun k => @gen1 _ (single_difference N32 N64) f R a (fun i => y i k)).
Definition pixels_32 (s f n_scans : nat) (data out : darray T) : Prop :=
  dims out = dims data /\ nrows out = (n_scans * (s - 1) * f)%nat /\ ncols out = ((ncols data - 1) * f)%nat /\
  forall j r a c b, (j < n_scans)%nat -> (r < s - 1)%nat -> (a < f)%nat -> (c < ncols data - 1)%nat -> (b < f)%nat ->
    at_ out (j * (s - 1) * f + r * f + a)%nat (c * f + b)%nat = pixel_32 f (at_ data) (j * s + r) a c b.

Lemma one_array_32 s f n_scans : gives s f n_scans (@interp_rows _ (single_difference N32 N64) nan) (@interp_cols _ N64 nan) (pixels_32 s f n_scans).
Proof.
  intros data Hs Hf Hn Hr Hc. rewrite !arange_tie by exact Hf.
  replace ((Z.of_nat (ncols data) - 1) * Z.of_nat f)%Z with (0 + Z.of_nat ((ncols data - 1) * f))%Z by nia.
  rewrite (arange_pixel 0 (Z.of_nat ((ncols data - 1) * f))) by apply Nat2Z.is_nonneg. rewrite Nat2Z.id.
  set (alt := concat _). assert (La : length alt = (n_scans * ((s - 1) * f))%nat) by (apply pixel_grid_alt_length; lia).
  assert (P1 : (1 <= s - 1)%nat) by lia. assert (P2 : (1 <= ncols data - 1)%nat) by lia.
  assert (P3 : (1 <= (s - 1) * f)%nat) by nia. assert (P4 : (1 <= (ncols data - 1) * f)%nat) by nia.
  unfold interp_rows, interp_cols. rewrite La, zrange_length.
  destruct (Nat.eqb_spec (n_scans * ((s - 1) * f)) 0); [nia|].
  destruct (Nat.eqb_spec ((ncols data - 1) * f) 0); [nia|]. cbn [bind].
  eexists; split; [reflexivity|]. unfold pixels_32. cbn [dims nrows ncols at_].
  split; [reflexivity|]. split; [lia|]. split; [reflexivity|].
  intros j r a c b Hj Hrr Ha Hcc Hb.
  rewrite zrange_nth by nia. replace (0 + Z.of_nat (c * f + b))%Z with (Z.of_nat (c * f + b)) by lia.
  rewrite interp1d_gen1 by lia. unfold pixel_32.
  replace (nth (j * (s - 1) * f + r * f + a) alt 0%Z) with (Z.of_nat ((j * s + r) * f + a)).
  - apply gen1_ext; intros k; apply interp1d_gen1; nia.
  - replace (j * (s - 1) * f + r * f + a)%nat with (j * ((s - 1) * f) + (r * f + a))%nat by lia.
    unfold alt. rewrite pixel_grid_alt_nth by nia. lia.
Qed.
Lemma interpolation_ok_32 datas s f n_scans : args_ok datas s f n_scans ->
  exists outs, tie_points_interpolation_32 N32 N64 nan datas s f = Ok outs /\ Forall2 (pixels_32 s f n_scans) datas outs.
Proof. apply with_ok, one_array_32. Qed.
End Any.

(** one call on any list of float32 arrays; [data], [out] an input and its output *)
Definition yields_32 (m : libm) (nan : option R) (datas : list (darray (option R))) (s f n_scans : nat) (data out : darray (option R)) : Prop :=
  args_ok datas s f n_scans /\
  exists outs k, tie_points_interpolation_32 (F32 m) (F64 m) nan datas s f = Ok outs /\ nth_error datas k = Some data /\ nth_error outs k = Some out.

Lemma Forall2_nth {A B} (P : A -> B -> Prop) l l' k a b : Forall2 P l l' -> nth_error l k = Some a -> nth_error l' k = Some b -> P a b.
Proof.
  intros H. revert k. induction H as [|x y l l' H0 H IH]; intros [|k] H1 H2; cbn in H1, H2; try discriminate.
  - injection H1 as ->. injection H2 as ->. exact H0.
  - exact (IH k H1 H2).
Qed.

Lemma yields_32_pixels m nan datas s f n_scans data out : yields_32 m nan datas s f n_scans data out ->
  pixels_32 (F32 m) (F64 m) s f n_scans data out /\ nrows data = (n_scans * s)%nat /\ (2 <= ncols data)%nat /\ (1 <= f)%nat /\ (2 <= s)%nat.
Proof.
  intros (Ha & outs & k & E & H1 & H2). destruct (interpolation_ok_32 (F32 m) (F64 m) nan datas s f n_scans Ha) as (outs' & E' & P).
  rewrite E in E'. injection E' as <-. split; [now apply (Forall2_nth _ _ _ k _ _ P)|].
  destruct Ha as (first & rest & -> & Hs & Hf & Hn & Hr & Hc & Hd).
  assert (In data (first :: rest)) by (eapply nth_error_In; eauto).
  rewrite Forall_forall in Hd. destruct (Hd data H) as [D _]. apply shape_eqb_eq in D as [D1 D2]. lia.
Qed.

(** every tie point is a float of size at most [B], tie points below each other differ by at most [D] *)
Definition floats (data : darray (option R)) (v : nat -> nat -> R) (B D : R) : Prop :=
  finite_da data v /\ (forall i k, (i < nrows data)%nat -> (k < ncols data)%nat -> fl b32 (v i k) /\ Rabs (v i k) <= B) /\
  forall i k, (i + 1 < nrows data)%nat -> (k < ncols data)%nat -> Rabs (v (i + 1)%nat k - v i k) <= D.

Section D.
Variable m : libm.
Local Notation nd := (near b64).
Local Notation ep := (eps b64).
#[local] Instance DN : NumOps (option R) := F64 m.

(** one line: a difference [q] known exactly *)
Lemma line_difference (F d : nat) p q B : (1 <= Z.of_nat F <= 10000)%Z -> (d <= F)%nat -> fl b64 p -> fl b64 q -> Rabs p <= B -> Rabs q <= 2001 / 1000 * B ->
  / 1100 <= B <= 110000000 ->
  nd (nadd (nmul (ndiv (Some q) (nz (Z.of_nat F))) (nz (Z.of_nat d))) (Some p)) (p + q * (INR d / INR F)) (71 / 10 * ep * B).
Proof.
  intros HF Hd Fp Fq Bp Bq HB. pose proof eps_64 as E.
  assert (F1 : 1 <= INR F <= 10000).
  { rewrite INR_IZR_INZ. split; apply IZR_le; lia. }
  assert (D1 : 0 <= INR d <= INR F) by (split; [apply pos_INR|apply le_INR; lia]).
  assert (I : 0 < / INR F <= 1). { split; [apply Rinv_0_lt_compat; lra|]. rewrite <- Rinv_1. apply Rinv_le_contravar; lra. }
  assert (I' : / 10000 <= / INR F) by (apply Rinv_le_contravar; lra).
  assert (FI : INR F * / INR F = 1) by (apply Rinv_r; lra).
  pose proof (near_nz b64 b64 pi64 m fine_64 (Z.of_nat F) ltac:(lia)) as NF. rewrite <- INR_IZR_INZ in NF.
  pose proof (near_nz b64 b64 pi64 m fine_64 (Z.of_nat d) ltac:(lia)) as Nd. rewrite <- INR_IZR_INZ in Nd.
  set (W := 2001 / 1000 * B) in *.
  assert (HW : / 1000 <= W <= 2001 / 1000 * 110000000) by (unfold W; lra).
  set (M1 := W * / INR F).
  assert (A2 : nd (ndiv (Some q) (nz (Z.of_nat F))) (q / INR F) ((0 + W * / INR F * 0) / INR F + ep * M1)).
  { apply (near_div b64 b64 pi64 m fine_64 _ _ _ _ _ _ (W * / INR F) (INR F)); auto; try (now apply near_0).
    - unfold Rdiv. rewrite Rabs_mult, (Rabs_pos_eq (/ INR F)) by lra. apply Rmult_le_compat_r; lra.
    - rewrite Rabs_pos_eq by lra. lra.
    - lra.
    - unfold M1. apply Req_le. field. lra.
    - unfold M1, big. split.
      + apply Rle_trans with (/ 1000 * / 10000); [lra|]. apply Rmult_le_compat; lra.
      + apply Rle_trans with (W * 1); [|lra]. apply Rmult_le_compat; lra. }
  set (e2 := (0 + W * / INR F * 0) / INR F + ep * M1) in A2.
  assert (E2 : INR F * e2 = ep * W) by (unfold e2, M1; field; lra).
  set (M3 := W * (1 + ep)).
  assert (A3 : nd (nmul (ndiv (Some q) (nz (Z.of_nat F))) (nz (Z.of_nat d))) (q / INR F * INR d) (W * / INR F * 0 + INR F * e2 + e2 * 0 + ep * M3)).
  { apply (near_mul b64 b64 pi64 m fine_64); auto.
    - unfold Rdiv. rewrite Rabs_mult, (Rabs_pos_eq (/ INR F)) by lra. apply Rmult_le_compat_r; lra.
    - rewrite Rabs_pos_eq; lra.
    - rewrite E2. replace (W * / INR F * INR F) with W by (field; lra). unfold M3. nra.
    - unfold M3, big. nra. }
  rewrite E2 in A3.
  assert (L : q / INR F * INR d + p = p + q * (INR d / INR F)) by (field; lra).
  assert (T : 0 <= INR d / INR F <= 1).
  { unfold Rdiv. split; [apply Rmult_le_pos; lra|]. rewrite <- FI. apply Rmult_le_compat_r; lra. }
  assert (LB : Rabs (p + q * (INR d / INR F)) <= B + W).
  { eapply Rle_trans; [apply Rabs_triang|]. rewrite Rabs_mult, (Rabs_pos_eq (INR d / INR F)) by lra. pose proof (Rabs_pos q). nra. }
  assert (A4 : nd (nadd (nmul (ndiv (Some q) (nz (Z.of_nat F))) (nz (Z.of_nat d))) (Some p)) (q / INR F * INR d + p)
    ((W * / INR F * 0 + ep * W + e2 * 0 + ep * M3) + 0 + ep * ((B + W) * (1 + 7 * ep)))).
  { apply (near_add b64 b64 pi64 m fine_64); auto; [now apply near_0| |].
    - rewrite L. unfold M3. nra.
    - unfold big. nra. }
  rewrite L in A4. eapply FloatNear.near_weaken; [|exact A4]. unfold M3, W. nra.
Qed.

(** the difference of two floats *)
Lemma float_difference p q B : fl b32 p -> fl b32 q -> Rabs p <= B -> Rabs q <= B -> / 1100 <= B <= 110000000 ->
  exists w, @nsub _ (F32 m) (Some q) (Some p) = Some w /\ fl b32 w /\ Rabs (w - (q - p)) <= bpow radix2 (-24) * Rabs (q - p) + bpow radix2 (-150).
Proof.
  intros Fp Fq Bp Bq HB. cbn [nsub F32 FN bind2]. 
  assert (Q : Rabs (q - p) <= bpow radix2 30).
  { change (bpow radix2 30) with 1073741824. unfold Rminus. eapply Rle_trans; [apply Rabs_triang|]. rewrite Rabs_Ropp. lra. }
  pose proof (fit_some b32 good_b32 (q - p) 30 ltac:(cbn; lia) Q) as E. exists (rd b32 (q - p)). split; [exact E|].
  split; [|exact (fine_err b32 (q - p) fine_32)]. exact (proj2 (fit_inv b32 good_b32 _ _ E)).
Qed.

Lemma u150 : 0 < bpow radix2 (-150) <= ep / 1000000000000000000.
Proof.
  split; [apply bpow_gt_0|]. unfold eps. cbn [fprec b64]. apply Rle_trans with (bpow radix2 (-53) * bpow radix2 (-97)); [rewrite <- bpow_plus; apply bpow_le; lia|].
  apply Rle_trans with (bpow radix2 (-53) * / 1000000000000000000000000); [|change (- (53))%Z with (-53)%Z; pose proof (bpow_gt_0 radix2 (-53)); lra].
  apply Rmult_le_compat_l; [apply bpow_ge_0|]. rewrite bpow_Zn by lia. apply Rinv_le_contravar; [lra|]. apply IZR_le. cbn. lia.
Qed.

(** the position between the two neighbours *)
Lemma left_neighbour F c b (v : nat -> R) : (1 <= F)%nat -> (b < F)%nat ->
  exists d, (d <= F)%nat /\ (Z.of_nat (c * F + b) - Z.of_nat (lo_of c b * F))%Z = Z.of_nat d /\
    lin (v (lo_of c b)) (v (lo_of c b + 1)%nat) (INR d / INR F) = lin (v c) (v (c + 1)%nat) (frac b F) /\ 0 <= INR d / INR F <= 1.
Proof.
  intros HF Hb. set (d := (c * F + b - lo_of c b * F)%nat). exists d.
  assert (Hd : (d <= F)%nat /\ (lo_of c b * F <= c * F + b)%nat /\
    lin (v (lo_of c b)) (v (lo_of c b + 1)%nat) (INR d / INR F) = lin (v c) (v (c + 1)%nat) (frac b F)).
  { assert (F0 : INR F <> 0) by (apply not_0_INR; lia).
    unfold d, lo_of, frac. destruct (Nat.eqb_spec b 0); destruct (Nat.leb_spec 1 c); cbn [andb].
    - subst b. assert (K : (c * F = (c - 1) * F + F)%nat) by nia. split; [lia|]. split; [lia|].
      replace (c * F + 0 - (c - 1) * F)%nat with F by lia. replace (c - 1 + 1)%nat with c by lia. unfold lin. cbn [INR]. field. exact F0.
    - subst b. assert (c = 0)%nat by lia. subst c. cbn. split; [lia|]. split; [lia|]. reflexivity.
    - split; [lia|]. split; [lia|]. do 2 f_equal. f_equal. lia.
    - split; [lia|]. split; [lia|]. do 2 f_equal. f_equal. lia. }
  destruct Hd as (Hd & Hl & El). split; [exact Hd|]. split; [unfold d; lia|]. split; [exact El|].
  assert (0 < INR F) by (apply lt_0_INR; lia). pose proof (pos_INR d). pose proof (le_INR _ _ Hd).
  split; [apply Rmult_le_pos; [lra|]; apply Rlt_le, Rinv_0_lt_compat; lra|].
  apply (Rmult_le_reg_r (INR F)); [lra|]. unfold Rdiv. rewrite Rmult_assoc, Rinv_l by lra. lra.
Qed.

(** the first interpolation: neighbours are floats *)
Lemma gen1_32_near F c b (y : nat -> option R) (v : nat -> R) B D : (1 <= Z.of_nat F <= 10000)%Z -> (b < F)%nat -> usual B ->
  (forall k, (k = lo_of c b \/ k = lo_of c b + 1)%nat -> y k = Some (v k) /\ fl b32 (v k) /\ Rabs (v k) <= B) ->
  Rabs (v (lo_of c b + 1)%nat - v (lo_of c b)) <= D ->
  nd (@gen1 _ (single_difference (F32 m) (F64 m)) F c b y) (lin (v c) (v (c + 1)%nat) (frac b F)) (bpow radix2 (-24) * D + bpow radix2 (-150) + 71 / 10 * ep * B).
Proof.
  intros HF Hb HB Hy HD. unfold usual in HB. destruct (Hy (lo_of c b) (or_introl eq_refl)) as (Ep & Fp & Bp).
  destruct (Hy (lo_of c b + 1)%nat (or_intror eq_refl)) as (Eq & Fq & Bq).
  destruct (left_neighbour F c b v ltac:(lia) Hb) as (d & Hd & Ed & El & Td).
  set (p := v (lo_of c b)) in *. set (q := v (lo_of c b + 1)%nat) in *.
  destruct (float_difference p q B Fp Fq Bp Bq ltac:(lra)) as (w & Ew & Fw & Dw).
  pose proof u150 as U. pose proof eps_64 as E64.
  assert (U24 : bpow radix2 (-24) = / 16777216) by (bp; reflexivity).
  assert (Q : Rabs (q - p) <= 2 * B) by (unfold Rminus; eapply Rle_trans; [apply Rabs_triang|]; rewrite Rabs_Ropp; lra).
  assert (Bw : Rabs w <= 2001 / 1000 * B).
  { replace w with ((w - (q - p)) + (q - p)) by ring. eapply Rle_trans; [apply Rabs_triang|]. rewrite U24 in Dw. lra. }
  unfold gen1. cbv zeta. rewrite Ep, Eq, Ed. fold p q. 
  change (@nsub _ (single_difference (F32 m) (F64 m))) with (@nsub _ (F32 m)). rewrite Ew.
  change (@nadd _ (single_difference (F32 m) (F64 m))) with (@nadd _ (F64 m)). change (@nmul _ (single_difference (F32 m) (F64 m))) with (@nmul _ (F64 m)).
  change (@ndiv _ (single_difference (F32 m) (F64 m))) with (@ndiv _ (F64 m)). change (@nz _ (single_difference (F32 m) (F64 m))) with (@nz _ (F64 m)).
  rewrite <- El. fold p q.
  eapply near_move; [|apply (line_difference F d p w B); auto using b32_b64; lra].
  assert (Rabs (p + w * (INR d / INR F) - lin p q (INR d / INR F)) <= bpow radix2 (-24) * D + bpow radix2 (-150)); [|lra].
  unfold lin. replace (p + w * (INR d / INR F) - ((1 - INR d / INR F) * p + INR d / INR F * q)) with ((w - (q - p)) * (INR d / INR F)) by ring.
  rewrite Rabs_mult, (Rabs_pos_eq (INR d / INR F)) by lra.
  apply Rle_trans with (Rabs (w - (q - p)) * 1); [apply Rmult_le_compat_l; [apply Rabs_pos|lra]|].
  eapply Rle_trans; [rewrite Rmult_1_r; exact Dw|]. apply Rplus_le_compat_r, Rmult_le_compat_l; [apply bpow_ge_0|exact HD].
Qed.

Lemma pixel_32_near F (y : nat -> nat -> option R) (v : nat -> nat -> R) r a c b B D : (1 <= Z.of_nat F <= 10000)%Z -> (a < F)%nat -> (b < F)%nat -> usual B -> D <= 2 * B ->
  (forall i k, (i = lo_of r a \/ i = lo_of r a + 1)%nat -> (k = lo_of c b \/ k = lo_of c b + 1)%nat -> y i k = Some (v i k) /\ fl b32 (v i k) /\ Rabs (v i k) <= B) ->
  (forall k, (k = lo_of c b \/ k = lo_of c b + 1)%nat -> Rabs (v (lo_of r a + 1)%nat k - v (lo_of r a) k) <= D /\ Rabs (v r k) <= B /\ Rabs (v (r + 1)%nat k) <= B) ->
  nd (pixel_32 (F32 m) (F64 m) F y r a c b) (bilin v r c (frac a F) (frac b F)) (bpow radix2 (-24) * D + 15 * bpow radix2 (-53) * B).
Proof.
  intros HF Ha Hb HB HD Hy Hv. unfold pixel_32, bilin. pose proof eps_64 as E. pose proof u150 as U. unfold usual in HB.
  assert (U24 : bpow radix2 (-24) = / 16777216) by (bp; reflexivity).
  assert (EP : ep = bpow radix2 (-53) * (1 + / 1000)) by reflexivity. pose proof (bpow_gt_0 radix2 (-53)) as P53.
  pose proof (frac_bounds a F Ha) as Ta.
  assert (D0 : 0 <= D). { destruct (Hv (lo_of c b) (or_introl eq_refl)) as [K _]. eapply Rle_trans; [apply Rabs_pos|exact K]. }
  set (e := bpow radix2 (-24) * D + bpow radix2 (-150) + 71 / 10 * ep * B).
  assert (He : 0 <= e <= B / 1000) by (unfold e; rewrite U24; split; nra).
  eapply FloatNear.near_weaken; [|apply (gen1_near m F c b _ (fun k => lin (v r k) (v (r + 1)%nat k) (frac a F)) B e); auto; [lra|]].
  - assert (e <= B / 1000000).
    { unfold e. rewrite U24. nra. }
    apply Rle_trans with (e + 71 / 10 * ep * (B * (1 + / 1000000))); [apply Rplus_le_compat_l, Rmult_le_compat_l; lra|]. unfold e.
    assert (bpow radix2 (-53) / 1000 * (/ 2) <= bpow radix2 (-53) * B / 2) by nra.
    assert (bpow radix2 (-150) <= bpow radix2 (-53) / 1000 * / 2) by lra. rewrite EP. nra.
  - intros k Hk. destruct (Hv k Hk) as (V1 & V2 & V3). split.
    + apply (gen1_32_near F r a (fun i => y i k) (fun i => v i k) B D); auto.
    + apply lin_abs; auto. lra.
Qed.
End D.

(** ** C140 *)
(** Float32 tie points of size at most [B], those below each other at most [D] apart: every pixel is a double within
    2^-24 D + 15 * 2^-53 B of the bilinear interpolation of its four tie points. *)
Theorem C140_pixels : forall m nan datas s f n_scans data out v B D j r a c b,
  yields_32 m nan datas s f n_scans data out -> floats data v B D -> (Z.of_nat f <= 10000)%Z -> / 1000 <= B <= 100000000 -> D <= 2 * B ->
  (j < n_scans)%nat -> (r < s - 1)%nat -> (a < f)%nat -> (c < ncols data - 1)%nat -> (b < f)%nat ->
  near b64 (at_ out (j * (s - 1) * f + r * f + a)%nat (c * f + b)%nat) (four v (j * s + r) c (INR a / INR f) (INR b / INR f))
    (bpow radix2 (-24) * D + 15 * bpow radix2 (-53) * B).
Proof.
  intros m nan datas s f n_scans data out v B D j r a c b HP (Hv & HF & HD) Hf HB HDB Hj Hr Ha Hc Hb.
  destruct (yields_32_pixels _ _ _ _ _ _ _ _ HP) as ((_ & _ & _ & P) & Hrow & Hcol & Hf1 & Hs). rewrite P by auto.
  destruct (neighbours s n_scans (ncols data) j r a c b Hj Hr Hc) as (N1 & N2 & N3).
  rewrite <- bilin_four. apply (pixel_32_near m f (at_ data) v); auto; [lia| |].
  - intros i k Hi Hk. split; [apply Hv; lia|]. apply HF; lia.
  - intros k Hk. split; [apply HD; lia|]. split; apply HF; lia.
Qed.
Print Assumptions C140_pixels.

(** ** C141: the same array as doubles *)
(** the difference of the two floats is a float *)
Lemma exact_difference m p q : fl b32 p -> fl b32 q -> fl b32 (q - p) -> @nsub _ (F32 m) (Some q) (Some p) = @nsub _ (F64 m) (Some q) (Some p).
Proof.
  intros Fp Fq Fd. cbn [nsub F32 F64 FN bind2]. rewrite (fit_fl b32 _ Fd). symmetry. apply fit_fl. now apply b32_b64.
Qed.
(** in particular (Sterbenz) when neither is more than twice the other, or when one of them is zero *)
Lemma close_difference p q : fl b32 p -> fl b32 q -> q / 2 <= p <= 2 * q \/ 2 * q <= p <= q / 2 \/ p = 0 \/ q = 0 -> fl b32 (q - p).
Proof.
  intros [Fp Lp] [Fq Lq] H.
  assert (G : forall x y, generic_format radix2 (FLT_exp (femin b32) (fprec b32)) x -> generic_format radix2 (FLT_exp (femin b32) (fprec b32)) y ->
    y / 2 <= x <= 2 * y -> generic_format radix2 (FLT_exp (femin b32) (fprec b32)) (y - x)).
  { intros x y Hx Hy Hxy. replace (y - x) with (- (x - y)) by ring. apply generic_format_opp.
    assert (Prec_gt_0 (fprec b32)) by (red; cbn; lia). apply sterbenz; auto with typeclass_instances. }
  destruct H as [H|[H|[->| ->]]].
  - split; [now apply G|]. apply Rabs_def2 in Lp, Lq. apply Rabs_def1; lra.
  - split.
    + replace (q - p) with (- ((- q) - (- p))) by ring. apply generic_format_opp. apply G; [now apply generic_format_opp|now apply generic_format_opp|lra].
    + apply Rabs_def2 in Lp, Lq. apply Rabs_def1; lra.
  - rewrite Rminus_0_r. split; assumption.
  - rewrite Rminus_0_l. split; [now apply generic_format_opp|now rewrite Rabs_Ropp].
Qed.

(** tie points below each other: neither more than twice the other *)
Definition similar (data : darray (option R)) (v : nat -> nat -> R) : Prop :=
  finite_da data v /\ (forall i k, (i < nrows data)%nat -> (k < ncols data)%nat -> fl b32 (v i k)) /\
  forall i k, (i + 1 < nrows data)%nat -> (k < ncols data)%nat ->
    let p := v i k in let q := v (i + 1)%nat k in q / 2 <= p <= 2 * q \/ 2 * q <= p <= q / 2 \/ p = 0 \/ q = 0.

(** Then every pixel is the very double that the interpolation of the same numbers as doubles gives. *)
Theorem C141_similar_partial : forall m nan datas datas64 s f n_scans data out out64 v j r a c b,
  yields_32 m nan datas s f n_scans data out -> yields (F64 m) nan datas64 s f n_scans data out64 -> similar data v ->
  (j < n_scans)%nat -> (r < s - 1)%nat -> (a < f)%nat -> (c < ncols data - 1)%nat -> (b < f)%nat ->
  let i := (j * (s - 1) * f + r * f + a)%nat in let k := (c * f + b)%nat in at_ out i k = at_ out64 i k.
Proof.
  intros m nan datas datas64 s f n_scans data out out64 v j r a c b H32 H64 (Fv & Ff & Fs) Hj Hr Ha Hc Hb. cbv zeta.
  destruct (yields_32_pixels _ _ _ _ _ _ _ _ H32) as ((_ & _ & _ & P) & Hrow & Hcol & Hf1 & Hs). rewrite P by auto.
  destruct (yields_pixels _ _ _ _ _ _ _ _ H64) as ((_ & _ & _ & P64) & _). rewrite P64 by auto.
  destruct (neighbours s n_scans (ncols data) j r a c b Hj Hr Hc) as (N1 & N2 & N3).
  assert (G : forall k, (k < ncols data)%nat -> @gen1 _ (single_difference (F32 m) (F64 m)) f (j * s + r) a (fun i => at_ data i k) = @gen1 _ (F64 m) f (j * s + r) a (fun i => at_ data i k)).
  { intros k Hk. unfold gen1. cbv zeta. rewrite !Fv by lia.
    change (@nsub _ (single_difference (F32 m) (F64 m))) with (@nsub _ (F32 m)).
    rewrite exact_difference; [reflexivity|apply Ff; lia|apply Ff; lia|]. apply close_difference; [apply Ff; lia|apply Ff; lia|]. apply Fs; lia. }
  unfold pixel_32, pixel. unfold gen1 at 1 3. cbv zeta. rewrite !G by lia. reflexivity.
Qed.
Print Assumptions C141_similar_partial.

(** The whole numbers of the property are false: the difference -1, 2^-30 is rounded. *)
Definition bad_rows : darray (option R) := {| dims := (0, 1)%nat; nrows := 2; ncols := 2; at_ := fun i k => if (i =? 0)%nat then Some (-1) else Some (bpow radix2 (-30)) |}.
Lemma bad_rows_args : args_ok [bad_rows] 2 2 1.
Proof. exists bad_rows, []. repeat split; cbn; auto. Qed.
Lemma float_dyadic (M e : Z) : (Z.abs M < 2 ^ 24)%Z -> (0 <= e <= 100)%Z -> fl b32 (IZR M * bpow radix2 (- e)).
Proof.
  intros HM He. split.
  - apply generic_format_FLT. apply (FLT_spec _ _ _ _ (Float radix2 M (- e))); [reflexivity|exact HM|cbn; lia].
  - rewrite Rabs_mult, <- abs_IZR, (Rabs_pos_eq (bpow radix2 (- e))) by apply bpow_ge_0.
    apply Rlt_le_trans with (bpow radix2 24 * bpow radix2 (- e)).
    + apply Rmult_lt_compat_r; [apply bpow_gt_0|]. rewrite <- (IZR_Zpower radix2 24) by lia. apply IZR_lt. exact HM.
    + rewrite <- bpow_plus. apply bpow_le. cbn [femax b32]. lia.
Qed.
Theorem C141_refuted : forall m, exists nan data v s f n_scans out out64 i k,
  finite_da data v /\ (forall i k, fl b32 (v i k)) /\
  yields_32 m nan [data] s f n_scans data out /\ yields (F64 m) nan [data] s f n_scans data out64 /\
  (i < nrows out)%nat /\ (k < ncols out)%nat /\ at_ out i k = Some (-1 / 2) /\ at_ out64 i k = Some (-1 / 2 + bpow radix2 (-31)).
Proof.
  intros m. destruct (interpolation_ok_32 (F32 m) (F64 m) None _ _ _ _ bad_rows_args) as (outs & E & P).
  inversion P as [|? out ? ? P1 P']; subst. inversion P'; subst.
  destruct (@interpolation_ok _ (F64 m) None _ _ _ _ bad_rows_args) as (outs & E6 & P6).
  inversion P6 as [|? out64 ? ? P2 P6']; subst. inversion P6'; subst.
  exists None, bad_rows, (fun i k => if (i =? 0)%nat then -1 else bpow radix2 (-30)), 2%nat, 2%nat, 1%nat, out, out64, 1%nat, 0%nat.
  split. { intros i k _ _. cbn. destruct (i =? 0)%nat; reflexivity. }
  split. { intros i k. destruct (i =? 0)%nat; [pose proof (float_dyadic (-1) 0 ltac:(cbn; lia) ltac:(lia)) as K|pose proof (float_dyadic 1 30 ltac:(cbn; lia) ltac:(lia)) as K]; [cbn [Z.opp bpow] in K; now rewrite Rmult_1_r in K|now rewrite Rmult_1_l in K]. }
  split. { split; [exact bad_rows_args|]. exists [out], 0%nat. auto. }
  split. { split; [exact bad_rows_args|]. exists [out64], 0%nat. auto. }
  destruct P1 as (_ & R1 & C1 & V1). destruct P2 as (_ & _ & _ & V2).
  split; [rewrite R1; cbn; lia|]. split; [rewrite C1; cbn; lia|].
  specialize (V1 0 0 1 0 0)%nat. specialize (V2 0 0 1 0 0)%nat. cbn [Nat.mul Nat.add Nat.sub ncols bad_rows] in V1, V2.
  rewrite V1, V2 by lia. unfold pixel_32, pixel, gen1, lo_of. cbn [Nat.eqb Nat.leb andb Nat.add Nat.mul at_ bad_rows].
  change (Z.of_nat 2) with 2%Z. change (Z.of_nat 1 - Z.of_nat 0)%Z with 1%Z. change (Z.of_nat 0 - Z.of_nat 0)%Z with 0%Z.
  pose proof (nz_fix m 0 ltac:(lia)) as Z0. pose proof (nz_fix m 1 ltac:(lia)) as Z1. pose proof (nz_fix m 2 ltac:(lia)) as Z2.
  change (DX m) with (F64 m) in Z0, Z1, Z2.
  change (@nsub _ (single_difference (F32 m) (F64 m))) with (@nsub _ (F32 m)).
  change (@nadd _ (single_difference (F32 m) (F64 m))) with (@nadd _ (F64 m)). change (@nmul _ (single_difference (F32 m) (F64 m))) with (@nmul _ (F64 m)).
  change (@ndiv _ (single_difference (F32 m) (F64 m))) with (@ndiv _ (F64 m)). change (@nz _ (single_difference (F32 m) (F64 m))) with (@nz _ (F64 m)).
  rewrite Z0, Z1, Z2.
  assert (P30 : bpow radix2 (-30) = / 1073741824) by (bp; reflexivity). assert (P31 : bpow radix2 (-31) = / 2147483648) by (bp; reflexivity).
  assert (D32 : @nsub _ (F32 m) (Some (bpow radix2 (-30))) (Some (-1)) = Some 1).
  { cbn [nsub F32 FN bind2]. assert (R : rd b32 (bpow radix2 (-30) - -1) = 1).
    { rewrite (rd_eq b32 _ 1 8388608); cbn [fprec femin b32]; [..|lia|]; rewrite ?P30; bp; cbn -[IZR]; try lra; apply Rabs_def1; lra. }
    rewrite (fit_some b32 good_b32 _ 2 ltac:(cbn; lia)), R; [reflexivity|]. rewrite P30. change (bpow radix2 2) with 4. apply Rabs_le. lra. }
  rewrite D32.
  assert (K : forall M e x, (Z.abs M < 2 ^ 53)%Z -> (0 <= e <= 1000)%Z -> x = IZR M * bpow radix2 (- e) -> fit b64 x = Some x).
  { intros M e x HM He ->. now apply fix_fit. }
  cbn [nsub nadd nmul ndiv F64 FN bind2]. destruct (Req_EM_T 2 0) as [X|_]; [lra|].
  rewrite (K (2 ^ 30 + 1)%Z 30%Z (bpow radix2 (-30) - -1)) by (try lia; rewrite P30; change (- (30))%Z with (-30)%Z; rewrite P30; cbn; lra). cbn [bind2].
  rewrite (K 1%Z 1%Z (1 / 2)) by (try lia; bp; cbn; lra). cbn [bind2]. destruct (Req_EM_T 2 0) as [X|_]; [lra|].
  rewrite (K 1%Z 1%Z (1 / 2 * 1)) by (try lia; bp; cbn; lra). cbn [bind2].
  rewrite (K (-1)%Z 1%Z (1 / 2 * 1 + -1)) by (try lia; bp; cbn; lra). cbn [bind2].
  rewrite (K (2 ^ 30 + 1)%Z 31%Z ((bpow radix2 (-30) - -1) / 2)) by (try lia; rewrite P30; change (- (31))%Z with (-31)%Z; rewrite P31; cbn; lra). cbn [bind2]. destruct (Req_EM_T 2 0) as [X|_]; [lra|].
  rewrite (K (2 ^ 30 + 1)%Z 31%Z ((bpow radix2 (-30) - -1) / 2 * 1)) by (try lia; rewrite P30; change (- (31))%Z with (-31)%Z; rewrite P31; cbn; lra). cbn [bind2].
  rewrite (K (1 - 2 ^ 30)%Z 31%Z ((bpow radix2 (-30) - -1) / 2 * 1 + -1)) by (try lia; rewrite P30; change (- (31))%Z with (-31)%Z; rewrite P31; cbn; lra). cbn [bind2].
  destruct (Req_EM_T 2 0) as [X|_]; [lra|].
  replace (1 / 2 * 1 + -1 - (1 / 2 * 1 + -1)) with 0 by ring. replace ((bpow radix2 (-30) - -1) / 2 * 1 + -1 - ((bpow radix2 (-30) - -1) / 2 * 1 + -1)) with 0 by ring.
  rewrite !(K 0%Z 0%Z 0) by (try lia; cbn; lra). cbn [bind2]. destruct (Req_EM_T 2 0) as [X|_]; [lra|].
  rewrite !(K 0%Z 0%Z (0 / 2)) by (try lia; cbn; lra). cbn [bind2].
  rewrite !(K 0%Z 0%Z (0 / 2 * 0)) by (try lia; cbn; lra). cbn [bind2].
  rewrite (K (-1)%Z 1%Z (0 / 2 * 0 + (1 / 2 * 1 + -1))) by (try lia; bp; cbn; lra).
  rewrite (K (1 - 2 ^ 30)%Z 31%Z (0 / 2 * 0 + ((bpow radix2 (-30) - -1) / 2 * 1 + -1))) by (try lia; rewrite P30; change (- (31))%Z with (-31)%Z; rewrite P31; cbn; lra).
  split; f_equal; [lra|]. rewrite P30, P31. lra.
Qed.
Print Assumptions C141_refuted.

(** ** C140: tie_points_geo_interpolation *)
Section Geo.
Variable m : libm.
Lemma nz_32 z : (Z.abs z < 2 ^ 24)%Z -> @nz _ (F32 m) z = Some (IZR z).
Proof. intros H. cbn [nz F32 FN]. apply (fit_IZR b32 z good_b32); [cbn; lia|exact H]. Qed.
Lemma fl_opp_32 v : fl b32 v -> fl b32 (- v).
Proof. intros [F1 F2]. split; [now apply generic_format_opp|now rewrite Rabs_Ropp]. Qed.
Lemma np_abs_32 v : fl b32 v -> @np_abs _ (F32 m) (Some v) = Some (Rabs v).
Proof.
  intros F. unfold np_abs. rewrite (nz_32 0) by lia.
  cbn [nltb nsub F32 FN liftb bind2]. unfold Rltb. destruct (Rlt_dec v 0) as [L|L].
  - rewrite Rabs_left by exact L. replace (0 - v) with (- v) by ring. apply fit_fl. now apply fl_opp_32.
  - rewrite Rabs_pos_eq by lra. reflexivity.
Qed.

(** the mode: exact for the latitudes; for the longitudes up to the rounding of their difference *)
Lemma mode_32 lon lat vlon vlat thr B D1 D2 : floats lon vlon B D1 -> floats lat vlat B D2 -> B <= 1000 ->
  (1 <= nrows lon)%nat -> (1 <= ncols lon)%nat -> nrows lon = nrows lat -> ncols lon = ncols lat ->
  (safe_lonlat lon vlon vlat thr -> @to_cart _ (F32 m) lon lat (Some thr) = false) /\
  (forall i j, (i < nrows lon)%nat -> (j < ncols lon)%nat -> thr < Rabs (vlat i j) -> @to_cart _ (F32 m) lon lat (Some thr) = true) /\
  (forall i j k l, (i < nrows lon)%nat -> (j < ncols lon)%nat -> (k < nrows lon)%nat -> (l < ncols lon)%nat ->
     180 + bpow radix2 (-16) <= vlon i j - vlon k l -> @to_cart _ (F32 m) lon lat (Some thr) = true).
Proof.
  intros (F1 & L1 & _) (F2 & L2 & _) HB Hr Hc E1 E2. unfold to_cart.
  assert (F3 : finite_da (map_da (@np_abs _ (F32 m)) lat) (fun i j => Rabs (vlat i j))).
  { intros i j Hi Hj. cbn [map_da nrows ncols at_] in *. rewrite F2 by assumption. apply np_abs_32. now apply L2. }
  rewrite (elements_finite _ _ F1), (elements_finite _ _ F3). cbn [map_da nrows ncols]. rewrite <- E1, <- E2.
  change (@da_max _ (F32 m)) with (@da_max _ RN). change (@da_min _ (F32 m)) with (@da_min _ RN).
  destruct (fold_max_R (real_elements (nrows lon) (ncols lon) (fun i j => Rabs (vlat i j)))) as (m1 & -> & M1).
  destruct (fold_max_R (real_elements (nrows lon) (ncols lon) vlon)) as (m2 & -> & M2).
  destruct (fold_min_R (real_elements (nrows lon) (ncols lon) vlon)) as (m3 & -> & M3).
  assert (Ne : forall v, real_elements (nrows lon) (ncols lon) v <> []).
  { intros v H. assert (X : In (v 0%nat 0%nat) (real_elements (nrows lon) (ncols lon) v)) by (apply In_real_elements; exists 0%nat, 0%nat; repeat split; lia).
    rewrite H in X. contradiction. }
  destruct m1 as [[m1|]|]; [|contradiction|exfalso; eapply Ne; eauto].
  destruct m2 as [[m2|]|]; [|contradiction|exfalso; eapply Ne; eauto].
  destruct m3 as [[m3|]|]; [|contradiction|exfalso; eapply Ne; eauto].
  destruct M1 as [A1 B1], M2 as [A2 B2], M3 as [A3 B3].
  apply In_real_elements in A1 as (i1 & j1 & Hi1 & Hj1 & <-). apply In_real_elements in A2 as (i2 & j2 & Hi2 & Hj2 & <-).
  apply In_real_elements in A3 as (i3 & j3 & Hi3 & Hj3 & <-).
  pose proof (nz_32 180 ltac:(lia)) as Z180. rewrite Z180.
  cbn [nltb nsub F32 FN liftb bind2].
  destruct (L1 i2 j2 Hi2 Hj2) as [_ K2]. destruct (L1 i3 j3 Hi3 Hj3) as [_ K3].
  assert (FB : fit b32 (vlon i2 j2 - vlon i3 j3) = Some (rd b32 (vlon i2 j2 - vlon i3 j3))).
  { apply (fit_bound b32 _ 2000 good_b32 ltac:(cbn; lia) ltac:(lia)). apply Rabs_le. apply Rabs_le_inv in K2. apply Rabs_le_inv in K3. lra. }
  rewrite FB. cbn [liftb].
  assert (G180 : forall x, x <= 180 -> rd b32 x <= 180).
  { intros x Hx. apply rd_le_gf; [apply good_b32| |exact Hx]. apply gfI; auto using good_b32; cbn; lia. }
  assert (S180 : forall x, 180 + bpow radix2 (-16) <= x -> 180 < rd b32 x).
  { intros x Hx. apply Rlt_le_trans with (180 + bpow radix2 (-16)); [pose proof (bpow_gt_0 radix2 (-16)); lra|].
    apply rd_ge_gf; [apply good_b32| |exact Hx].
    pose proof (float_dyadic (180 * 2 ^ 16 + 1) 16 ltac:(cbn; lia) ltac:(lia)) as K.
    replace (180 + bpow radix2 (-16)) with (IZR (180 * 2 ^ 16 + 1) * bpow radix2 (- (16))); [apply K|].
    rewrite plus_IZR, mult_IZR. change (2 ^ 16)%Z with 65536%Z. bp. change (2 ^ (- - (16)))%Z with 65536%Z. change (2 ^ (- (-16)))%Z with 65536%Z. lra. }
  split; [|split].
  - intros [S1 S2]. apply orb_false_iff. split; apply not_true_iff_false; rewrite Rltb_true; apply Rle_not_lt; [now apply S1|]. apply G180. now apply S2.
  - intros i j Hi Hj H. apply orb_true_iff. left. apply Rltb_true.
    assert (X : Rabs (vlat i j) <= Rabs (vlat i1 j1)) by (apply B1, In_real_elements; eauto). lra.
  - intros i j k l Hi Hj Hk Hl H. apply orb_true_iff. right. apply Rltb_true. apply S180.
    assert (X : vlon i j <= vlon i2 j2) by (apply B2, In_real_elements; eauto 6).
    assert (Y : vlon i3 j3 <= vlon k l) by (apply B3, In_real_elements; eauto 6). lra.
Qed.


Hypothesis HA : accurate b32 m.
Lemma near_angle_32 v : Rabs v <= 180 -> near b32 (@deg2rad _ (F32 m) (Some v)) (v * (PI / 180)) (91 / 100000000) /\ Rabs (v * (PI / 180)) <= 3.2.
Proof.
  intros H. destruct (ang_eq b32 b32 pi32 pi32 d32 m fine_32 fine_32 factor_32 v H) as [E1 E]. 
  pose proof (ang_err b32 b32 pi32 pi32 d32 fine_32 fine_32 factor_32 v H) as A. pose proof PI_bounds as P.
  pose proof (ang_fl b32 b32 pi32 pi32 d32 fine_32 fine_32 factor_32 v H) as F.
  assert (Q : ang b32 b32 d32 v = rd b32 (v * d32)).
  { rewrite E1 in E. change (@nst _ (FW b32 b32 pi32 m) (Some (rd b32 (v * d32)))) with (fit b32 (rd b32 (v * d32))) in E.
    apply (fit_inv b32 good_b32) in E as [E _]. rewrite E. apply round_generic; [apply valid_rnd_N|]. apply rd_gf, good_b32. }
  change (FW b32 b32 pi32 m) with (F32 m) in E1. split.
  - exists (ang b32 b32 d32 v). split; [now rewrite E1, Q|]. split; [exact F|]. eapply Rle_trans; [exact A|].
    cbn [fprec b32]. bp. change (2 ^ (- - (24)))%Z with 16777216%Z. lra.
  - rewrite Rabs_mult, (Rabs_pos_eq (PI / 180)) by lra. apply Rle_trans with (180 * (PI / 180)); [apply Rmult_le_compat_r; lra|lra].
Qed.

(** the float nearest to the radius *)
Lemma radius_32 : @MEAN_EARTH_RADIUS _ (F32 m) = Some 6371009 /\ rd b32 Rm = 6371009.
Proof.
  assert (R1 : rd b32 (IZR 63710087714) = IZR 15554221 * bpow radix2 12).
  { rewrite (rd_eq b32 _ 36 15554221); cbn [fprec femin b32]; [reflexivity|..]; try lia.
    - change (bpow radix2 (36 - 1)) with 34359738368. change (bpow radix2 36) with 68719476736. lra.
    - change (24 - 36)%Z with (-12)%Z. replace (bpow radix2 (-12)) with (/ 4096) by (bp; reflexivity). apply Rabs_def1; lra. }
  change (bpow radix2 12) with 4096 in R1.
  assert (K : forall x, 6371008.75 < x < 6371009.25 -> rd b32 x = 6371009).
  { intros x Hx. rewrite (rd_eq b32 _ 23 12742018); cbn [fprec femin b32]; [..|lia|].
    - change (23 - 24)%Z with (-1)%Z. replace (bpow radix2 (-1)) with (/ 2) by (bp; reflexivity). lra.
    - change (bpow radix2 (23 - 1)) with 4194304. change (bpow radix2 23) with 8388608. lra.
    - change (24 - 23)%Z with 1%Z. change (bpow radix2 1) with 2. apply Rabs_def1; lra. }
  split; [|apply K; unfold Rm; lra].
  unfold MEAN_EARTH_RADIUS. cbn [ndiv nz F32 FN]. rewrite (fit_IZR b32 10000) by (auto using good_b32; cbn; lia).
  rewrite (fit_some b32 good_b32 (IZR 63710087714) 36 ltac:(cbn; lia)), R1 by (change (bpow radix2 36) with 68719476736; rewrite Rabs_pos_eq; lra).
  cbn [bind2]. destruct (Req_EM_T 10000 0) as [D|_]; [lra|].
  rewrite (fit_some b32 good_b32 _ 23 ltac:(cbn; lia)), K; [reflexivity|lra|]. change (bpow radix2 23) with 8388608. rewrite Rabs_pos_eq; lra.
Qed.

Lemma near_xyz_32 lon lat : Rabs lon <= 180 -> Rabs lat <= 90 ->
  exists x y z, @vii_lonlat2xyz _ (F32 m) (Some lon) (Some lat) = (x, y, z) /\ near b32 x (pos_x lon lat) 16 /\ near b32 y (pos_y lon lat) 16 /\ near b32 z (pos_z lon lat) 16.
Proof.
  intros Hlon Hlat. destruct (near_angle_32 lon Hlon) as [Nl Bl]. destruct (near_angle_32 lat ltac:(lra)) as [Np Bp]. pose proof eps_32 as E.
  assert (Ac : forall x, Rabs (cos x) <= 1) by (intros; apply Rabs_le, COS_bound).
  assert (As : forall x, Rabs (sin x) <= 1) by (intros; apply Rabs_le, SIN_bound).
  destruct radius_32 as [Er _].
  assert (Nr : near b32 (@MEAN_EARTH_RADIUS _ (F32 m)) Rm (1 / 4)).
  { exists 6371009. split; [exact Er|]. split; [|unfold Rm; apply Rabs_le; lra].
    pose proof (float_dyadic 6371009 0 ltac:(cbn; lia) ltac:(lia)) as K. cbn [Z.opp bpow] in K. now rewrite Rmult_1_r in K. }
  unfold vii_lonlat2xyz. do 3 eexists. split; [reflexivity|].
  set (lr := @deg2rad _ (F32 m) (Some lon)) in *. set (pr := @deg2rad _ (F32 m) (Some lat)) in *.
  set (l := lon * (PI / 180)) in *. set (p := lat * (PI / 180)) in *.
  set (e1 := 103 / 100000000).
  assert (Cp : near b32 (@ncos _ (F32 m) pr) (cos p) e1) by (eapply FloatNear.near_weaken; [|apply (near_cos b32 b32 pi32 m fine_32 HA _ _ _ Np)]; unfold e1; lra).
  assert (Sp : near b32 (@nsin _ (F32 m) pr) (sin p) e1) by (eapply FloatNear.near_weaken; [|apply (near_sin b32 b32 pi32 m fine_32 HA _ _ _ Np)]; unfold e1; lra).
  assert (Cl : near b32 (@ncos _ (F32 m) lr) (cos l) e1) by (eapply FloatNear.near_weaken; [|apply (near_cos b32 b32 pi32 m fine_32 HA _ _ _ Nl)]; unfold e1; lra).
  assert (Sl : near b32 (@nsin _ (F32 m) lr) (sin l) e1) by (eapply FloatNear.near_weaken; [|apply (near_sin b32 b32 pi32 m fine_32 HA _ _ _ Nl)]; unfold e1; lra).
  assert (R1 : Rabs Rm <= Rm) by (unfold Rm; rewrite Rabs_pos_eq; lra).
  set (e2 := 75 / 10).
  assert (RC : near b32 (@nmul _ (F32 m) (@MEAN_EARTH_RADIUS _ (F32 m)) (@ncos _ (F32 m) pr)) (Rm * cos p) e2).
  { eapply FloatNear.near_weaken; [|apply (near_mul b32 b32 pi32 m fine_32 _ _ _ _ _ _ Rm 1 6371030 Nr Cp R1 (Ac p))]; unfold e1, e2, Rm, big; lra. }
  assert (RS : near b32 (@nmul _ (F32 m) (@MEAN_EARTH_RADIUS _ (F32 m)) (@nsin _ (F32 m) pr)) (Rm * sin p) e2).
  { eapply FloatNear.near_weaken; [|apply (near_mul b32 b32 pi32 m fine_32 _ _ _ _ _ _ Rm 1 6371030 Nr Sp R1 (As p))]; unfold e1, e2, Rm, big; lra. }
  assert (B1 : Rabs (Rm * cos p) <= Rm).
  { rewrite Rabs_mult, (Rabs_pos_eq Rm) by (unfold Rm; lra). specialize (Ac p). unfold Rm. lra. }
  split; [|split].
  - eapply FloatNear.near_weaken; [|apply (near_mul b32 b32 pi32 m fine_32 _ _ _ _ _ _ Rm 1 6371040 RC Cl B1 (Ac l))]; unfold e1, e2, Rm, big; lra.
  - eapply FloatNear.near_weaken; [|apply (near_mul b32 b32 pi32 m fine_32 _ _ _ _ _ _ Rm 1 6371040 RC Sl B1 (As l))]; unfold e1, e2, Rm, big; lra.
  - eapply FloatNear.near_weaken; [|exact RS]; unfold e2; lra.
Qed.
End Geo.

Lemma floats_le data v B D B' D' : floats data v B D -> B <= B' -> D <= D' -> floats data v B' D'.
Proof.
  intros (F & L & H) HB HD. split; [exact F|]. split; [|intros i k Hi Hk; specialize (H i k Hi Hk); lra].
  intros i k Hi Hk. destruct (L i k Hi Hk). split; [assumption|lra].
Qed.
Lemma four_close v w i c t u e : 0 <= t <= 1 -> 0 <= u <= 1 ->
  (forall i' k, (i' = i \/ i' = i + 1)%nat -> (k = c \/ k = c + 1)%nat -> Rabs (v i' k - w i' k) <= e) -> Rabs (four v i c t u - four w i c t u) <= e.
Proof.
  intros Ht Hu H. rewrite <- !bilin_four. unfold bilin. apply lin_close; [exact Hu|apply lin_close|apply lin_close]; auto.
Qed.

(** No latitude above the threshold and longitudes within 180 degrees: longitude and latitude of every pixel are doubles, the
    bilinear interpolations up to 2^-24 times the largest difference of tie points below each other and 3 * 10^-13 degrees. *)
Theorem C140_geodetic : forall m nan lon lat vlon vlat Dlon Dlat s f n_scans thr zt,
  floats lon vlon 180 Dlon -> floats lat vlat 90 Dlat -> Dlon <= 360 -> Dlat <= 180 ->
  args_ok [lon; lat] s f n_scans -> (Z.of_nat f <= 10000)%Z -> safe_lonlat lon vlon vlat thr ->
  exists olon olat, tie_points_geo_interpolation_32 (F32 m) (F64 m) nan lon lat s f (Some thr) zt = Ok (olon, olat) /\
    forall j r a c b, (j < n_scans)%nat -> (r < s - 1)%nat -> (a < f)%nat -> (c < ncols lon - 1)%nat -> (b < f)%nat ->
      let t := INR a / INR f in let u := INR b / INR f in
      near b64 (at_ olon (j * (s - 1) * f + r * f + a)%nat (c * f + b)%nat) (four vlon (j * s + r) c t u) (bpow radix2 (-24) * Dlon + 3 / 10000000000000) /\
      near b64 (at_ olat (j * (s - 1) * f + r * f + a)%nat (c * f + b)%nat) (four vlat (j * s + r) c t u) (bpow radix2 (-24) * Dlat + 3 / 10000000000000).
Proof.
  intros m nan lon lat vlon vlat Dlon Dlat s f n_scans thr zt D1 D2 L1 L2 Ha Hf Hs.
  pose proof Ha as (first & rest & [= <- <-] & Hs2 & Hf1 & Hn & Hr & Hc & Hd).
  assert (D : shape_eqb lat lon = true) by (rewrite Forall_forall in Hd; apply (Hd lat); right; now left).
  apply shape_eqb_eq in D as [E1 E2].
  assert (R1 : (1 <= nrows lon)%nat) by nia.
  destruct (mode_32 m lon lat vlon vlat thr 180 Dlon Dlat D1 (floats_le lat vlat 90 Dlat 180 Dlat D2 ltac:(lra) ltac:(lra)) ltac:(lra) R1 ltac:(lia) (eq_sym E1) (eq_sym E2)) as (TC & _).
  specialize (TC Hs). destruct (interpolation_ok_32 (F32 m) (F64 m) nan _ _ _ _ Ha) as (outs & E & P).
  inversion P as [|? olon ? ? P1 P']; subst. inversion P' as [|? olat ? ? P2 P'']; subst. inversion P''; subst.
  exists olon, olat. split.
  { unfold tie_points_geo_interpolation_32. rewrite (proj2 (shape_eqb_eq lon lat)) by auto. cbn [negb].
    destruct (Nat.eqb_spec (nrows lat) 0); [lia|]. destruct (Nat.eqb_spec (ncols lat) 0); [lia|]. cbn [orb].
    rewrite TC, E. reflexivity. }
  assert (Q1 : yields_32 m nan [lon; lat] s f n_scans lon olon) by (split; [exact Ha|]; exists [olon; olat], 0%nat; auto).
  assert (Q2 : yields_32 m nan [lon; lat] s f n_scans lat olat) by (split; [exact Ha|]; exists [olon; olat], 1%nat; auto).
  assert (T : bpow radix2 (-53) = / 9007199254740992) by (bp; reflexivity).
  intros j r a c b Hj Hrr Haf Hcc Hb. cbv zeta. split.
  - eapply FloatNear.near_weaken; [|apply (C140_pixels m nan [lon; lat] s f n_scans lon olon vlon 180 Dlon j r a c b Q1 D1 Hf ltac:(lra) ltac:(lra) Hj Hrr Haf Hcc Hb)]. rewrite T. lra.
  - eapply FloatNear.near_weaken; [|apply (C140_pixels m nan [lon; lat] s f n_scans lat olat vlat 90 Dlat j r a c b Q2 D2 Hf ltac:(lra) ltac:(lra) Hj Hrr Haf ltac:(lia) Hb)]. rewrite T. lra.
Qed.
Print Assumptions C140_geodetic.

Lemma moved_32 x y z px py pz : fl b64 x -> fl b64 y -> fl b64 z -> Rabs (x - px) <= 17 -> Rabs (y - py) <= 17 -> Rabs (z - pz) <= 17 ->
  px * px + py * py + pz * pz <= Rm * Rm -> 18 <= Rabs px \/ 18 <= Rabs py -> position b64 6371008 x y z.
Proof.
  intros Fx Fy Fz Dx Dy Dz N A. split; [exact Fx|]. split; [exact Fy|]. split; [exact Fz|]. split.
  - assert (Q : forall a b, Rabs (a - b) <= 17 -> a * a <= 11 / 10 * (b * b) + 11 * (17 * 17)).
    { intros a b H. apply Rabs_le_inv in H. pose proof (Rle_0_sqr ((a - b) - b / 10)) as K. unfold Rsqr in K. nra. }
    pose proof (Q _ _ Dx). pose proof (Q _ _ Dy). pose proof (Q _ _ Dz). unfold Rm in N. lra.
  - assert (T : bpow radix2 (-60) <= 1) by (bp; change (2 ^ (- -60))%Z with 1152921504606846976%Z; lra).
    assert (Q : forall a b, Rabs (a - b) <= 17 -> 18 <= Rabs b -> bpow radix2 (-60) <= Rabs a).
    { intros a b H H2. pose proof (Rabs_triang_inv b a) as K. rewrite Rabs_minus_sym in K. lra. }
    destruct A as [A|A]; [left|right]; eapply Q; eauto.
Qed.

(** Otherwise the position of every pixel is within 17 m, in each coordinate, of the bilinear interpolation of the positions of the
    tie points; longitude and latitude are those of the computed position up to 0.000005 degrees, more than 18 m away from the
    axis of the Earth. *)
Theorem C140_cartesian : forall m nan lon lat vlon vlat Dlon Dlat s f n_scans thr zt,
  in_range b64 pi64 m -> accurate b64 m -> accurate b32 m -> 7 / 10 <= zt <= 9 / 10 ->
  floats lon vlon 180 Dlon -> floats lat vlat 90 Dlat -> args_ok [lon; lat] s f n_scans -> (Z.of_nat f <= 10000)%Z ->
  (exists i j, (i < nrows lon)%nat /\ (j < ncols lon)%nat /\ thr < Rabs (vlat i j)) \/
  (exists i j k l, (i < nrows lon)%nat /\ (j < ncols lon)%nat /\ (k < nrows lon)%nat /\ (l < ncols lon)%nat /\ 180 + bpow radix2 (-16) <= vlon i j - vlon k l) ->
  exists olon olat, tie_points_geo_interpolation_32 (F32 m) (F64 m) nan lon lat s f (Some thr) (Some zt) = Ok (olon, olat) /\
    forall j r a c b, (j < n_scans)%nat -> (r < s - 1)%nat -> (a < f)%nat -> (c < ncols lon - 1)%nat -> (b < f)%nat ->
      let place (p : R -> R -> R) := four (fun i k => p (vlon i k) (vlat i k)) (j * s + r) c (INR a / INR f) (INR b / INR f) in
      let ll := (at_ olon (j * (s - 1) * f + r * f + a)%nat (c * f + b)%nat, at_ olat (j * (s - 1) * f + r * f + a)%nat (c * f + b)%nat) in
      exists x y z, Rabs (x - place pos_x) <= 17 /\ Rabs (y - place pos_y) <= 17 /\ Rabs (z - place pos_z) <= 17 /\
        ll = @vii_xyz2lonlat _ (F64 m) (Some zt) (Some x, Some y, Some z) /\
        (18 <= Rabs (place pos_x) \/ 18 <= Rabs (place pos_y) ->
         exists radius, Rabs (radius - Rm) <= / 1000000000 /\ near_exact radius zt (5 / 1000000) x y z ll).
Proof.
  intros m nan lon lat vlon vlat Dlon Dlat s f n_scans thr zt HR HA HA32 Hzt D1 D2 Ha Hf Hs.
  pose proof Ha as (first & rest & [= <- <-] & Hs2 & Hf1 & Hn & Hr & Hc & Hd).
  assert (D : shape_eqb lat lon = true /\ dims_eqb lat lon = true) by (rewrite Forall_forall in Hd; apply (Hd lat); right; now left).
  destruct D as [D0 D3]. apply shape_eqb_eq in D0 as [E1 E2]. apply dims_eqb_eq in D3.
  assert (R1 : (1 <= nrows lon)%nat) by nia.
  destruct (mode_32 m lon lat vlon vlat thr 180 Dlon Dlat D1 (floats_le lat vlat 90 Dlat 180 Dlat D2 ltac:(lra) ltac:(lra)) ltac:(lra) R1 ltac:(lia) (eq_sym E1) (eq_sym E2)) as (_ & TA & TB).
  assert (TC : @to_cart _ (F32 m) lon lat (Some thr) = true).
  { destruct Hs as [(i & j & Hi & Hj & L)|(i & j & k & l & Hi & Hj & Hk & Hl & L)]; eauto. }
  set (xyz := zip_da (@vii_lonlat2xyz _ (F32 m)) lon lat).
  set (x := map_da (fun p => fst (fst p)) xyz). set (y := map_da (fun p => snd (fst p)) xyz). set (z := map_da snd xyz).
  assert (Hx : args_ok [x; y; z] s f n_scans).
  { exists x, [y; z]. repeat split; auto. repeat constructor; try (apply shape_eqb_eq; auto); apply dims_eqb_eq; reflexivity. }
  destruct (interpolation_ok_32 (F32 m) (F64 m) nan _ _ _ _ Hx) as (outs & E & P).
  inversion P as [|? ox ? ? P1 P']; subst. inversion P' as [|? oy ? ? P2 P'']; subst. inversion P'' as [|? oz ? ? P3 P3']; subst. inversion P3'; subst.
  eexists. eexists. split.
  { unfold tie_points_geo_interpolation_32, align_longitude. rewrite (proj2 (shape_eqb_eq lon lat)), (proj2 (dims_eqb_eq lon lat)) by auto. cbn [negb].
    destruct (Nat.eqb_spec (nrows lat) 0); [lia|]. destruct (Nat.eqb_spec (ncols lat) 0); [lia|]. cbn [orb].
    rewrite TC. cbn [bind]. fold xyz. fold x y z. rewrite E. cbn [bind]. reflexivity. }
  assert (YX : yields_32 m nan [x; y; z] s f n_scans x ox) by (split; [exact Hx|]; exists [ox; oy; oz], 0%nat; auto).
  assert (YY : yields_32 m nan [x; y; z] s f n_scans y oy) by (split; [exact Hx|]; exists [ox; oy; oz], 1%nat; auto).
  assert (YZ : yields_32 m nan [x; y; z] s f n_scans z oz) by (split; [exact Hx|]; exists [ox; oy; oz], 2%nat; auto).
  assert (NX : forall i k, (i < nrows lon)%nat -> (k < ncols lon)%nat ->
    near b32 (at_ x i k) (pos_x (vlon i k) (vlat i k)) 16 /\ near b32 (at_ y i k) (pos_y (vlon i k) (vlat i k)) 16 /\ near b32 (at_ z i k) (pos_z (vlon i k) (vlat i k)) 16).
  { intros i k Hi Hk. unfold x, y, z, xyz. cbn [map_da zip_da at_]. destruct D1 as (F1 & G1 & _), D2 as (F2 & G2 & _). rewrite F1, F2 by lia.
    destruct (near_xyz_32 m HA32 (vlon i k) (vlat i k)) as (a1 & a2 & a3 & -> & K); [apply G1; lia|apply G2; lia|]. exact K. }
  assert (T53 : bpow radix2 (-53) = / 9007199254740992) by (bp; reflexivity). assert (T24 : bpow radix2 (-24) = / 16777216) by (bp; reflexivity).
  intros j r a c b Hj Hrr Haf Hcc Hb place ll.
  set (i0 := (j * (s - 1) * f + r * f + a)%nat) in *. set (k0 := (c * f + b)%nat) in *.
  assert (T1 : 0 <= INR a / INR f <= 1) by (pose proof (frac_bounds a f Haf) as K; unfold frac in K; lra).
  assert (T2 : 0 <= INR b / INR f <= 1) by (pose proof (frac_bounds b f Hb) as K; unfold frac in K; lra).
  destruct (neighbours s n_scans (ncols lon) j r a c b Hj Hrr Hcc) as (_ & _ & N3).
  (* one coordinate *)
  assert (V : forall (w ow : darray (option R)) p, nrows w = nrows lon -> ncols w = ncols lon -> yields_32 m nan [x; y; z] s f n_scans w ow ->
    (forall lo la, Rabs (p lo la) <= Rm) ->
    (forall i k, (i < nrows lon)%nat -> (k < ncols lon)%nat -> near b32 (at_ w i k) (p (vlon i k) (vlat i k)) 16) -> near b64 (at_ ow i0 k0) (place p) 17).
  { intros w ow p Rw Cw Yw Bp Np.
    set (v := fun i k => match at_ w i k with Some q => q | None => 0 end).
    assert (Nv : forall i k, (i < nrows lon)%nat -> (k < ncols lon)%nat -> at_ w i k = Some (v i k) /\ fl b32 (v i k) /\ Rabs (v i k - p (vlon i k) (vlat i k)) <= 16).
    { intros i k Hi Hk. destruct (Np i k Hi Hk) as (q & Eq & Fq & Dq). unfold v. rewrite Eq. auto. }
    assert (Bv : forall i k, (i < nrows lon)%nat -> (k < ncols lon)%nat -> Rabs (v i k) <= Rm + 16).
    { intros i k Hi Hk. destruct (Nv i k Hi Hk) as (_ & _ & Dq). specialize (Bp (vlon i k) (vlat i k)).
      replace (v i k) with ((v i k - p (vlon i k) (vlat i k)) + p (vlon i k) (vlat i k)) by ring. eapply Rle_trans; [apply Rabs_triang|]. lra. }
    assert (Fv : floats w v (Rm + 16) (2 * (Rm + 16))).
    { split; [intros i k Hi Hk; apply Nv; lia|]. split; [intros i k Hi Hk; split; [apply Nv; lia|apply Bv; lia]|].
      intros i k Hi Hk. unfold Rminus. eapply Rle_trans; [apply Rabs_triang|]. rewrite Rabs_Ropp.
      pose proof (Bv i k ltac:(lia) ltac:(lia)). pose proof (Bv (i + 1)%nat k ltac:(lia) ltac:(lia)). lra. }
    pose proof (C140_pixels m nan [x; y; z] s f n_scans w ow v (Rm + 16) (2 * (Rm + 16)) j r a c b Yw Fv Hf ltac:(unfold Rm; lra) ltac:(lra) Hj Hrr Haf ltac:(lia) Hb) as K.
    fold i0 k0 in K. eapply near_move; [|exact K].
    assert (Rabs (four v (j * s + r) c (INR a / INR f) (INR b / INR f) - place p) <= 16).
    { apply four_close; [exact T1|exact T2|]. intros i' k Hi' Hk. apply Nv; lia. }
    rewrite T24, T53. unfold Rm. lra. }
  destruct (V x ox pos_x eq_refl eq_refl YX (fun lo la => proj1 (pos_bound lo la)) (fun i k Hi Hk => proj1 (NX i k Hi Hk))) as (px & EX & FX & DX).
  destruct (V y oy pos_y eq_refl eq_refl YY (fun lo la => proj1 (proj2 (pos_bound lo la))) (fun i k Hi Hk => proj1 (proj2 (NX i k Hi Hk)))) as (py & EY & FY & DY).
  destruct (V z oz pos_z eq_refl eq_refl YZ (fun lo la => proj2 (proj2 (pos_bound lo la))) (fun i k Hi Hk => proj2 (proj2 (NX i k Hi Hk)))) as (pz & EZ & FZ & DZ).
  exists px, py, pz. split; [exact DX|]. split; [exact DY|]. split; [exact DZ|].
  assert (EL : ll = @vii_xyz2lonlat _ (F64 m) (Some zt) (Some px, Some py, Some pz)).
  { unfold ll. cbn [map_da zip_da at_ fst snd]. rewrite EX, EY, EZ. destruct (vii_xyz2lonlat (Some zt) (Some px, Some py, Some pz)). reflexivity. }
  split; [exact EL|]. intros AX. rewrite EL. apply C72_vii; auto.
  apply (moved_32 px py pz (place pos_x) (place pos_y) (place pos_z)); auto.
  apply (place_norm (fun i k => (vlon i k, vlat i k)) (j * s + r) c (INR a / INR f) (INR b / INR f) T1 T2).
Qed.
Print Assumptions C140_cartesian.

(** Errors: a call on float32 arrays fails exactly when, and with the error with which, the call on doubles fails (whatever the arithmetic). *)
Lemma mapM_errors {A B C} (f : A -> res B) (g : A -> res C) l : (forall a e, f a = Err e <-> g a = Err e) -> forall e, mapM f l = Err e <-> mapM g l = Err e.
Proof.
  intros H. induction l as [|a l IH]; intros e; cbn [mapM]; [split; discriminate|].
  pose proof (H a) as Ha. destruct (f a) as [x|x], (g a) as [y|y]; cbn [bind].
  - destruct (mapM f l) as [u|u], (mapM g l) as [w|w]; cbn [bind].
    + split; discriminate.
    + exfalso. pose proof (proj2 (IH w) eq_refl). discriminate.
    + exfalso. pose proof (proj1 (IH u) eq_refl). discriminate.
    + pose proof (proj1 (IH u) eq_refl) as K. injection K as ->. split; intros [= ->]; reflexivity.
  - exfalso. pose proof (proj2 (Ha y) eq_refl). discriminate.
  - exfalso. pose proof (proj1 (Ha x) eq_refl). discriminate.
  - pose proof (proj1 (Ha x) eq_refl) as K. injection K as ->. split; intros [= ->]; reflexivity.
Qed.
Theorem C140_errors : forall T (N32 N64 : NumOps T) nan datas s f e,
  tie_points_interpolation_32 N32 N64 nan datas s f = Err e <-> @tie_points_interpolation _ N64 nan datas s f = Err e.
Proof.
  intros T N32 N64 nan datas s f e. unfold tie_points_interpolation_32, tie_points_interpolation, tie_points_with.
  destruct datas as [|first rest]; [reflexivity|]. destruct (s =? 0)%nat; [reflexivity|]. destruct (negb _); [reflexivity|].
  destruct (f =? 0)%nat; [reflexivity|]. destruct (_ =? 0)%Z; [reflexivity|]. apply mapM_errors. intros d e'.
  destruct (_ || _); [reflexivity|]. unfold interp_rows, interp_cols. destruct (length _ =? 0)%nat; cbn [bind]; [reflexivity|].
  destruct (length _ =? 0)%nat; [reflexivity|]. split; discriminate.
Qed.
Print Assumptions C140_errors.

(** ** Cases: the tie points of C89 as floats; latitudes 40 and 40.5 *)
Lemma float_int n : (Z.abs n < 2 ^ 24)%Z -> fl b32 (IZR n).
Proof. intros H. pose proof (float_dyadic n 0 H ltac:(lia)) as K. cbn [Z.opp bpow] in K. now rewrite Rmult_1_r in K. Qed.
Lemma ex32_ok : floats ex64_lon across 180 0 /\ floats ex64_lat (fun _ _ => 0) 90 0.
Proof.
  split.
  - split; [intros i k _ _; reflexivity|]. split.
    + intros i k _ _. unfold across. destruct (k =? 0)%nat; (split; [apply float_int; lia|]); [rewrite Rabs_pos_eq; lra|]. replace (-180) with (- (180)) by lra. rewrite Rabs_Ropp, Rabs_pos_eq; lra.
    + intros i k _ _. unfold across. rewrite Rminus_diag_eq by reflexivity. rewrite Rabs_R0. lra.
  - split; [intros i k _ _; reflexivity|]. split; intros i k _ _; [split; [apply float_int; lia|]|]; rewrite ?Rminus_0_r, Rabs_R0; lra.
Qed.
Example C140_case : forall m, in_range b64 pi64 m -> accurate b64 m -> accurate b32 m -> exists olon olat,
  tie_points_geo_interpolation_32 (F32 m) (F64 m) None ex64_lon ex64_lat 2 8 (Some 60) (Some (3 / 4)) = Ok (olon, olat) /\
  exists x y z, Rabs (x + Rm) <= 17 /\ Rabs y <= 17 /\ Rabs z <= 17 /\
    exists radius, Rabs (radius - Rm) <= / 1000000000 /\ near_exact radius (3 / 4) (5 / 1000000) x y z (at_ olon 2 4, at_ olat 2 4).
Proof.
  intros m HR HA HA32. destruct ex32_ok as (D1 & D2). destruct ex64_ok as (_ & _ & A).
  destruct (C140_cartesian m None ex64_lon ex64_lat across (fun _ _ => 0) 0 0 2 8 1 60 (3 / 4) HR HA HA32 ltac:(lra) D1 D2 A ltac:(lia)) as (olon & olat & E & K).
  { right. exists 0%nat, 0%nat, 0%nat, 1%nat. cbn. repeat split; try lia. unfold across. cbn [Nat.eqb].
    assert (H : bpow radix2 (-16) <= 1) by (apply (bpow_le radix2 (-16) 0); lia). cbn [bpow] in *. lra. }
  exists olon, olat. split; [exact E|].
  specialize (K 0 0 2 0 4 ltac:(lia) ltac:(lia) ltac:(lia) ltac:(cbn; lia) ltac:(lia))%nat. cbv zeta in K.
  set (place := fun p : R -> R -> R => four (fun i k => p (across i k) 0) (0 * 2 + 0) 0 (INR 2 / INR 8) (INR 4 / INR 8)) in K.
  assert (PX : forall i k, pos_x (across i k) 0 = - Rm).
  { intros i k. unfold pos_x, across. rewrite Rmult_0_l, cos_0. destruct (k =? 0)%nat.
    - replace (180 * (PI / 180)) with PI by field. rewrite cos_PI. ring.
    - replace (-180 * (PI / 180)) with (- PI) by field. rewrite cos_neg, cos_PI. ring. }
  assert (PY : forall i k, pos_y (across i k) 0 = 0).
  { intros i k. unfold pos_y, across. destruct (k =? 0)%nat.
    - replace (180 * (PI / 180)) with PI by field. rewrite sin_PI. ring.
    - replace (-180 * (PI / 180)) with (- PI) by field. rewrite sin_neg, sin_PI. ring. }
  assert (PZ : forall i k, pos_z (across i k) 0 = 0) by (intros; unfold pos_z; rewrite Rmult_0_l, sin_0; ring).
  assert (EX : place pos_x = - Rm) by (unfold place, four; rewrite !PX; ring).
  assert (EY : place pos_y = 0) by (unfold place, four; rewrite !PY; ring).
  assert (EZ : place pos_z = 0) by (unfold place, four; rewrite !PZ; ring).
  destruct K as (x & y & z & Dx & Dy & Dz & _ & N). rewrite EX in Dx, N. rewrite EY in Dy, N. rewrite EZ in Dz.
  exists x, y, z. split; [replace (x + Rm) with (x - - Rm) by ring; exact Dx|]. split; [now rewrite Rminus_0_r in Dy|]. split; [now rewrite Rminus_0_r in Dz|].
  apply N. left. rewrite Rabs_Ropp, Rabs_pos_eq; unfold Rm; lra.
Qed.
Definition half_rows (i k : nat) : R := if (i =? 0)%nat then 40 else 81 / 2.
Definition ex32_rows : darray (option R) := {| dims := (0, 1)%nat; nrows := 2; ncols := 2; at_ := fun i k => Some (half_rows i k) |}.
Lemma ex32_rows_ok : floats ex32_rows half_rows 90 (1 / 2) /\ similar ex32_rows half_rows /\ args_ok [ex32_rows; ex32_rows] 2 8 1.
Proof.
  assert (F : forall i k, fl b32 (half_rows i k)).
  { intros i k. unfold half_rows. destruct (i =? 0)%nat; [apply float_int; lia|].
    pose proof (float_dyadic 81 1 ltac:(lia) ltac:(lia)) as K. replace (81 / 2) with (81 * bpow radix2 (- (1))) by (bp; cbn; lra). exact K. }
  split; [|split].
  - split; [intros i k _ _; reflexivity|]. split.
    + intros i k _ _. split; [apply F|]. unfold half_rows. destruct (i =? 0)%nat; rewrite Rabs_pos_eq; lra.
    + intros i k Hi _. cbn in Hi. unfold half_rows. replace i with 0%nat by lia. cbn [Nat.add Nat.eqb]. rewrite Rabs_pos_eq; lra.
  - split; [intros i k _ _; reflexivity|]. split; [intros; apply F|]. intros i k Hi _. cbn in Hi. replace i with 0%nat by lia. unfold half_rows. cbn [Nat.add Nat.eqb]. left. lra.
  - exists ex32_rows, [ex32_rows]. split; [reflexivity|]. split; [lia|]. split; [lia|]. split; [lia|]. split; [reflexivity|]. split; [cbn; lia|]. repeat constructor.
Qed.
Example C140_case_geodetic : forall m, exists olon olat,
  tie_points_geo_interpolation_32 (F32 m) (F64 m) None ex32_rows ex32_rows 2 8 (Some 60) (Some (3 / 4)) = Ok (olon, olat) /\
  near b64 (at_ olat 2 4) (40 + / 8) (4 / 100000000).
Proof.
  intros m. destruct ex32_rows_ok as (D & _ & A).
  destruct (C140_geodetic m None ex32_rows ex32_rows half_rows half_rows (1 / 2) (1 / 2) 2 8 1 60 (Some (3 / 4)) (floats_le _ _ 90 _ 180 _ D ltac:(lra) (Rle_refl _)) D ltac:(lra) ltac:(lra) A ltac:(lia)) as (olon & olat & E & K).
  { split; [intros i k _ _|intros i k i' k' _ _ _ _]; unfold half_rows; [destruct (i =? 0)%nat; rewrite Rabs_pos_eq; lra|]. destruct (i =? 0)%nat, (i' =? 0)%nat; lra. }
  exists olon, olat. split; [exact E|]. destruct (K 0 0 2 0 4 ltac:(lia) ltac:(lia) ltac:(lia) ltac:(cbn; lia) ltac:(lia))%nat as [_ N].
  cbv zeta in N. cbn [Nat.mul Nat.add] in N. eapply FloatNear.near_weaken; [|replace (40 + / 8) with (four half_rows 0 0 (INR 2 / INR 8) (INR 4 / INR 8)); [exact N|]].
  - replace (bpow radix2 (-24)) with (/ 16777216) by (bp; reflexivity). lra.
  - unfold four, half_rows. cbn [Nat.add Nat.eqb]. rewrite !INR_IZR_INZ. cbn [Z.of_nat Pos.of_succ_nat Pos.succ]. field.
Qed.
Example C141_case : forall m, exists out out64, yields_32 m None [ex32_rows; ex32_rows] 2 8 1 ex32_rows out /\ yields (F64 m) None [ex32_rows; ex32_rows] 2 8 1 ex32_rows out64 /\
  at_ out 2 4 = at_ out64 2 4.
Proof.
  intros m. destruct ex32_rows_ok as (D & S & A).
  destruct (interpolation_ok_32 (F32 m) (F64 m) None _ _ _ _ A) as (outs & E & P). inversion P as [|? o1 ? ? P1 P']; subst.
  destruct (@interpolation_ok _ (F64 m) None _ _ _ _ A) as (outs & E6 & P6). inversion P6 as [|? o2 ? ? P2 P6']; subst.
  assert (Y : yields_32 m None [ex32_rows; ex32_rows] 2 8 1 ex32_rows o1) by (split; [exact A|]; eexists; exists 0%nat; eauto).
  assert (Y6 : yields (F64 m) None [ex32_rows; ex32_rows] 2 8 1 ex32_rows o2) by (split; [exact A|]; eexists; exists 0%nat; eauto).
  exists o1, o2. split; [exact Y|]. split; [exact Y6|].
  exact (C141_similar_partial m None _ _ 2 8 1 ex32_rows o1 o2 half_rows 0 0 2 0 4 Y Y6 S ltac:(lia) ltac:(lia) ltac:(lia) ltac:(cbn; lia) ltac:(lia))%nat.
Qed.
