(** VII interpolation on double arrays: rounding errors of one pixel. *)
From Coq Require Import ZArith List Bool Arith Lia Reals Lra.
From Flocq.Core Require Import Core.
From Verif Require Import Base Num Geo Float FloatGeo FloatAcc FloatTrip FloatNear Vii ViiProofs.
Open Scope R_scope.

Section D.
Variable m : libm.
#[local] Instance DM : NumOps (option R) := F64 m.
Local Notation nd := (near b64).
Local Notation ep := (eps b64).

(** neither tiny nor huge *)
Definition usual (B : R) : Prop := / 1000 <= B <= 100000000.

Lemma lin_close a b a' b' t e : 0 <= t <= 1 -> Rabs (a - a') <= e -> Rabs (b - b') <= e -> Rabs (lin a b t - lin a' b' t) <= e.
Proof.
  intros Ht Ha Hb. unfold lin. replace ((1 - t) * a + t * b - ((1 - t) * a' + t * b')) with ((1 - t) * (a - a') + t * (b - b')) by ring.
  eapply Rle_trans; [apply Rabs_triang|]. rewrite !Rabs_mult, (Rabs_pos_eq (1 - t)), (Rabs_pos_eq t) by lra.
  pose proof (Rabs_pos (a - a')). pose proof (Rabs_pos (b - b')). nra.
Qed.
Lemma lin_abs a b t B : 0 <= t <= 1 -> Rabs a <= B -> Rabs b <= B -> Rabs (lin a b t) <= B.
Proof.
  intros Ht Ha Hb. pose proof (lin_close a b 0 0 t B Ht) as K. unfold lin in K at 2. rewrite !Rminus_0_r in K.
  replace (lin a b t - ((1 - t) * 0 + t * 0)) with (lin a b t) in K by ring. auto.
Qed.

(** one line, exact neighbours [p], [q] at distance [F], position [d] from the first *)
Lemma line_exact (F d : nat) p q B : (1 <= Z.of_nat F <= 10000)%Z -> (d <= F)%nat -> fl b64 p -> fl b64 q -> Rabs p <= B -> Rabs q <= B ->
  / 1100 <= B <= 110000000 ->
  nd (nadd (nmul (ndiv (nsub (Some q) (Some p)) (nz (Z.of_nat F))) (nz (Z.of_nat d))) (Some p)) (lin p q (INR d / INR F)) (71 / 10 * ep * B).
Proof.
  intros HF Hd Fp Fq Bp Bq HB. pose proof eps_64 as E.
  assert (F1 : 1 <= INR F <= 10000).
  { rewrite INR_IZR_INZ. split; apply IZR_le; lia. }
  assert (D1 : 0 <= INR d <= INR F) by (split; [apply pos_INR|apply le_INR; lia]).
  assert (I : 0 < / INR F <= 1). { split; [apply Rinv_0_lt_compat; lra|]. rewrite <- Rinv_1. apply Rinv_le_contravar; lra. }
  assert (I' : / 10000 <= / INR F) by (apply Rinv_le_contravar; lra).
  assert (FI : INR F * / INR F = 1) by (apply Rinv_r; lra).
  pose proof (near_nz b64 b64 pi64 m fine_64 (Z.of_nat F) ltac:(lia)) as NF. rewrite <- INR_IZR_INZ in NF.
  pose proof (near_nz b64 b64 pi64 m fine_64 (Z.of_nat d) ltac:(lia)) as Nd. rewrite <- INR_IZR_INZ in Nd.
  (* difference *)
  assert (A1 : nd (nsub (Some q) (Some p)) (q - p) (0 + 0 + ep * (2 * B))).
  { apply (near_sub b64 b64 pi64 m fine_64); try (now apply near_0); [|unfold big; lra].
    unfold Rminus. eapply Rle_trans; [apply Rplus_le_compat_r, Rplus_le_compat_r, Rabs_triang|]. rewrite Rabs_Ropp. lra. }
  assert (Q : Rabs (q - p) <= 2 * B) by (unfold Rminus; eapply Rle_trans; [apply Rabs_triang|]; rewrite Rabs_Ropp; lra).
  (* slope *)
  set (M1 := 2 * B * (1 + ep) * / INR F).
  assert (A2 : nd (ndiv (nsub (Some q) (Some p)) (nz (Z.of_nat F))) ((q - p) / INR F) (((0 + 0 + ep * (2 * B)) + 2 * B * / INR F * 0) / INR F + ep * M1)).
  { apply (near_div b64 b64 pi64 m fine_64 _ _ _ _ _ _ (2 * B * / INR F) (INR F)); auto.
    - unfold Rdiv. rewrite Rabs_mult, (Rabs_pos_eq (/ INR F)) by lra. apply Rmult_le_compat_r; lra.
    - rewrite Rabs_pos_eq by lra. lra.
    - lra.
    - unfold M1. apply Req_le. field. lra.
    - assert (U : 2 * B <= 2 * B * (1 + ep) <= 3 * B) by nra. unfold M1, big. split.
      + apply Rle_trans with (2 * / 1100 * / 10000); [lra|]. apply Rmult_le_compat; lra.
      + apply Rle_trans with (3 * B * 1); [|lra]. apply Rmult_le_compat; lra. }
  set (e2 := ((0 + 0 + ep * (2 * B)) + 2 * B * / INR F * 0) / INR F + ep * M1) in A2.
  assert (E2 : INR F * e2 = 2 * ep * B * (2 + ep)) by (unfold e2, M1; field; lra).
  assert (P2 : 0 <= e2) by (exact (near_pos _ _ _ _ A2)).
  (* product *)
  set (M3 := 2 * B * (1 + 3 * ep)).
  assert (A3 : nd (nmul (ndiv (nsub (Some q) (Some p)) (nz (Z.of_nat F))) (nz (Z.of_nat d))) ((q - p) / INR F * INR d)
    (2 * B * / INR F * 0 + INR F * e2 + e2 * 0 + ep * M3)).
  { apply (near_mul b64 b64 pi64 m fine_64); auto.
    - unfold Rdiv. rewrite Rabs_mult, (Rabs_pos_eq (/ INR F)) by lra. apply Rmult_le_compat_r; lra.
    - rewrite Rabs_pos_eq; lra.
    - rewrite E2. replace (2 * B * / INR F * INR F) with (2 * B) by (field; lra). unfold M3. nra.
    - unfold M3, big. nra. }
  rewrite E2 in A3.
  (* sum *)
  assert (L : (q - p) / INR F * INR d + p = lin p q (INR d / INR F)) by (unfold lin; field; lra).
  assert (T : 0 <= INR d / INR F <= 1).
  { unfold Rdiv. split; [apply Rmult_le_pos; lra|]. rewrite <- FI. apply Rmult_le_compat_r; lra. }
  pose proof (lin_abs p q (INR d / INR F) B T Bp Bq) as LB.
  assert (A4 : nd (nadd (nmul (ndiv (nsub (Some q) (Some p)) (nz (Z.of_nat F))) (nz (Z.of_nat d))) (Some p)) ((q - p) / INR F * INR d + p)
    ((2 * B * / INR F * 0 + 2 * ep * B * (2 + ep) + e2 * 0 + ep * M3) + 0 + ep * (B * (1 + 7 * ep)))).
  { apply (near_add b64 b64 pi64 m fine_64); auto; [now apply near_0| |].
    - rewrite L. unfold M3. nra.
    - unfold big. nra. }
  rewrite L in A4. eapply near_weaken; [|exact A4]. unfold M3. nra.
Qed.

(** [gen1]: neighbours known up to [e] *)
Lemma gen1_near F c b (y : nat -> option R) (v : nat -> R) B e : (1 <= Z.of_nat F <= 10000)%Z -> (b < F)%nat -> usual B -> 0 <= e <= B / 100 ->
  (forall k, (k = lo_of c b \/ k = lo_of c b + 1)%nat -> nd (y k) (v k) e /\ Rabs (v k) <= B) ->
  nd (gen1 F c b y) (lin (v c) (v (c + 1)%nat) (frac b F)) (e + 71 / 10 * ep * (B + e)).
Proof.
  intros HF Hb HB He Hy. unfold usual in HB. destruct (Hy (lo_of c b) (or_introl eq_refl)) as [(p & Ep & Fp & Dp) Vp].
  destruct (Hy (lo_of c b + 1)%nat (or_intror eq_refl)) as [(q & Eq & Fq & Dq) Vq].
  assert (Bp : Rabs p <= B + e). { replace p with ((p - v (lo_of c b)) + v (lo_of c b)) by ring. eapply Rle_trans; [apply Rabs_triang|]. lra. }
  assert (Bq : Rabs q <= B + e). { replace q with ((q - v (lo_of c b + 1)%nat) + v (lo_of c b + 1)%nat) by ring. eapply Rle_trans; [apply Rabs_triang|]. lra. }
  set (d := (c * F + b - lo_of c b * F)%nat).
  assert (Hd : (d <= F)%nat /\ (lo_of c b * F <= c * F + b)%nat /\
    lin (v (lo_of c b)) (v (lo_of c b + 1)%nat) (INR d / INR F) = lin (v c) (v (c + 1)%nat) (frac b F)).
  { assert (F0 : INR F <> 0) by (apply not_0_INR; lia).
    unfold d, lo_of, frac. destruct (Nat.eqb_spec b 0); destruct (Nat.leb_spec 1 c); cbn [andb].
    - subst b. assert (K : (c * F = (c - 1) * F + F)%nat) by nia. split; [lia|]. split; [lia|].
      replace (c * F + 0 - (c - 1) * F)%nat with F by lia. replace (c - 1 + 1)%nat with c by lia. unfold lin. cbn [INR]. field. exact F0.
    - subst b. assert (c = 0)%nat by lia. subst c. cbn. split; [lia|]. split; [lia|]. reflexivity.
    - split; [lia|]. split; [lia|]. do 2 f_equal. f_equal. lia.
    - split; [lia|]. split; [lia|]. do 2 f_equal. f_equal. lia. }
  destruct Hd as (Hd & Hl & El).
  unfold gen1. cbv zeta. rewrite Ep, Eq.
  replace (Z.of_nat (c * F + b) - Z.of_nat (lo_of c b * F))%Z with (Z.of_nat d) by (unfold d; lia).
  rewrite <- El. eapply near_move; [|apply (line_exact F d p q (B + e)); auto; lra].
  assert (T : 0 <= INR d / INR F <= 1).
  { assert (0 < INR F) by (apply lt_0_INR; lia). pose proof (pos_INR d). pose proof (le_INR _ _ Hd).
    split; [apply Rmult_le_pos; [lra|]; apply Rlt_le, Rinv_0_lt_compat; lra|].
    apply (Rmult_le_reg_r (INR F)); [lra|]. unfold Rdiv. rewrite Rmult_assoc, Rinv_l by lra. lra. }
  pose proof (lin_close p q (v (lo_of c b)) (v (lo_of c b + 1)%nat) (INR d / INR F) e T Dp Dq). lra.
Qed.

(** a pixel *)
Lemma pixel_near F (y : nat -> nat -> option R) (v : nat -> nat -> R) r a c b B e : (1 <= Z.of_nat F <= 10000)%Z -> (a < F)%nat -> (b < F)%nat -> usual B -> 0 <= e <= B / 1000 ->
  (forall i k, (i = lo_of r a \/ i = lo_of r a + 1)%nat -> (k = lo_of c b \/ k = lo_of c b + 1)%nat -> nd (y i k) (v i k) e /\ Rabs (v i k) <= B) ->
  (forall k, (k = lo_of c b \/ k = lo_of c b + 1)%nat -> Rabs (v r k) <= B /\ Rabs (v (r + 1)%nat k) <= B) ->
  nd (pixel F y r a c b) (bilin v r c (frac a F) (frac b F)) (e + 143 / 10 * ep * (B + e)).
Proof.
  intros HF Ha Hb HB He Hy Hv. unfold pixel, bilin. pose proof eps_64 as E. unfold usual in HB.
  pose proof (frac_bounds a F Ha) as Ta.
  eapply near_weaken; [|apply (gen1_near F c b _ (fun k => lin (v r k) (v (r + 1)%nat k) (frac a F)) B (e + 71 / 10 * ep * (B + e))); auto].
  - nra.
  - nra.
  - intros k Hk. split.
    + apply (gen1_near F r a (fun i => y i k) (fun i => v i k) B e); auto. lra.
    + destruct (Hv k Hk). apply lin_abs; auto. lra.
Qed.
End D.

(** ** Fixed-point numbers: multiples of 2^-e *)
Lemma fix_fl (M e : Z) : (Z.abs M < 2 ^ 53)%Z -> (0 <= e <= 1000)%Z -> fl b64 (IZR M * bpow radix2 (- e)).
Proof.
  intros HM He. split.
  - apply generic_format_FLT. apply (FLT_spec _ _ _ _ (Float radix2 M (- e))); [reflexivity|exact HM|cbn; lia].
  - rewrite Rabs_mult, <- abs_IZR, (Rabs_pos_eq (bpow radix2 (- e))) by apply bpow_ge_0.
    apply Rlt_le_trans with (bpow radix2 53 * bpow radix2 (- e)).
    + apply Rmult_lt_compat_r; [apply bpow_gt_0|]. rewrite <- (IZR_Zpower radix2 53) by lia. apply IZR_lt. exact HM.
    + rewrite <- bpow_plus. apply bpow_le. cbn [femax b64]. lia.
Qed.
Lemma fix_fit (M e : Z) : (Z.abs M < 2 ^ 53)%Z -> (0 <= e <= 1000)%Z -> fit b64 (IZR M * bpow radix2 (- e)) = Some (IZR M * bpow radix2 (- e)).
Proof. intros. apply fit_fl. now apply fix_fl. Qed.

Section Fixed.
Variable m : libm.
#[local] Instance DX : NumOps (option R) := F64 m.

Lemma nz_fix z : (Z.abs z < 2 ^ 53)%Z -> nz z = Some (IZR z).
Proof. intros H. cbn [nz DX F64 FN]. pose proof (fix_fit z 0 H ltac:(lia)) as K. cbn [Z.opp bpow] in K. rewrite Rmult_1_r in K. exact K. Qed.

Lemma bpow_split e k : bpow radix2 (- (e + Z.of_nat k)) * IZR (2 ^ Z.of_nat k) = bpow radix2 (- e).
Proof. change 2%Z with (radix2 : Z). rewrite IZR_Zpower by lia. rewrite <- bpow_plus. f_equal. lia. Qed.

(** position [d] of 2^k between two multiples of 2^-e *)
Lemma line_fixed k (d : Z) A B e : (0 <= d <= 2 ^ Z.of_nat k)%Z -> (k <= 20)%nat -> (0 <= e <= 900)%Z ->
  (Z.abs (B - A) < 2 ^ 53)%Z -> (Z.abs (A * (2 ^ Z.of_nat k - d) + B * d) < 2 ^ 53)%Z ->
  (Z.abs ((B - A) * d) < 2 ^ 53)%Z ->
  nadd (nmul (ndiv (nsub (Some (IZR B * bpow radix2 (- e))) (Some (IZR A * bpow radix2 (- e)))) (nz (2 ^ Z.of_nat k))) (nz d)) (Some (IZR A * bpow radix2 (- e))) =
  Some (IZR (A * (2 ^ Z.of_nat k - d) + B * d) * bpow radix2 (- (e + Z.of_nat k))).
Proof.
  intros Hd Hk He H1 H2 H3. pose proof (Z.pow_pos_nonneg 2 (Z.of_nat k) ltac:(lia) ltac:(lia)) as P0.
  assert (P1 : (2 ^ Z.of_nat k <= 2 ^ 20)%Z) by (apply Z.pow_le_mono_r; lia).
  rewrite !nz_fix by lia. cbn [nadd nmul ndiv nsub DX F64 FN bind2].
  replace (IZR B * bpow radix2 (- e) - IZR A * bpow radix2 (- e)) with (IZR (B - A) * bpow radix2 (- e)) by (rewrite minus_IZR; ring).
  rewrite (fix_fit (B - A) e) by lia. cbn [bind2].
  assert (N0 : IZR (2 ^ Z.of_nat k) <> 0) by (apply IZR_neq; lia). destruct (Req_EM_T (IZR (2 ^ Z.of_nat k)) 0) as [?|_]; [contradiction|].
  rewrite <- (bpow_split e k).
  replace (IZR (B - A) * (bpow radix2 (- (e + Z.of_nat k)) * IZR (2 ^ Z.of_nat k)) / IZR (2 ^ Z.of_nat k))
    with (IZR (B - A) * bpow radix2 (- (e + Z.of_nat k))) by (field; exact N0).
  rewrite (fix_fit (B - A) (e + Z.of_nat k)) by lia. cbn [bind2].
  replace (IZR (B - A) * bpow radix2 (- (e + Z.of_nat k)) * IZR d) with (IZR ((B - A) * d) * bpow radix2 (- (e + Z.of_nat k))) by (rewrite mult_IZR; ring).
  rewrite (fix_fit ((B - A) * d) (e + Z.of_nat k)) by lia. cbn [bind2].
  replace (IZR ((B - A) * d) * bpow radix2 (- (e + Z.of_nat k)) + IZR A * (bpow radix2 (- (e + Z.of_nat k)) * IZR (2 ^ Z.of_nat k)))
    with (IZR (A * (2 ^ Z.of_nat k - d) + B * d) * bpow radix2 (- (e + Z.of_nat k))) by (rewrite !plus_IZR, !mult_IZR, !minus_IZR; ring).
  now apply fix_fit; [|lia].
Qed.

(** exactly on the second neighbour: no bound on the product *)
Lemma line_end k A B e : (k <= 20)%nat -> (0 <= e <= 900)%Z -> (Z.abs (B - A) < 2 ^ 53)%Z -> (Z.abs B < 2 ^ 53)%Z ->
  nadd (nmul (ndiv (nsub (Some (IZR B * bpow radix2 (- e))) (Some (IZR A * bpow radix2 (- e)))) (nz (2 ^ Z.of_nat k))) (nz (2 ^ Z.of_nat k))) (Some (IZR A * bpow radix2 (- e))) =
  Some (IZR B * bpow radix2 (- e)).
Proof.
  intros Hk He H1 H2. pose proof (Z.pow_pos_nonneg 2 (Z.of_nat k) ltac:(lia) ltac:(lia)) as P0.
  assert (P1 : (2 ^ Z.of_nat k <= 2 ^ 20)%Z) by (apply Z.pow_le_mono_r; lia).
  rewrite !nz_fix by lia. cbn [nadd nmul ndiv nsub DX F64 FN bind2].
  replace (IZR B * bpow radix2 (- e) - IZR A * bpow radix2 (- e)) with (IZR (B - A) * bpow radix2 (- e)) by (rewrite minus_IZR; ring).
  rewrite (fix_fit (B - A) e) by lia. cbn [bind2].
  assert (N0 : IZR (2 ^ Z.of_nat k) <> 0) by (apply IZR_neq; lia). destruct (Req_EM_T (IZR (2 ^ Z.of_nat k)) 0) as [?|_]; [contradiction|].
  replace (IZR (B - A) * bpow radix2 (- e) / IZR (2 ^ Z.of_nat k)) with (IZR (B - A) * bpow radix2 (- (e + Z.of_nat k)))
    by (rewrite <- (bpow_split e k); field; exact N0).
  rewrite (fix_fit (B - A) (e + Z.of_nat k)) by lia. cbn [bind2].
  replace (IZR (B - A) * bpow radix2 (- (e + Z.of_nat k)) * IZR (2 ^ Z.of_nat k)) with (IZR (B - A) * bpow radix2 (- e)) by (rewrite <- (bpow_split e k); ring).
  rewrite (fix_fit (B - A) e) by lia. cbn [bind2].
  replace (IZR (B - A) * bpow radix2 (- e) + IZR A * bpow radix2 (- e)) with (IZR B * bpow radix2 (- e)) by (rewrite minus_IZR; ring).
  now apply fix_fit; [|lia].
Qed.

Lemma pow_nat k : Z.of_nat (2 ^ k) = (2 ^ Z.of_nat k)%Z.
Proof. rewrite Nat2Z.inj_pow. reflexivity. Qed.

Lemma lo_d F c b : (b < F)%nat -> exists d, (d <= F)%nat /\ (Z.of_nat (c * F + b) - Z.of_nat (lo_of c b * F))%Z = Z.of_nat d /\
  (lo_of c b = c /\ d = b \/ b = 0%nat /\ lo_of c b + 1 = c /\ d = F)%nat.
Proof.
  intros Hb. unfold lo_of. destruct (Nat.eqb_spec b 0); destruct (Nat.leb_spec 1 c); cbn [andb].
  - exists F. split; [lia|]. assert (K : (c * F = (c - 1) * F + F)%nat) by nia. split; [lia|]. right. lia.
  - exists b. split; [lia|]. split; [lia|]. now left.
  - exists b. split; [lia|]. split; [lia|]. now left.
  - exists b. split; [lia|]. split; [lia|]. now left.
Qed.

(** exactly on the first neighbour *)
Lemma line_start k A B e : (k <= 20)%nat -> (0 <= e <= 900)%Z -> (Z.abs (B - A) < 2 ^ 53)%Z -> (Z.abs A < 2 ^ 53)%Z ->
  nadd (nmul (ndiv (nsub (Some (IZR B * bpow radix2 (- e))) (Some (IZR A * bpow radix2 (- e)))) (nz (2 ^ Z.of_nat k))) (nz 0)) (Some (IZR A * bpow radix2 (- e))) =
  Some (IZR A * bpow radix2 (- e)).
Proof.
  intros Hk He H1 H2. pose proof (Z.pow_pos_nonneg 2 (Z.of_nat k) ltac:(lia) ltac:(lia)) as P0.
  assert (P1 : (2 ^ Z.of_nat k <= 2 ^ 20)%Z) by (apply Z.pow_le_mono_r; lia).
  rewrite !nz_fix by lia. cbn [nadd nmul ndiv nsub DX F64 FN bind2].
  replace (IZR B * bpow radix2 (- e) - IZR A * bpow radix2 (- e)) with (IZR (B - A) * bpow radix2 (- e)) by (rewrite minus_IZR; ring).
  rewrite (fix_fit (B - A) e) by lia. cbn [bind2].
  assert (N0 : IZR (2 ^ Z.of_nat k) <> 0) by (apply IZR_neq; lia). destruct (Req_EM_T (IZR (2 ^ Z.of_nat k)) 0) as [?|_]; [contradiction|].
  replace (IZR (B - A) * bpow radix2 (- e) / IZR (2 ^ Z.of_nat k)) with (IZR (B - A) * bpow radix2 (- (e + Z.of_nat k)))
    by (rewrite <- (bpow_split e k); field; exact N0).
  rewrite (fix_fit (B - A) (e + Z.of_nat k)) by lia. cbn [bind2].
  replace (IZR (B - A) * bpow radix2 (- (e + Z.of_nat k)) * 0) with (IZR 0 * bpow radix2 (- e)) by ring.
  rewrite (fix_fit 0 e) by lia. cbn [bind2].
  replace (IZR 0 * bpow radix2 (- e) + IZR A * bpow radix2 (- e)) with (IZR A * bpow radix2 (- e)) by ring.
  now apply fix_fit; [|lia].
Qed.

(** [gen1] at a tie point *)
Lemma gen1_tie k c (y : nat -> option R) (A : nat -> Z) e H : (k <= 20)%nat -> (0 <= e <= 900)%Z -> (2 * H < 2 ^ 53)%Z ->
  (forall i, (i = lo_of c 0 \/ i = lo_of c 0 + 1)%nat -> y i = Some (IZR (A i) * bpow radix2 (- e)) /\ (Z.abs (A i) <= H)%Z) ->
  gen1 (2 ^ k) c 0 y = Some (IZR (A c) * bpow radix2 (- e)).
Proof.
  intros Hk He HH Hy. destruct (Hy _ (or_introl eq_refl)) as [E0 H0]. destruct (Hy _ (or_intror eq_refl)) as [E1 H1].
  assert (F0 : (1 <= 2 ^ k)%nat) by (apply Nat.neq_0_lt_0, Nat.pow_nonzero; lia).
  destruct (lo_d (2 ^ k) c 0 ltac:(lia)) as (d & Hd & Ed & [[L D]|(_ & L & D)]); unfold gen1; cbv zeta; rewrite E0, E1, Ed; subst d; rewrite !pow_nat.
  - rewrite L in *. change (Z.of_nat 0) with 0%Z. now rewrite line_start by lia.
  - rewrite line_end by lia. now rewrite L.
Qed.

(** [gen1] anywhere *)
Lemma gen1_fixed k c b (y : nat -> option R) (A : nat -> Z) e H : (k <= 20)%nat -> (b < 2 ^ k)%nat -> (0 <= e <= 900)%Z -> (2 * (H * 2 ^ Z.of_nat k) < 2 ^ 53)%Z ->
  (forall i, (i = lo_of c b \/ i = lo_of c b + 1)%nat -> y i = Some (IZR (A i) * bpow radix2 (- e)) /\ (Z.abs (A i) <= H)%Z) ->
  gen1 (2 ^ k) c b y = Some (IZR (A c * (2 ^ Z.of_nat k - Z.of_nat b) + A (c + 1)%nat * Z.of_nat b) * bpow radix2 (- (e + Z.of_nat k))).
Proof.
  intros Hk Hb He HH Hy. destruct (Hy _ (or_introl eq_refl)) as [E0 H0]. destruct (Hy _ (or_intror eq_refl)) as [E1 H1].
  pose proof (Z.pow_pos_nonneg 2 (Z.of_nat k) ltac:(lia) ltac:(lia)) as P0. apply inj_lt in Hb as Hb'. rewrite pow_nat in Hb'.
  assert (HL : (H <= H * 2 ^ Z.of_nat k)%Z) by nia.
  destruct (lo_d (2 ^ k) c b Hb) as (d & Hd & Ed & [[L D]|(B0 & L & D)]); unfold gen1; cbv zeta; rewrite E0, E1, Ed; subst d; rewrite !pow_nat.
  - rewrite L in *. rewrite (line_fixed k (Z.of_nat b)); try lia; [reflexivity| |].
    + apply Z.le_lt_trans with (H * 2 ^ Z.of_nat k)%Z; [|lia]. apply Z.abs_le. nia.
    + apply Z.le_lt_trans with (2 * (H * 2 ^ Z.of_nat k))%Z; [|lia]. apply Z.abs_le. nia.
  - rewrite line_end by lia. subst b. rewrite L. f_equal. rewrite <- (bpow_split e k). change (Z.of_nat 0) with 0%Z. rewrite Z.sub_0_r, Z.mul_0_r, Z.add_0_r, mult_IZR. ring.
Qed.

(** a pixel *)
Lemma pixel_fixed k (y : nat -> nat -> option R) (A : nat -> nat -> Z) r a c b e H : (k <= 10)%nat -> (a < 2 ^ k)%nat -> (b < 2 ^ k)%nat -> (0 <= e <= 800)%Z ->
  (2 * (H * 4 ^ Z.of_nat k) < 2 ^ 53)%Z ->
  (forall i j, (i = lo_of r a \/ i = lo_of r a + 1)%nat -> (j = lo_of c b \/ j = lo_of c b + 1)%nat ->
     y i j = Some (IZR (A i j) * bpow radix2 (- e)) /\ (Z.abs (A i j) <= H)%Z) ->
  (forall j, (j = lo_of c b \/ j = lo_of c b + 1)%nat -> (Z.abs (A r j) <= H /\ Z.abs (A (r + 1)%nat j) <= H)%Z) ->
  pixel (2 ^ k) y r a c b = Some (bilin (fun i j => IZR (A i j) * bpow radix2 (- e)) r c (frac a (2 ^ k)) (frac b (2 ^ k))).
Proof.
  intros Hk Ha Hb He HH Hy Hv. unfold pixel. pose proof (Z.pow_pos_nonneg 2 (Z.of_nat k) ltac:(lia) ltac:(lia)) as P0.
  assert (E4 : (4 ^ Z.of_nat k = 2 ^ Z.of_nat k * 2 ^ Z.of_nat k)%Z) by (rewrite <- Z.pow_mul_l; reflexivity).
  assert (H0 : (0 <= H)%Z). { destruct (Hv _ (or_introl eq_refl)). lia. }
  apply inj_lt in Ha as Ha'. apply inj_lt in Hb as Hb'. rewrite pow_nat in Ha', Hb'.
  rewrite (gen1_fixed k c b _ (fun j => A r j * (2 ^ Z.of_nat k - Z.of_nat a) + A (r + 1)%nat j * Z.of_nat a)%Z (e + Z.of_nat k) (H * 2 ^ Z.of_nat k)); try lia.
  - f_equal. unfold bilin, lin, frac. rewrite !INR_IZR_INZ, !pow_nat. rewrite <- (bpow_split e k), <- (bpow_split (e + Z.of_nat k) k).
    assert (N0 : IZR (2 ^ Z.of_nat k) <> 0) by (apply IZR_neq; lia).
    repeat rewrite ?plus_IZR, ?mult_IZR, ?minus_IZR. field. exact N0.
  - intros j Hj. split.
    + apply (gen1_fixed k r a (fun i => y i j) (fun i => A i j) e H); auto; try lia; nia.
    + destruct (Hv j Hj). apply Z.abs_le. nia.
Qed.
Lemma pixel_tie k (y : nat -> nat -> option R) (A : nat -> nat -> Z) r c e H : (k <= 20)%nat -> (0 <= e <= 900)%Z -> (2 * H < 2 ^ 53)%Z ->
  (forall i j, (i = lo_of r 0 \/ i = lo_of r 0 + 1)%nat -> (j = lo_of c 0 \/ j = lo_of c 0 + 1)%nat ->
     y i j = Some (IZR (A i j) * bpow radix2 (- e)) /\ (Z.abs (A i j) <= H)%Z) ->
  (forall j, (j = lo_of c 0 \/ j = lo_of c 0 + 1)%nat -> (Z.abs (A r j) <= H)%Z) ->
  pixel (2 ^ k) y r 0 c 0 = Some (IZR (A r c) * bpow radix2 (- e)).
Proof.
  intros Hk He HH Hy Hv. unfold pixel. apply (gen1_tie k c _ (fun j => A r j) e H); auto. intros j Hj. split; [|now apply Hv].
  apply (gen1_tie k r (fun i => y i j) (fun i => A i j) e H); auto.
Qed.
End Fixed.
