(** Linear grid interpolation on double arrays: rounding errors of one point. *)
From Coq Require Import ZArith List Bool Arith Lia Reals Lra.
From Flocq.Core Require Import Core.
From Verif Require Import Spec Base Num Geo Float FloatGeo FloatAcc FloatTrip FloatNear GridLinear PropsGridLinear.
Import ListNotations.
Open Scope R_scope.

Section D.
Variable m : libm.
#[local] Instance DM : NumOps (option R) := F64 m.
Local Notation nd := (near b64).
Local Notation ep := (eps b64).

(** neither tiny nor huge *)
Definition usual (B : R) : Prop := / 1000 <= B <= 100000000.
Definition moderate (w : R) : Prop := / 1000000 <= w <= 100000000.

Lemma dist_near a b x : fl b64 a -> fl b64 b -> fl b64 x -> a <= x <= b -> moderate (b - a) ->
  nd (ndiv (nsub (Some x) (Some a)) (nsub (Some b) (Some a))) ((x - a) / (b - a)) (31 / 10 * ep).
Proof.
  intros Fa Fb Fx Hx Hw. unfold moderate in Hw. pose proof eps_64 as E. set (w := b - a) in *.
  assert (A1 : nd (nsub (Some x) (Some a)) (x - a) (0 + 0 + ep * w)).
  { apply (near_sub b64 b64 pi64 m fine_64); try (now apply near_0); [|unfold big; lra]. rewrite Rabs_pos_eq; unfold w; lra. }
  assert (A2 : nd (nsub (Some b) (Some a)) w (0 + 0 + ep * w)).
  { apply (near_sub b64 b64 pi64 m fine_64); try (now apply near_0); [|unfold big; lra]. fold w. rewrite Rabs_pos_eq; lra. }
  assert (W : 0 < w * (1 - ep)) by (apply Rmult_lt_0_compat; lra).
  assert (T : Rabs ((x - a) / w) <= 1).
  { unfold Rdiv. assert (0 < / w) by (apply Rinv_0_lt_compat; lra). rewrite Rabs_pos_eq by (apply Rmult_le_pos; lra).
    rewrite <- (Rinv_r w) by lra. apply Rmult_le_compat_r; [lra|unfold w; lra]. }
  assert (D : (0 + 0 + ep * w + 1 * (0 + 0 + ep * w)) / (w * (1 - ep)) = 2 * ep / (1 - ep)) by (field; lra).
  assert (D' : 2 * ep / (1 - ep) <= 2001 / 1000 * ep).
  { apply Rmult_le_reg_r with (1 - ep); [lra|]. replace (2 * ep / (1 - ep) * (1 - ep)) with (2 * ep) by (field; lra). nra. }
  eapply near_weaken; [|apply (near_div b64 b64 pi64 m fine_64 _ _ _ _ _ _ 1 (w * (1 - ep)) (1 + 3 * ep) A1 A2 T)].
  - rewrite D. nra.
  - rewrite Rabs_pos_eq by lra. lra.
  - exact W.
  - rewrite D. lra.
  - unfold big. lra.
Qed.

Lemma one_near : nd (nz 1) 1 0.
Proof. apply (near_nz b64 b64 pi64 m fine_64 1). lia. Qed.

Lemma rest_near q t : 0 <= t <= 1 -> nd q t (31 / 10 * ep) -> nd (nsub (nz 1) q) (1 - t) (42 / 10 * ep).
Proof.
  intros Ht Hq. pose proof eps_64 as E.
  eapply near_weaken; [|apply (near_sub b64 b64 pi64 m fine_64 _ _ _ _ _ _ (1 + 4 * ep) one_near Hq)].
  - nra.
  - rewrite Rabs_pos_eq; lra.
  - unfold big. lra.
Qed.

(** one term of the sum *)
Lemma term_near v p q t u e1 e2 B : fl b64 v -> Rabs v <= B -> usual B -> 0 <= t <= 1 -> 0 <= u <= 1 ->
  0 <= e1 <= 5 * ep -> 0 <= e2 <= 5 * ep -> nd p t e1 -> nd q u e2 ->
  nd (nmul (nmul (Some v) p) q) (v * t * u) (B * (t * e2 + u * e1 + ep * (2 * (t * u) + 3 / 1000))).
Proof.
  intros Fv Bv HB Ht Hu H1 H2 Np Nq. unfold usual in HB. pose proof eps_64 as E.
  assert (Be : 0 <= B * e1 <= B / 100000) by (split; [apply Rmult_le_pos; lra|]; assert (B * e1 <= B * (5 * ep)) by (apply Rmult_le_compat_l; lra); nra).
  pose proof (near_mul b64 b64 pi64 m fine_64 (Some v) p v t 0 e1 B t (B * t + B / 1000) (near_0 b64 v Fv) Np Bv ltac:(rewrite Rabs_pos_eq; lra)) as A1.
  specialize (A1 ltac:(lra)).
  assert (Bt : 0 <= B * t <= B) by (split; [apply Rmult_le_pos; lra|]; rewrite <- (Rmult_1_r B) at 2; apply Rmult_le_compat_l; lra).
  specialize (A1 ltac:(unfold big; lra)).
  set (E1 := B * e1 + t * 0 + 0 * e1 + ep * (B * t + B / 1000)) in A1.
  assert (E1b : 0 <= E1 <= B / 10000).
  { unfold E1. assert (0 <= ep * (B * t + B / 1000) <= ep * (2 * B)) by (split; [apply Rmult_le_pos; lra|apply Rmult_le_compat_l; lra]). nra. }
  assert (E12 : 0 <= E1 * e2 <= B * ep * (/ 1000)).
  { split; [apply Rmult_le_pos; lra|]. assert (E1 * e2 <= B / 10000 * (5 * ep)) by (apply Rmult_le_compat; lra). nra. }
  assert (Bte : 0 <= B * t * e2 <= B / 1000).
  { split; [apply Rmult_le_pos; lra|]. assert (B * t * e2 <= B * (5 * ep)) by (apply Rmult_le_compat; lra). nra. }
  assert (uE : 0 <= u * E1 <= B / 10000) by (split; [apply Rmult_le_pos; lra|]; assert (u * E1 <= 1 * E1) by (apply Rmult_le_compat_r; lra); lra).
  pose proof (near_mul b64 b64 pi64 m fine_64 _ q (v * t) u E1 e2 (B * t) u (B * t * u + 15 / 10000 * B) A1 Nq) as A2.
  assert (Vt : Rabs (v * t) <= B * t) by (rewrite Rabs_mult, (Rabs_pos_eq t) by lra; apply Rmult_le_compat_r; lra).
  specialize (A2 Vt ltac:(rewrite Rabs_pos_eq; lra)).
  assert (Btu : 0 <= B * t * u <= B). { split; [apply Rmult_le_pos; lra|]. assert (B * t * u <= B * 1) by (apply Rmult_le_compat; lra). lra. }
  assert (C : E1 * e2 <= B / 10000). { assert (B * ep * / 1000 <= B / 10000) by nra. lra. }
  specialize (A2 ltac:(lra) ltac:(unfold big; lra)).
  eapply near_weaken; [|exact A2].
  assert (R1 : u * E1 = B * (u * e1) + ep * (B * t * u) + ep * (B * u * / 1000)) by (unfold E1; field).
  assert (0 <= ep * (B * u * / 1000) <= ep * (B * / 1000)).
  { assert (0 <= B * u <= B) by (split; [apply Rmult_le_pos; lra|]; rewrite <- (Rmult_1_r B) at 2; apply Rmult_le_compat_l; lra).
    split; [apply Rmult_le_pos; lra|apply Rmult_le_compat_l; lra]. }
  rewrite R1. nra.
Qed.

(** the point *)
Lemma linear_near (v : nat -> nat -> R) (V : nat -> nat -> option R) i j y0 y1 t u B : usual B -> 0 <= t <= 1 -> 0 <= u <= 1 ->
  (forall a b, (a = i \/ a = S i)%nat -> (b = j \/ b = S j)%nat -> V a b = Some (v a b) /\ fl b64 (v a b) /\ Rabs (v a b) <= B) ->
  nd y0 t (31 / 10 * ep) -> nd y1 u (31 / 10 * ep) ->
  nd (nst (linear_2d V i j y0 y1)) (v i j * (1 - t) * (1 - u) + v i (S j) * (1 - t) * u + v (S i) j * t * (1 - u) + v (S i) (S j) * t * u)
    (198 / 10 * ep * B).
Proof.
  intros HB Ht Hu HV N0 N1. pose proof eps_64 as E. pose proof (rest_near y0 t Ht N0) as R0. pose proof (rest_near y1 u Hu N1) as R1.
  destruct (HV i j) as (V1 & F1 & B1); auto. destruct (HV i (S j)) as (V2 & F2 & B2); auto.
  destruct (HV (S i) j) as (V3 & F3 & B3); auto. destruct (HV (S i) (S j)) as (V4 & F4 & B4); auto.
  unfold linear_2d. rewrite V1, V2, V3, V4.
  assert (L : 0 <= 1 - t <= 1) by lra. assert (L' : 0 <= 1 - u <= 1) by lra.
  pose proof (term_near (v i j) (nsub (nz 1) y0) (nsub (nz 1) y1) (1 - t) (1 - u) (42 / 10 * ep) (42 / 10 * ep) B F1 B1 HB L L' ltac:(lra) ltac:(lra) R0 R1) as T1.
  pose proof (term_near (v i (S j)) (nsub (nz 1) y0) y1 (1 - t) u (42 / 10 * ep) (31 / 10 * ep) B F2 B2 HB L Hu ltac:(lra) ltac:(lra) R0 N1) as T2.
  pose proof (term_near (v (S i) j) y0 (nsub (nz 1) y1) t (1 - u) (31 / 10 * ep) (42 / 10 * ep) B F3 B3 HB Ht L' ltac:(lra) ltac:(lra) N0 R1) as T3.
  pose proof (term_near (v (S i) (S j)) y0 y1 t u (31 / 10 * ep) (31 / 10 * ep) B F4 B4 HB Ht Hu ltac:(lra) ltac:(lra) N0 N1) as T4.
  set (b1 := v i j * (1 - t) * (1 - u)) in *. set (b2 := v i (S j) * (1 - t) * u) in *.
  set (b3 := v (S i) j * t * (1 - u)) in *. set (b4 := v (S i) (S j) * t * u) in *.
  set (e1 := B * ((1 - t) * (42 / 10 * ep) + (1 - u) * (42 / 10 * ep) + ep * (2 * ((1 - t) * (1 - u)) + 3 / 1000))) in *.
  set (e2 := B * ((1 - t) * (31 / 10 * ep) + u * (42 / 10 * ep) + ep * (2 * ((1 - t) * u) + 3 / 1000))) in *.
  set (e3 := B * (t * (42 / 10 * ep) + (1 - u) * (31 / 10 * ep) + ep * (2 * (t * (1 - u)) + 3 / 1000))) in *.
  set (e4 := B * (t * (31 / 10 * ep) + u * (31 / 10 * ep) + ep * (2 * (t * u) + 3 / 1000))) in *.
  assert (Es : e1 + e2 + e3 + e4 = B * ep * (2 * (73 / 10) + 2 + 12 / 1000)) by (unfold e1, e2, e3, e4; field).
  pose proof (near_pos _ _ _ _ T1) as P1. pose proof (near_pos _ _ _ _ T2) as P2. pose proof (near_pos _ _ _ _ T3) as P3. pose proof (near_pos _ _ _ _ T4) as P4.
  unfold usual in HB.
  assert (Ab : forall z w1 w2, Rabs z <= B -> 0 <= w1 <= 1 -> 0 <= w2 <= 1 -> Rabs (z * w1 * w2) <= B * (w1 * w2)).
  { intros z w1 w2 Hz H1 H2. rewrite Rmult_assoc, Rabs_mult, (Rabs_pos_eq (w1 * w2)) by (apply Rmult_le_pos; lra).
    apply Rmult_le_compat_r; [apply Rmult_le_pos; lra|exact Hz]. }
  pose proof (Ab _ _ _ B1 L L') as C1. pose proof (Ab _ _ _ B2 L Hu) as C2. pose proof (Ab _ _ _ B3 Ht L') as C3. pose proof (Ab _ _ _ B4 Ht Hu) as C4.
  fold b1 in C1. fold b2 in C2. fold b3 in C3. fold b4 in C4.
  assert (Cs : B * ((1 - t) * (1 - u)) + B * ((1 - t) * u) + B * (t * (1 - u)) + B * (t * u) = B) by ring.
  assert (Q : forall w1 w2, 0 <= w1 <= 1 -> 0 <= w2 <= 1 -> 0 <= B * (w1 * w2)) by (intros; apply Rmult_le_pos; [lra|apply Rmult_le_pos; lra]).
  pose proof (Q _ _ L L'). pose proof (Q _ _ L Hu). pose proof (Q _ _ Ht L'). pose proof (Q _ _ Ht Hu).
  assert (Be : B * ep * (2 * (73 / 10) + 2 + 12 / 1000) <= B / 1000) by nra.
  assert (Bp : 0 <= ep * B <= B / 100000) by nra.
  clearbody b1 b2 b3 b4 e1 e2 e3 e4.
  pose proof (Rabs_triang b1 b2). pose proof (Rabs_triang (b1 + b2) b3). pose proof (Rabs_triang (b1 + b2 + b3) b4).
  assert (S2 : nd (nadd (nmul (nmul (Some (v i j)) (nsub (nz 1) y0)) (nsub (nz 1) y1)) (nmul (nmul (Some (v i (S j))) (nsub (nz 1) y0)) y1)) (b1 + b2)
    (e1 + e2 + ep * (101 / 100 * B))).
  { apply (near_add b64 b64 pi64 m fine_64); [exact T1|exact T2|lra|unfold big; lra]. }
  assert (S3 := near_add b64 b64 pi64 m fine_64 _ _ _ _ _ _ (101 / 100 * B) S2 T3 ltac:(lra) ltac:(unfold big; lra)).
  assert (S4 := near_add b64 b64 pi64 m fine_64 _ _ _ _ _ _ (101 / 100 * B) S3 T4 ltac:(lra) ltac:(unfold big; lra)).
  destruct S4 as (o & Eo & Fo & Do). match goal with |- near _ (nst ?g) _ _ => assert (G : g = Some o) by exact Eo; rewrite G end. exists o. cbn [nst DM F64 FN bind1].
  split; [apply (fit_fl b64 o Fo)|]. split; [exact Fo|]. eapply Rle_trans; [exact Do|]. nra.
Qed.

(** ** exact cases *)
Lemma nz_1 : nz 1 = Some 1.
Proof. apply (fit_IZR b64 1); [apply good_b64|cbn; lia|cbn; lia]. Qed.
Lemma nz_0 : nz 0 = Some 0.
Proof. apply (fit_IZR b64 0); [apply good_b64|cbn; lia|cbn; lia]. Qed.
Lemma fl_0 : fl b64 0.
Proof. split; [apply generic_format_0|rewrite Rabs_R0; apply bpow_gt_0]. Qed.
Lemma fit_0 : fit b64 0 = Some 0.
Proof. apply fit_fl, fl_0. Qed.
Lemma mul_1 v : fl b64 v -> nmul (Some v) (Some 1) = Some v.
Proof. intros F. cbn [nmul DM F64 FN bind2]. rewrite Rmult_1_r. now apply fit_fl. Qed.
Lemma mul_0 v : nmul (Some v) (Some 0) = Some 0.
Proof. cbn [nmul DM F64 FN bind2]. rewrite Rmult_0_r. apply fit_0. Qed.
Lemma mul_0l v : nmul (Some 0) (Some v) = Some 0.
Proof. cbn [nmul DM F64 FN bind2]. rewrite Rmult_0_l. apply fit_0. Qed.
Lemma add_0 v : fl b64 v -> nadd (Some v) (Some 0) = Some v.
Proof. intros F. cbn [nadd DM F64 FN bind2]. rewrite Rplus_0_r. now apply fit_fl. Qed.
Lemma add_0l v : fl b64 v -> nadd (Some 0) (Some v) = Some v.
Proof. intros F. cbn [nadd DM F64 FN bind2]. rewrite Rplus_0_l. now apply fit_fl. Qed.
Lemma sub_1_0 : nsub (Some 1) (Some 0) = Some 1.
Proof. cbn [nsub DM F64 FN bind2]. rewrite Rminus_0_r. apply nz_1. Qed.
Lemma sub_same v : nsub (Some v) (Some v) = Some 0.
Proof. cbn [nsub DM F64 FN bind2]. rewrite Rminus_diag_eq by reflexivity. apply fit_0. Qed.

(** the step between two numbers is a number, and not 0 *)
Lemma step_fl a b : fl b64 a -> fl b64 b -> a < b -> Rabs a <= bpow radix2 1000 -> Rabs b <= bpow radix2 1000 ->
  exists w, nsub (Some b) (Some a) = Some w /\ 0 < w /\ fl b64 w.
Proof.
  intros [Fa _] [Fb _] L Ba Bb. exists (rd b64 (b - a)).
  assert (S : fit b64 (b - a) = Some (rd b64 (b - a))).
  { apply (fit_some b64 good_b64 _ 1001); [cbn; lia|]. replace 1001%Z with (1000 + 1)%Z by reflexivity. rewrite bpow_plus_1. change (IZR radix2) with 2.
    unfold Rminus. eapply Rle_trans; [apply Rabs_triang|]. rewrite Rabs_Ropp. lra. }
  split; [exact S|]. split; [|apply (fit_inv b64 good_b64 _ _ S)].
  (* a difference of two numbers is a multiple of the smallest one *)
  apply Rlt_le_trans with (bpow radix2 (-1074)); [apply bpow_gt_0|].
  apply (rd_ge_gf b64 good_b64); [apply (gf_bpow b64 good_b64); cbn; lia|].
  assert (Mul : forall x, generic_format radix2 (FLT_exp (femin b64) (fprec b64)) x -> exists k, x = IZR k * bpow radix2 (-1074)).
  { intros x Fx. red in Fx. set (k := Ztrunc (scaled_mantissa radix2 (FLT_exp (femin b64) (fprec b64)) x)) in *.
    set (e := cexp radix2 (FLT_exp (femin b64) (fprec b64)) x) in *.
    assert (He : (-1074 <= e)%Z) by (unfold e, cexp, FLT_exp; cbn [femin b64]; lia).
    exists (k * 2 ^ (e + 1074))%Z. rewrite Fx. unfold F2R. cbn [Fnum Fexp]. rewrite mult_IZR.
    change 2%Z with (radix_val radix2). rewrite IZR_Zpower by lia. rewrite Rmult_assoc, <- bpow_plus. do 2 f_equal. lia. }
  destruct (Mul a Fa) as [ka ->]. destruct (Mul b Fb) as [kb ->]. pose proof (bpow_gt_0 radix2 (-1074)) as P.
  rewrite <- Rmult_minus_distr_r, <- minus_IZR. rewrite <- (Rmult_1_l (bpow radix2 (-1074))) at 1.
  apply Rmult_le_compat_r; [lra|]. apply IZR_le. assert (ka < kb)%Z; [|lia]. apply lt_IZR. apply Rmult_lt_reg_r with (1 := P). exact L.
Qed.

(** normalized distances of the ends of a cell *)
Lemma dist_left a b : fl b64 a -> fl b64 b -> a < b -> Rabs a <= bpow radix2 1000 -> Rabs b <= bpow radix2 1000 ->
  ndiv (nsub (Some a) (Some a)) (nsub (Some b) (Some a)) = Some 0.
Proof.
  intros Fa Fb L Ba Bb. destruct (step_fl a b Fa Fb L Ba Bb) as (w & -> & W & _). rewrite sub_same. cbn [ndiv DM F64 FN bind2].
  destruct (Req_EM_T w 0); [lra|]. unfold Rdiv. rewrite Rmult_0_l. apply fit_0.
Qed.
Lemma dist_right a b : fl b64 a -> fl b64 b -> a < b -> Rabs a <= bpow radix2 1000 -> Rabs b <= bpow radix2 1000 ->
  ndiv (nsub (Some b) (Some a)) (nsub (Some b) (Some a)) = Some 1.
Proof.
  intros Fa Fb L Ba Bb. destruct (step_fl a b Fa Fb L Ba Bb) as (w & -> & W & _). cbn [ndiv DM F64 FN bind2].
  destruct (Req_EM_T w 0); [lra|]. replace (w / w) with 1 by (field; lra). apply nz_1.
Qed.

Lemma linear_corner (v : nat -> nat -> R) (V : nat -> nat -> option R) i j p q : (p <= 1)%nat -> (q <= 1)%nat ->
  (forall a b, (a = i \/ a = S i)%nat -> (b = j \/ b = S j)%nat -> V a b = Some (v a b) /\ fl b64 (v a b)) ->
  nst (linear_2d V i j (Some (INR p)) (Some (INR q))) = Some (v (i + p)%nat (j + q)%nat).
Proof.
  intros Hp Hq HV.
  destruct (HV i j) as (V1 & F1); auto. destruct (HV i (S j)) as (V2 & F2); auto.
  destruct (HV (S i) j) as (V3 & F3); auto. destruct (HV (S i) (S j)) as (V4 & F4); auto.
  unfold linear_2d. rewrite V1, V2, V3, V4, nz_1.
  assert (St : forall z, fl b64 z -> nst (Some z) = Some z) by (intros z F; apply (fit_fl b64 z F)).
  destruct p as [|[|p]]; [| |lia]; (destruct q as [|[|q]]; [| |lia]); cbn [INR]; rewrite ?sub_1_0, ?sub_same;
    rewrite ?Nat.add_0_r, ?Nat.add_1_r; rewrite ?mul_1, ?mul_0, ?mul_0l, ?mul_1 by auto using fl_0; rewrite ?add_0l, ?add_0, ?add_0l by auto using fl_0; now apply St.
Qed.
End D.
