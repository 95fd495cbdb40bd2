(** C147: BasicSatelliteInterpolator on double arrays. *)
From Coq Require Import ZArith List Bool Arith Lia Reals Lra.
From Flocq.Core Require Import Core.
From Verif Require Import Base Num Geo Float FloatGeo FloatAcc FloatTrip FloatNear FloatGrid FloatVii Basic PropsBasic.
Import ListNotations.
Open Scope R_scope.

(** tie values that are finite doubles of at most B *)
Definition double_ties (cols rows : list Z) (data : frame (option R)) (v : Z -> Z -> R) (B : R) : Prop :=
  ties cols rows data (fun p q => Some (v p q)) /\
  forall p q, (0 <= p < lenz rows)%Z -> (0 <= q < lenz cols)%Z -> fl b64 (v p q) /\ Rabs (v p q) <= B.

Section Basic64.
Variable m : libm.
#[local] Instance DB : NumOps (option R) := F64 m.

Lemma index_gap a b : (Z.abs a <= 1000000)%Z -> (Z.abs b <= 1000000)%Z -> nsub (nz b) (nz a) = Some (IZR b - IZR a) /\ fl b64 (IZR b - IZR a).
Proof.
  intros Ha Hb. change DB with (F64 m).
  rewrite (nz_fix m b ltac:(lia) : @nz _ (F64 m) b = Some (IZR b)), (nz_fix m a ltac:(lia) : @nz _ (F64 m) a = Some (IZR a)). cbn [nsub F64 FN bind2]. rewrite <- minus_IZR.
  assert (F : fl b64 (IZR (b - a))) by (pose proof (fix_fl (b - a) 0 ltac:(lia) ltac:(lia)) as K; cbn [Z.opp bpow] in K; now rewrite Rmult_1_r in K).
  split; [now apply fit_fl|exact F].
Qed.

Lemma lerp_bound a b i ya yb lo hi : (a < b)%Z -> (a <= i <= b)%Z -> lo <= ya <= hi -> lo <= yb <= hi -> lo <= lerp a b i ya yb <= hi.
Proof.
  intros L [H1 H2] A B. apply IZR_lt in L. apply IZR_le in H1, H2. unfold lerp.
  assert (T : 0 <= (IZR i - IZR a) / (IZR b - IZR a) <= 1).
  { assert (0 < / (IZR b - IZR a)) by (apply Rinv_0_lt_compat; lra). split; [apply Rmult_le_pos; lra|].
    apply Rmult_le_reg_r with (IZR b - IZR a); [lra|]. unfold Rdiv. rewrite Rmult_assoc, Rinv_l by lra. lra. }
  set (t := (IZR i - IZR a) / (IZR b - IZR a)) in *. replace (ya + t * (yb - ya)) with ((1 - t) * ya + t * yb) by ring.
  split.
  - replace lo with ((1 - t) * lo + t * lo) by ring. apply Rplus_le_compat; apply Rmult_le_compat_l; lra.
  - replace hi with ((1 - t) * hi + t * hi) by ring. apply Rplus_le_compat; apply Rmult_le_compat_l; lra.
Qed.
Lemma lerp_near a b i ya yb za zb e : (a < b)%Z -> (a <= i <= b)%Z -> Rabs (ya - za) <= e -> Rabs (yb - zb) <= e ->
  Rabs (lerp a b i ya yb - lerp a b i za zb) <= e.
Proof.
  intros L H A B. apply Rabs_le_inv in A, B.
  replace (lerp a b i ya yb - lerp a b i za zb) with (lerp a b i (ya - za) (yb - zb)) by (unfold lerp; apply IZR_lt in L; field; lra).
  apply Rabs_le. now apply lerp_bound.
Qed.

(** one np.interp *)
Lemma np_interp_near a b i ya yb B : (Z.abs a <= 1000000)%Z -> (Z.abs b <= 1000000)%Z -> (a < b)%Z -> (a <= i <= b)%Z ->
  (b - a <= 1000000)%Z -> fl b64 ya -> fl b64 yb -> Rabs ya <= B -> Rabs yb <= B -> / 1000 <= B <= 200000000 ->
  near b64 (np_interp a b i (Some ya) (Some yb)) (lerp a b i ya yb) (722 / 100 * (eps b64 * B)).
Proof.
  intros Ha Hb L Hi Hg Fa Fb Ba Bb HB. unfold np_interp.
  destruct (index_gap a b Ha Hb) as (-> & Fg). destruct (index_gap a i Ha ltac:(lia)) as (-> & Fk).
  assert (Lb : Rabs (lerp a b i ya yb) <= B) by (apply Rabs_le_inv in Ba, Bb; apply Rabs_le; now apply lerp_bound).
  assert (G1 : 1 <= IZR b - IZR a <= 1000000).
  { rewrite <- minus_IZR. split; apply IZR_le; lia. }
  destruct Hi as [I1 I2]. apply IZR_le in I1, I2. set (g := IZR b - IZR a) in *. set (k := IZR i - IZR a) in *. assert (K : 0 <= k <= g) by (unfold k, g; lra).
  assert (E : lerp a b i ya yb = (yb - ya) / g * k + ya) by (unfold lerp; fold g k; field; lra). rewrite E in *.
  pose proof eps_64 as U. set (u := eps b64) in *. assert (uB : 0 < u * B) by (apply Rmult_lt_0_compat; lra).
  assert (us : u * B <= / 1000000 * B) by (apply Rmult_le_compat_r; lra).
  assert (N1 : near b64 (nsub (Some yb) (Some ya)) (yb - ya) (0 + 0 + u * (2 * B))).
  { apply (near_sub b64 b64 pi64 m fine_64); try (now apply near_0); [|unfold big; lra].
    unfold Rminus at 1. pose proof (Rabs_triang yb (- ya)) as T. rewrite Rabs_Ropp in T. lra. }
  set (r := B / g).
  assert (Ig : / 1000000 <= / g) by (apply Rinv_le_contravar; lra).
  assert (Ig1 : / g <= 1) by (rewrite <- Rinv_1; apply Rinv_le_contravar; lra).
  assert (r1 : / 1000000 * B <= r) by (unfold r, Rdiv; rewrite (Rmult_comm B); apply Rmult_le_compat_r; lra).
  assert (r2 : r <= B) by (unfold r, Rdiv; rewrite <- (Rmult_1_r B) at 2; apply Rmult_le_compat_l; lra).
  assert (rg : r * g = B) by (unfold r; field; lra).
  assert (ur : 0 < u * r) by (apply Rmult_lt_0_compat; lra).
  assert (urs : u * r <= / 1000000 * r) by (apply Rmult_le_compat_r; lra).
  assert (Q : Rabs ((yb - ya) / g) <= 2 * r).
  { unfold Rdiv. rewrite Rabs_mult, (Rabs_pos_eq (/ g)) by lra. replace (2 * r) with (2 * B * / g) by (unfold r; field; lra).
    apply Rmult_le_compat_r; [lra|]. pose proof (Rabs_triang yb (- ya)) as T. rewrite Rabs_Ropp in T. unfold Rminus. lra. }
  assert (D : (0 + 0 + u * (2 * B) + 2 * r * 0) / g = 2 * (u * r)) by (unfold r; field; lra).
  pose proof (near_div b64 b64 pi64 m fine_64 _ (Some g) _ g _ 0 (2 * r) g (201 / 100 * r) N1 (near_0 b64 g Fg) Q
    ltac:(rewrite Rabs_pos_eq; lra) ltac:(lra) ltac:(rewrite D; lra) ltac:(unfold big; lra)) as N2.
  rewrite D in N2. fold u in N2.
  assert (Ak : Rabs k <= g) by (rewrite Rabs_pos_eq; lra).
  assert (P1 : g * (2 * (u * r) + u * (201 / 100 * r)) = 401 / 100 * (u * B)) by (unfold r; field; lra).
  assert (P2 : 2 * r * g = 2 * B) by (unfold r; field; lra).
  pose proof (near_mul b64 b64 pi64 m fine_64 _ (Some k) _ k _ 0 (2 * r) g (201 / 100 * B) N2 (near_0 b64 k Fk) Q Ak
    ltac:(rewrite P1, P2; lra) ltac:(unfold big; lra)) as N3. rewrite P1 in N3. fold u in N3.
  eapply near_weaken; [|apply (near_add b64 b64 pi64 m fine_64 _ _ _ _ _ _ (101 / 100 * B) N3 (near_0 b64 ya Fa))]; fold u; [lra|lra|unfold big; lra].
Qed.

(** along one axis *)
Lemma axis_near l (u : Z -> option R) p i x ya yb B : indices l -> (last_index l <= 1000000)%Z -> (0 <= p)%Z -> (p + 1 < lenz l)%Z ->
  (nthz l p <= i <= nthz l (p + 1))%Z -> axis_value l u i x -> u p = Some ya -> u (p + 1)%Z = Some yb ->
  fl b64 ya -> fl b64 yb -> Rabs ya <= B -> Rabs yb <= B -> / 1000 <= B <= 200000000 ->
  near b64 x (lerp (nthz l p) (nthz l (p + 1)) i ya yb) (722 / 100 * (eps b64 * B)).
Proof.
  intros Hl HL Hp Hp1 Hi A Ya Yb Fa Fb Ba Bb HB. assert (L : (nthz l p < nthz l (p + 1))%Z) by (apply Hl; lia).
  pose proof (IZR_lt _ _ L) as L'. assert (P : 0 <= 722 / 100 * (eps b64 * B)).
  { pose proof eps_64. apply Rmult_le_pos; [lra|]. apply Rmult_le_pos; lra. }
  destruct (Z.eq_dec i (nthz l p)) as [-> |].
  { rewrite (axis_at l u p x Hl ltac:(lia) A), Ya. replace (lerp _ _ _ _ _) with ya by (unfold lerp; field; lra). eapply near_weaken; [exact P|now apply near_0]. }
  destruct (Z.eq_dec i (nthz l (p + 1))) as [-> |].
  { rewrite (axis_at l u (p + 1) x Hl ltac:(lia) A), Yb. replace (lerp _ _ _ _ _) with yb by (unfold lerp; field; lra). eapply near_weaken; [exact P|now apply near_0]. }
  assert (N0 : (0 <= nthz l p)%Z) by (pose proof (indices_mono l 0 p Hl ltac:(lia) ltac:(lia)); destruct Hl as (_ & Z0 & _); lia).
  assert (N1 : (nthz l (p + 1) <= last_index l)%Z) by (apply (indices_mono l); [exact Hl|lia|lia]).
  destruct A as (q & Hq & [[E _]|(Hq1 & Hb & ->)]).
  - exfalso. pose proof (position_between l p i Hl Hp Hp1 ltac:(lia)) as C. rewrite <- E, position_at in C by assumption. discriminate.
  - assert (q = p).
    { destruct (Z.lt_trichotomy q p) as [C|[C|C]]; [|exact C|].
      - pose proof (indices_mono l (q + 1) p Hl ltac:(lia) ltac:(lia)). lia.
      - pose proof (indices_mono l (p + 1) q Hl ltac:(lia) ltac:(lia)). lia. }
    subst q. rewrite Ya, Yb. apply np_interp_near; try assumption; lia.
Qed.

Lemma index_range l k x : indices l -> (0 <= k)%Z -> (k + 1 < lenz l)%Z -> (nthz l k <= x <= nthz l (k + 1))%Z -> (0 <= x <= last_index l)%Z.
Proof.
  intros Hl Hk Hk1 Hx. pose proof (indices_mono l 0 k Hl ltac:(lia) ltac:(lia)). pose proof (indices_mono l (k + 1) (lenz l - 1) Hl ltac:(lia) ltac:(lia)).
  destruct Hl as (_ & B & _). unfold last_index. lia.
Qed.

Lemma interp_near cols rows data v B d p q i j :
  indices cols -> indices rows -> (last_index cols <= 1000000)%Z -> (last_index rows <= 1000000)%Z ->
  double_ties cols rows data v B -> / 1000 <= B <= 100000000 ->
  interp true cols rows data = Ok d ->
  (0 <= p)%Z -> (p + 1 < lenz rows)%Z -> (0 <= q)%Z -> (q + 1 < lenz cols)%Z ->
  (nthz rows p <= i <= nthz rows (p + 1))%Z -> (nthz cols q <= j <= nthz cols (q + 1))%Z ->
  let along_row q := lerp (nthz rows p) (nthz rows (p + 1)) i (v p q) (v (p + 1)%Z q) in
  exists x, f_at d i j = Some x /\
    near b64 x (lerp (nthz cols q) (nthz cols (q + 1)) j (along_row q) (along_row (q + 1)%Z)) (15 * bpow radix2 (-53) * B).
Proof.
  intros Hc Hr Lc Lr (Tv & Dv) HB E Hp Hp1 Hq Hq1 Hi Hj along_row.
  destruct (interp_ok cols rows data (fun p q => Some (v p q)) Hc Hr Tv) as (d' & E' & _ & _ & V). rewrite E in E'. injection E' as <-.
  destruct (V i j (index_range rows p i Hr Hp Hp1 Hi) (index_range cols q j Hc Hq Hq1 Hj)) as (u & x & X1 & X2 & Ex).
  exists x. split; [exact Ex|].
  pose proof eps_64 as U. set (ep := eps b64) in *.
  assert (eB : 0 < ep * B) by (apply Rmult_lt_0_compat; lra). assert (eBs : ep * B <= / 1000000 * B) by (apply Rmult_le_compat_r; lra).
  assert (R : forall q, (0 <= q < lenz cols)%Z -> near b64 (u q) (along_row q) (722 / 100 * (ep * B)) /\ Rabs (along_row q) <= B).
  { intros k Hk. destruct (Dv p k ltac:(lia) Hk) as (F1 & B1). destruct (Dv (p + 1)%Z k ltac:(lia) Hk) as (F2 & B2). split.
    - apply (axis_near rows (fun p => Some (v p k)) p i (u k)); try assumption; try reflexivity; [exact (X1 k Hk)|lra].
    - apply Rabs_le_inv in B1, B2. apply Rabs_le. apply lerp_bound; try assumption. apply Hr; lia. }
  destruct (R q ltac:(lia)) as ((y0 & E0 & F0 & D0) & B0). destruct (R (q + 1)%Z ltac:(lia)) as ((y1 & E1 & F1 & D1) & B1).
  assert (Lq : (nthz cols q < nthz cols (q + 1))%Z) by (apply Hc; lia).
  assert (C : forall y t, Rabs (y - t) <= 722 / 100 * (ep * B) -> Rabs t <= B -> Rabs y <= 10001 / 10000 * B).
  { intros y t Hy Ht. replace y with ((y - t) + t) by ring. eapply Rle_trans; [apply Rabs_triang|]. lra. }
  pose proof (axis_near cols u q j x y0 y1 (10001 / 10000 * B) Hc Lc Hq Hq1 Hj X2 E0 E1 F0 F1 (C _ _ D0 B0) (C _ _ D1 B1) ltac:(lra)) as N.
  eapply near_move; [|exact N]. fold ep.
  pose proof (lerp_near _ _ j y0 y1 _ _ _ Lq Hj D0 D1) as M.
  assert (S : ep = bpow radix2 (-53) * (1 + / 1000)) by reflexivity.
  replace (ep * (10001 / 10000 * B)) with (10001 / 10000 * (ep * B)) by ring.
  assert (S' : ep * B = (1 + / 1000) * (bpow radix2 (-53) * B)) by (rewrite S; ring).
  assert (0 < bpow radix2 (-53) * B) by (apply Rmult_lt_0_compat; [apply bpow_gt_0|lra]).
  lra.
Qed.
End Basic64.

(** ** C147: rounding errors *)
Theorem C147_double : forall m cols rows (lat lon : frame (option R)) vlat vlon olat olon B,
  indices cols -> indices rows -> (last_index cols <= 1000000)%Z -> (last_index rows <= 1000000)%Z ->
  double_ties cols rows lat vlat B -> double_ties cols rows lon vlon B -> / 1000 <= B <= 100000000 ->
  @basic_interpolate _ (F64 m) true cols rows lat lon = Ok (olat, olon) ->
  forall p q i j, (0 <= p)%Z -> (p + 1 < lenz rows)%Z -> (0 <= q)%Z -> (q + 1 < lenz cols)%Z ->
    (nthz rows p <= i <= nthz rows (p + 1))%Z -> (nthz cols q <= j <= nthz cols (q + 1))%Z ->
    let along_row v q := lerp (nthz rows p) (nthz rows (p + 1)) i (v p q) (v (p + 1)%Z q) in
    let value v := lerp (nthz cols q) (nthz cols (q + 1)) j (along_row v q) (along_row v (q + 1)%Z) in
    exists x y, f_at olat i j = Some (Some x) /\ f_at olon i j = Some (Some y) /\
      Rabs (x - value vlat) <= 15 * bpow radix2 (-53) * B /\ Rabs (y - value vlon) <= 15 * bpow radix2 (-53) * B.
Proof.
  intros m cols rows lat lon vlat vlon olat olon B Hc Hr Lc Lr Tlat Tlon HB E p q i j Hp Hp1 Hq Hq1 Hi Hj along_row value.
  apply (C68_order (N := F64 m)) in E. destruct E as (E1 & E2).
  destruct (interp_near m cols rows lat vlat B olat p q i j Hc Hr Lc Lr Tlat HB E1 Hp Hp1 Hq Hq1 Hi Hj) as (x & Ex & (x' & -> & _ & Dx)).
  destruct (interp_near m cols rows lon vlon B olon p q i j Hc Hr Lc Lr Tlon HB E2 Hp Hp1 Hq Hq1 Hi Hj) as (y & Ey & (y' & -> & _ & Dy)).
  exists x', y'. auto.
Qed.
Print Assumptions C147_double.

(** constant tie values come back exactly, whatever their size *)
Lemma np_interp_constant m a b i c : (Z.abs a <= 1000000)%Z -> (Z.abs b <= 1000000)%Z -> (a < b)%Z -> (a <= i <= b)%Z -> fl b64 c ->
  @np_interp _ (F64 m) a b i (Some c) (Some c) = Some c.
Proof.
  intros Ha Hb L Hi Fc. unfold np_interp.
  destruct (index_gap m a b Ha Hb) as (G & _). destruct (index_gap m a i Ha ltac:(lia)) as (K & _).
  change (DB m) with (F64 m) in G, K. rewrite G, K.
  rewrite (sub_same m c : @nsub _ (F64 m) (Some c) (Some c) = Some 0). apply IZR_lt in L.
  assert (Q : @ndiv _ (F64 m) (Some 0) (Some (IZR b - IZR a)) = Some 0).
  { cbn [ndiv F64 FN bind2]. destruct (Req_EM_T (IZR b - IZR a) 0); [lra|]. unfold Rdiv. rewrite Rmult_0_l. apply fit_0. }
  rewrite Q. rewrite (mul_0l m _ : @nmul _ (F64 m) (Some 0) (Some (IZR i - IZR a)) = Some 0).
  cbn [nadd F64 FN bind2]. rewrite Rplus_0_l. now apply fit_fl.
Qed.
Theorem C147_constant : forall m cols rows (lat lon : frame (option R)) a b,
  indices cols -> indices rows -> (last_index cols <= 1000000)%Z -> (last_index rows <= 1000000)%Z -> fl b64 a -> fl b64 b ->
  ties cols rows lat (fun _ _ => Some a) -> ties cols rows lon (fun _ _ => Some b) ->
  exists olat olon, @basic_interpolate _ (F64 m) true cols rows lat lon = Ok (olat, olon) /\
    forall i j, (0 <= i <= last_index rows)%Z -> (0 <= j <= last_index cols)%Z -> f_at olat i j = Some (Some a) /\ f_at olon i j = Some (Some b).
Proof.
  intros m cols rows lat lon a b Hc Hr Lc Lr Fa Fb Tlat Tlon.
  destruct (interp_ok (N := F64 m) cols rows lat _ Hc Hr Tlat) as (o1 & E1 & _ & _ & V1).
  destruct (interp_ok (N := F64 m) cols rows lon _ Hc Hr Tlon) as (o2 & E2 & _ & _ & V2).
  exists o1, o2. unfold basic_interpolate. rewrite E1, E2. cbn [bind]. split; [reflexivity|].
  assert (A : forall l (u : Z -> option R) c i x, indices l -> (last_index l <= 1000000)%Z -> fl b64 c -> (forall p, (0 <= p < lenz l)%Z -> u p = Some c) ->
    @axis_value _ (F64 m) l u i x -> x = Some c).
  { intros l u c i x Hl Ll Fc Hu (p & Hp & [[_ ->]|(Hp1 & Hi & ->)]); [now apply Hu|]. rewrite !Hu by lia.
    assert (0 <= nthz l p)%Z by (pose proof (indices_mono l 0 p Hl ltac:(lia) ltac:(lia)); destruct Hl as (_ & Z0 & _); lia).
    assert (nthz l (p + 1) <= last_index l)%Z by (apply (indices_mono l); [exact Hl|lia|lia]).
    apply np_interp_constant; try assumption; lia. }
  intros i j Hi Hj. destruct (V1 i j Hi Hj) as (u1 & x1 & U1 & X1 & ->). destruct (V2 i j Hi Hj) as (u2 & x2 & U2 & X2 & ->).
  split; f_equal; [apply (A cols u1 a j x1 Hc Lc Fa); [|exact X1]|apply (A cols u2 b j x2 Hc Lc Fb); [|exact X2]]; intros q Hq.
  - apply (A rows (fun _ => Some a) a i (u1 q) Hr Lr Fa); [reflexivity|exact (U1 q Hq)].
  - apply (A rows (fun _ => Some b) b i (u2 q) Hr Lr Fb); [reflexivity|exact (U2 q Hq)].
Qed.
Print Assumptions C147_constant.

(** never further outside the range of the four tie values than these 15 roundings *)
Theorem C147_between : forall m cols rows (lat lon : frame (option R)) vlat vlon olat olon B lo hi lo' hi',
  indices cols -> indices rows -> (last_index cols <= 1000000)%Z -> (last_index rows <= 1000000)%Z ->
  double_ties cols rows lat vlat B -> double_ties cols rows lon vlon B -> / 1000 <= B <= 100000000 ->
  @basic_interpolate _ (F64 m) true cols rows lat lon = Ok (olat, olon) ->
  forall p q i j, (0 <= p)%Z -> (p + 1 < lenz rows)%Z -> (0 <= q)%Z -> (q + 1 < lenz cols)%Z ->
    (nthz rows p <= i <= nthz rows (p + 1))%Z -> (nthz cols q <= j <= nthz cols (q + 1))%Z ->
    (forall a b, (a = p \/ a = p + 1)%Z -> (b = q \/ b = q + 1)%Z -> lo <= vlat a b <= hi /\ lo' <= vlon a b <= hi') ->
    exists x y, f_at olat i j = Some (Some x) /\ f_at olon i j = Some (Some y) /\
      lo - 15 * bpow radix2 (-53) * B <= x <= hi + 15 * bpow radix2 (-53) * B /\ lo' - 15 * bpow radix2 (-53) * B <= y <= hi' + 15 * bpow radix2 (-53) * B.
Proof.
  intros m cols rows lat lon vlat vlon olat olon B lo hi lo' hi' Hc Hr Lc Lr Tlat Tlon HB E p q i j Hp Hp1 Hq Hq1 Hi Hj K.
  destruct (C147_double m cols rows lat lon vlat vlon olat olon B Hc Hr Lc Lr Tlat Tlon HB E p q i j Hp Hp1 Hq Hq1 Hi Hj) as (x & y & Ex & Ey & D & D').
  exists x, y. split; [exact Ex|]. split; [exact Ey|]. cbv zeta in D, D'.
  assert (Lp : (nthz rows p < nthz rows (p + 1))%Z) by (apply Hr; lia). assert (Lq : (nthz cols q < nthz cols (q + 1))%Z) by (apply Hc; lia).
  match type of D with Rabs (x - ?v) <= _ => assert (R : lo <= v <= hi) end.
  { apply lerp_bound; try assumption; apply lerp_bound; try assumption; apply K; auto. }
  match type of D' with Rabs (y - ?v) <= _ => assert (R' : lo' <= v <= hi') end.
  { apply lerp_bound; try assumption; apply lerp_bound; try assumption; apply K; auto. }
  apply Rabs_le_inv in D, D'. lra.
Qed.
Print Assumptions C147_between.

(** the hypotheses, for tie rows 0, 4 and tie columns 0, 2, 5 *)
Example C147_case : forall m, exists olat olon x,
  @basic_interpolate _ (F64 m) true [0; 2; 5]%Z [0; 4]%Z {| f_rows := 2; f_cols := 3; f_at := fun i j => Some (Some (IZR (4 * i + j))) |}
    {| f_rows := 2; f_cols := 3; f_at := fun i j => Some (Some (IZR (i + j))) |} = Ok (olat, olon) /\
  f_at olat 1%Z 3%Z = Some (Some x) /\ Rabs (x - (2 + 1 / 3)) <= 150 * bpow radix2 (-53).
Proof.
  intros m. destruct C59_case as (I1 & I2 & _).
  set (lat := {| f_rows := 2; f_cols := 3; f_at := fun i j => Some (Some (IZR (4 * i + j))) |} : frame (option R)).
  set (lon := {| f_rows := 2; f_cols := 3; f_at := fun i j => Some (Some (IZR (i + j))) |} : frame (option R)).
  assert (F : forall z, (0 <= z <= 10)%Z -> fl b64 (IZR z) /\ Rabs (IZR z) <= 10).
  { intros z Hz. split; [pose proof (fix_fl z 0 ltac:(lia) ltac:(lia)) as K; cbn [Z.opp bpow] in K; now rewrite Rmult_1_r in K|].
    rewrite Rabs_pos_eq by (apply IZR_le; lia). apply IZR_le. lia. }
  assert (T1 : double_ties [0; 2; 5]%Z [0; 4]%Z lat (fun i j => IZR (4 * i + j)) 10).
  { split; [repeat split|]. intros p q Hp Hq. unfold lenz in Hp, Hq. cbn [length] in Hp, Hq. apply F. lia. }
  assert (T2 : double_ties [0; 2; 5]%Z [0; 4]%Z lon (fun i j => IZR (i + j)) 10).
  { split; [repeat split|]. intros p q Hp Hq. unfold lenz in Hp, Hq. cbn [length] in Hp, Hq. apply F. lia. }
  destruct (C59_tie_points (N := F64 m) _ _ lat lon _ _ I1 I2 (proj1 T1) (proj1 T2)) as (olat & olon & E & _).
  exists olat, olon.
  assert (M1 : (last_index [0; 2; 5] <= 1000000)%Z) by (vm_compute; discriminate). assert (M2 : (last_index [0; 4] <= 1000000)%Z) by (vm_compute; discriminate).
  destruct (C147_double m _ _ lat lon _ _ olat olon 10 I1 I2 M1 M2 T1 T2 ltac:(lra) E 0%Z 1%Z 1%Z 3%Z ltac:(lia) ltac:(reflexivity) ltac:(lia) ltac:(reflexivity)
    ltac:(vm_compute; split; discriminate) ltac:(vm_compute; split; discriminate)) as (x & y & Ex & _ & D & _).
  exists x. split; [exact E|]. split; [exact Ex|]. cbv zeta in D.
  replace (150 * bpow radix2 (-53)) with (15 * bpow radix2 (-53) * 10) by ring.
  match type of D with Rabs (x - ?v) <= _ => replace (2 + 1 / 3) with v; [exact D|] end.
  change (nthz [0; 4]%Z 0) with 0%Z. change (nthz [0; 4]%Z (0 + 1)) with 4%Z. change (nthz [0; 2; 5]%Z 1) with 2%Z. change (nthz [0; 2; 5]%Z (1 + 1)) with 5%Z.
  unfold lerp. cbn. field.
Qed.
