(** C142: SingleGridInterpolator on float32 values. *)
From Coq Require Import ZArith List Bool Arith Lia Reals Lra.
From Flocq.Core Require Import Core.
From Verif Require Import Spec Base Num Geo GeoProofs Chunks ChunksProofs GridLinear GridSingle PropsGeo PropsChunks PropsGridLinear.
From Verif Require Import Float FloatGeo FloatAcc FloatTrip FloatNear FloatGrid FloatVii PropsFloatGrid FloatGrid32.
Import ListNotations.
Open Scope R_scope.

(** the interpolator on float32 values; axes and points are doubles *)
Definition grid32 (m : libm) := @rgi_single (option R) (F64_32 m) Grid.

Lemma grid_32 m i ys xs w y x : axes ys xs -> inside ys y -> inside xs x -> shaped (length ys) (length xs) w ->
  let r := @locate _ RN (map Some ys) (Some y) in let c := @locate _ RN (map Some xs) (Some x) in
  grid32 m i (points_of ys xs) (finite w) tt (Some y) (Some x) =
  Some (@nst _ (F64_32 m) (@linear_np _ (F64_32 m) (fun r c => nth c (nth r (map (map Some) w) []) (@nz _ (F64 m) 0)) r c
    (@ndiv _ (F64_32 m) (@nsub _ (F64_32 m) (Some y) (Some (nth r ys 0))) (@nsub _ (F64_32 m) (Some (nth (S r) ys 0)) (Some (nth r ys 0))))
    (@ndiv _ (F64_32 m) (@nsub _ (F64_32 m) (Some x) (Some (nth c xs 0))) (@nsub _ (F64_32 m) (Some (nth (S c) xs 0)) (Some (nth c xs 0)))))).
Proof.
  intros (Iy & Ix & Ly & Lx) Hy Hx Sw. cbv zeta. unfold grid32, rgi_single, grid_point_with, points_of, finite, floats. cbn [fst snd v_data v_int].
  assert (U : forall A (l : list R) (k : list A), increasing l -> @flip _ (F64_32 m) _ (map Some l) k = k) by (intros A l k I; apply (flip_up l k I)).
  rewrite !U by assumption.
  assert (U' : map (@flip _ (F64_32 m) (option R) (map Some xs)) (map (map Some) w) = map (map Some) w).
  { rewrite <- map_id. apply map_ext. intros k. now apply U. }
  rewrite U'.
  change (@nz _ (F64_32 m) 0) with (@nz _ (F64 m) 0).
  assert (W : forall l z, inside l z -> @within _ (F64_32 m) (map Some l) (Some z) = true).
  { intros l z H. change (@within _ (F64 m) (map Some l) (Some z) = true). unfold within. rewrite map_length, !nth_some64. apply within_RN in H. unfold within in H. rewrite map_length, !nth_some in H. exact H. }
  rewrite !W by assumption. cbn [andb negb]. rewrite andb_false_r. unfold distance. change (@nz _ (F64_32 m) 0) with (@nz _ (F64 m) 0). rewrite !nth_some64. unfold astype.
  change (@locate _ (F64_32 m) (map Some ys) (Some y)) with (@locate _ RN (map Some ys) (Some y)).
  change (@locate _ (F64_32 m) (map Some xs) (Some x)) with (@locate _ RN (map Some xs) (Some x)).
  destruct (fill_value i); reflexivity.
Qed.

Definition floats32 : list (list R) -> Prop := all2 (fl b32).

(** one point: the sum of its cell, rounded to float32 *)
Lemma grid_32_sum m i ys xs w y x : axes ys xs -> doubles ys -> doubles xs -> not_huge ys -> not_huge xs -> fl b64 y -> fl b64 x ->
  shaped (length ys) (length xs) w -> floats32 w -> inside ys y -> inside xs x ->
  exists r c p q, in_cell ys r y /\ in_cell xs c x /\ gf64 p /\ gf64 q /\ 0 <= p <= 1 /\ 0 <= q <= 1 /\
    @ndiv _ (F64 m) (@nsub _ (F64 m) (Some y) (Some (nth r ys 0))) (@nsub _ (F64 m) (Some (nth (S r) ys 0)) (Some (nth r ys 0))) = Some p /\
    @ndiv _ (F64 m) (@nsub _ (F64 m) (Some x) (Some (nth c xs 0))) (@nsub _ (F64 m) (Some (nth (S c) xs 0)) (Some (nth c xs 0))) = Some q /\
    grid32 m i (points_of ys xs) (finite w) tt (Some y) (Some x) =
    Some (fit b32 (sum4 (at2 0 w r c) (at2 0 w r (S c)) (at2 0 w (S r) c) (at2 0 w (S r) (S c)) p q)).
Proof.
  intros Ha Dy Dx Gy Gx Fy Fx Sw Dw Hy Hx. pose proof Ha as (Iy & Ix & Ly & Lx).
  rewrite (grid_32 m i ys xs w y x Ha Hy Hx Sw). cbv zeta.
  pose proof (located_in_cell ys y Iy Ly) as Hr. pose proof (located_in_cell xs x Ix Lx) as Hc.
  set (r := @locate _ RN (map Some ys) (Some y)) in *. set (c := @locate _ RN (map Some xs) (Some x)) in *. clearbody r c.
  pose proof (inside_cell _ _ _ Hy Hr) as By. pose proof (inside_cell _ _ _ Hx Hc) as Bx.
  pose proof Hr as (Lr & _). pose proof Hc as (Lc & _). pose proof (step_pos ys r Iy Lr) as Sy. pose proof (step_pos xs c Ix Lc) as Sx.
  assert (Py : forall q, (q < length ys)%nat -> fl b64 (nth q ys 0) /\ Rabs (nth q ys 0) <= bpow radix2 1000) by (intros; split; [now apply fl_nth|now apply huge_nth]).
  assert (Px : forall q, (q < length xs)%nat -> fl b64 (nth q xs 0) /\ Rabs (nth q xs 0) <= bpow radix2 1000) by (intros; split; [now apply fl_nth|now apply huge_nth]).
  destruct (Py r ltac:(lia)) as (A1 & A2). destruct (Py (S r) Lr) as (A3 & A4). destruct (Px c ltac:(lia)) as (C1 & C2). destruct (Px (S c) Lc) as (C3 & C4).
  destruct (dist_unit m _ _ y A1 A3 Fy Sy By A2 A4) as (p & Ep & Fp & Hp). destruct (dist_unit m _ _ x C1 C3 Fx Sx Bx C2 C4) as (q & Eq & Fq & Hq).
  exists r, c, p, q. repeat (split; [assumption|]). f_equal.
  match goal with |- @nst _ _ (@linear_np _ _ ?V _ _ ?a ?b) = _ => assert (X : a = Some p) by exact Ep; assert (Y : b = Some q) by exact Eq; rewrite X, Y;
    pose proof (linear_np_value m (at2 0 w) V r c p q Fp Fq Hp Hq) as L end.
  unfold SM in L. rewrite L; [reflexivity|]. intros a b Ea Eb.
  assert (La : (a < length ys)%nat) by lia. assert (Lb : (b < length xs)%nat) by lia.
  split; [now apply (at_finite64 m w (length ys) (length xs))|]. destruct (all2_at _ 0 _ _ w a b Dw Sw La Lb) as (_ & Bd). left. exact Bd.
Qed.

(** the largest and the smallest of four *)
Lemma four_max (P : R -> Prop) a b c d : P a -> P b -> P c -> P d -> exists h, P h /\ a <= h /\ b <= h /\ c <= h /\ d <= h /\ (h = a \/ h = b \/ h = c \/ h = d).
Proof.
  intros Pa Pb Pc Pd. destruct (Rle_dec a b), (Rle_dec c d), (Rle_dec a c), (Rle_dec a d), (Rle_dec b c), (Rle_dec b d);
  first [exists a; repeat split; [assumption|lra|lra|lra|lra|tauto]|exists b; repeat split; [assumption|lra|lra|lra|lra|tauto]
        |exists c; repeat split; [assumption|lra|lra|lra|lra|tauto]|exists d; repeat split; [assumption|lra|lra|lra|lra|tauto]].
Qed.
Lemma four_min (P : R -> Prop) a b c d : P a -> P b -> P c -> P d -> exists h, P h /\ h <= a /\ h <= b /\ h <= c /\ h <= d /\ (h = a \/ h = b \/ h = c \/ h = d).
Proof.
  intros Pa Pb Pc Pd. destruct (Rle_dec a b), (Rle_dec c d), (Rle_dec a c), (Rle_dec a d), (Rle_dec b c), (Rle_dec b d);
  first [exists a; repeat split; [assumption|lra|lra|lra|lra|tauto]|exists b; repeat split; [assumption|lra|lra|lra|lra|tauto]
        |exists c; repeat split; [assumption|lra|lra|lra|lra|tauto]|exists d; repeat split; [assumption|lra|lra|lra|lra|tauto]].
Qed.

(** on a grid line only the values on that line count *)
Lemma sum4_row0 v1 v2 v3 v4 q : sum4 v1 v2 v3 v4 0 q = sum4 v1 v2 v1 v2 0 q.
Proof. unfold sum4. now rewrite !Rmult_0_l, r64_0, !Rmult_0_r. Qed.
Lemma sum4_row1 v1 v2 v3 v4 q : sum4 v1 v2 v3 v4 1 q = sum4 v3 v4 v3 v4 1 q.
Proof. unfold sum4. replace (1 - 1) with 0 by ring. now rewrite r64_0, !Rmult_0_l, r64_0, !Rmult_0_r. Qed.
Lemma sum4_col0 v1 v2 v3 v4 p : sum4 v1 v2 v3 v4 p 0 = sum4 v1 v1 v3 v3 p 0.
Proof. unfold sum4. now rewrite !Rmult_0_r, r64_0, !Rmult_0_r. Qed.
Lemma sum4_col1 v1 v2 v3 v4 p : sum4 v1 v2 v3 v4 p 1 = sum4 v2 v2 v4 v4 p 1.
Proof. unfold sum4. replace (1 - 1) with 0 by ring. now rewrite r64_0, !Rmult_0_r, r64_0, !Rmult_0_r. Qed.

(** two cells that contain the same point, and the weight computed in the second *)
Lemma two_cells m l r0 r y p : increasing l -> doubles l -> not_huge l -> inside l y -> in_cell l r0 y -> in_cell l r y ->
  @ndiv _ (F64 m) (@nsub _ (F64 m) (Some y) (Some (nth r l 0))) (@nsub _ (F64 m) (Some (nth (S r) l 0)) (Some (nth r l 0))) = Some p ->
  r = r0 \/ (r = S r0 /\ p = 0) \/ (S r = r0 /\ p = 1).
Proof.
  intros I D G Hy H0 H1 Ep. pose proof (inside_cell _ _ _ Hy H0) as A. pose proof (inside_cell _ _ _ Hy H1) as B.
  destruct H0 as (L0 & _), H1 as (L1 & _). pose proof (step_pos l r I L1) as S1.
  assert (P : forall q, (q < length l)%nat -> fl b64 (nth q l 0) /\ Rabs (nth q l 0) <= bpow radix2 1000) by (intros; split; [now apply fl_nth|now apply huge_nth]).
  destruct (P r ltac:(lia)) as (F1 & B1). destruct (P (S r) L1) as (F2 & B2).
  assert (Lt : forall a b, (a < b < length l)%nat -> nth a l 0 < nth b l 0) by (intros; now apply I).
  destruct (Nat.eq_dec r r0) as [->|Nr]; [now left|right].
  destruct (Nat.lt_ge_cases r r0) as [Q|Q].
  - right. assert (S r = r0).
    { destruct (Nat.eq_dec (S r) r0) as [e|e]; [exact e|]. pose proof (Lt (S r) r0 ltac:(lia)). lra. }
    split; [assumption|]. subst r0. assert (y = nth (S r) l 0) by lra. subst y.
    pose proof (dist_right m _ _ F1 F2 S1 B1 B2) as Q1. assert (Q2 : Some p = Some 1) by (rewrite <- Ep; exact Q1). now injection Q2.
  - left. assert (r = S r0).
    { destruct (Nat.eq_dec (S r0) r) as [e|e]; [now symmetry|]. pose proof (Lt (S r0) r ltac:(lia)). lra. }
    split; [assumption|]. assert (y = nth r l 0) by (subst r; lra). subst y.
    pose proof (dist_left m _ _ F1 F2 S1 B1 B2) as Q1. assert (Q2 : Some p = Some 0) by (rewrite <- Ep; exact Q1). now injection Q2.
Qed.

(** the sum uses values of any cell that contains the point *)
Lemma cell_values (v : nat -> nat -> R) r0 r c0 c p q : r = r0 \/ (r = S r0 /\ p = 0) \/ (S r = r0 /\ p = 1) -> c = c0 \/ (c = S c0 /\ q = 0) \/ (S c = c0 /\ q = 1) ->
  exists a b d e, (a = r0 \/ a = S r0)%nat /\ (b = r0 \/ b = S r0)%nat /\ (d = c0 \/ d = S c0)%nat /\ (e = c0 \/ e = S c0)%nat /\
    sum4 (v r c) (v r (S c)) (v (S r) c) (v (S r) (S c)) p q = sum4 (v a d) (v a e) (v b d) (v b e) p q.
Proof.
  intros Hr Hc.
  assert (R : exists a b, (a = r0 \/ a = S r0)%nat /\ (b = r0 \/ b = S r0)%nat /\
    sum4 (v r c) (v r (S c)) (v (S r) c) (v (S r) (S c)) p q = sum4 (v a c) (v a (S c)) (v b c) (v b (S c)) p q).
  { destruct Hr as [->|[(-> & ->)|(E & ->)]].
    - exists r0, (S r0). auto.
    - exists (S r0), (S r0). split; [auto|]. split; [auto|]. apply sum4_row0.
    - exists r0, r0. split; [auto|]. split; [auto|]. rewrite <- E. apply sum4_row1. }
  destruct R as (a & b & Ha & Hb & ->). exists a, b.
  destruct Hc as [->|[(-> & ->)|(E & ->)]].
  - exists c0, (S c0). auto 6.
  - exists (S c0), (S c0). repeat (split; [auto|]). apply sum4_col0.
  - exists c0, c0. repeat (split; [auto|]). rewrite <- E. apply sum4_col1.
Qed.

Theorem C142_between : forall m i ys xs w y x r c lo hi,
  axes ys xs -> doubles ys -> doubles xs -> not_huge ys -> not_huge xs -> fl b64 y -> fl b64 x ->
  shaped (length ys) (length xs) w -> floats32 w -> inside ys y -> inside xs x -> in_cell ys r y -> in_cell xs c x ->
  (forall a b, (a = r \/ a = S r)%nat -> (b = c \/ b = S c)%nat -> lo <= at2 0 w a b <= hi) ->
  exists out, grid32 m i (points_of ys xs) (finite w) tt (Some y) (Some x) = Some (Some out) /\ fl b32 out /\ lo <= out <= hi.
Proof.
  intros m i ys xs w y x r0 c0 lo' hi' Ha Dy Dx Gy Gx Fy Fx Sw Dw Hy Hx Hr0 Hc0 H.
  destruct (grid_32_sum m i ys xs w y x Ha Dy Dx Gy Gx Fy Fx Sw Dw Hy Hx) as (r & c & p & q & Hr & Hc & Fp & Fq & Hp & Hq & Ep & Eq & E).
  pose proof Ha as (Iy & Ix & _).
  destruct (cell_values (at2 0 w) r0 r c0 c p q (two_cells m ys r0 r y p Iy Dy Gy Hy Hr0 Hr Ep) (two_cells m xs c0 c x q Ix Dx Gx Hx Hc0 Hc Eq))
    as (a & b & d & e & Ia & Ib & Id & Ie & Es). rewrite Es in E. clear Es Ep Eq Hr Hc r c.
  pose proof Hr0 as (Lr & _). pose proof Hc0 as (Lc & _).
  assert (V : forall a b, (a = r0 \/ a = S r0)%nat -> (b = c0 \/ b = S c0)%nat -> fl b32 (at2 0 w a b)).
  { intros k n Ea Eb. apply (all2_at _ 0 _ _ w k n Dw Sw); lia. }
  pose proof (V a d Ia Id) as V1. pose proof (V a e Ia Ie) as V2. pose proof (V b d Ib Id) as V3. pose proof (V b e Ib Ie) as V4.
  pose proof (H a d Ia Id) as H1. pose proof (H a e Ia Ie) as H2. pose proof (H b d Ib Id) as H3. pose proof (H b e Ib Ie) as H4.
  destruct (four_max (fl b32) _ _ _ _ V1 V2 V3 V4) as (hi & [Fh Bh] & M1 & M2 & M3 & M4 & Eh).
  destruct (four_min (fl b32) _ _ _ _ V1 V2 V3 V4) as (lo & [Fl Bl] & L1 & L2 & L3 & L4 & El).
  set (s := sum4 _ _ _ _ p q) in E. assert (K : lo <= rd b32 s <= hi) by (apply sum4_between; auto).
  assert (S : fit b32 s = Some (rd b32 s)).
  { unfold fit. destruct (Rlt_dec _ _) as [Q|Q]; [reflexivity|]. exfalso. apply Q. apply Rabs_def2 in Bh. apply Rabs_def2 in Bl. apply Rabs_def1; lra. }
  exists (rd b32 s). split; [rewrite E, S; reflexivity|]. split; [apply (fit_inv b32 good_b32 _ _ S)|]. split.
  - apply Rle_trans with lo; [|lra]. destruct El as [->|[->|[->| ->]]]; lra.
  - apply Rle_trans with hi; [lra|]. destruct Eh as [->|[->|[->| ->]]]; lra.
Qed.
Print Assumptions C142_between.

(** constant values come back unchanged *)
Theorem C142_constant : forall m i ys xs w y x v,
  axes ys xs -> doubles ys -> doubles xs -> not_huge ys -> not_huge xs -> fl b64 y -> fl b64 x ->
  shaped (length ys) (length xs) w -> fl b32 v -> all2 (fun z => z = v) w -> inside ys y -> inside xs x ->
  grid32 m i (points_of ys xs) (finite w) tt (Some y) (Some x) = Some (Some v).
Proof.
  intros m i ys xs w y x v Ha Dy Dx Gy Gx Fy Fx Sw Fv Cv Hy Hx.
  assert (Dw : floats32 w).
  { unfold floats32, all2 in *. eapply Forall_impl; [|exact Cv]. intros l. apply Forall_impl. intros z ->. exact Fv. }
  pose proof Ha as (Iy & Ix & Ly & Lx). pose proof (located_in_cell ys y Iy Ly) as Hr. pose proof (located_in_cell xs x Ix Lx) as Hc.
  destruct (C142_between m i ys xs w y x _ _ v v Ha Dy Dx Gy Gx Fy Fx Sw Dw Hy Hx Hr Hc) as (out & E & _ & K); [|rewrite E; do 2 f_equal; lra].
  destruct Hr as (Lr & _), Hc as (Lc & _). intros a b Ea Eb. rewrite (all2_at _ 0 _ _ w a b Cv Sw); [lra|lia|lia].
Qed.
Print Assumptions C142_constant.

(** accuracy: one rounding to float32 *)
Theorem C142_near : forall m i ys xs w y x r c B,
  axes ys xs -> spaced ys -> spaced xs -> doubles ys -> doubles xs -> not_huge ys -> not_huge xs -> fl b64 y -> fl b64 x ->
  shaped (length ys) (length xs) w -> floats32 w -> all2 (fun v => Rabs v <= B) w ->
  inside ys y -> inside xs x -> in_cell ys r y -> in_cell xs c x ->
  exists out, grid32 m i (points_of ys xs) (finite w) tt (Some y) (Some x) = Some (Some out) /\ fl b32 out /\
    Rabs (out - bilinear ys xs (at2 0 w) r c y x) <= 1000001 / 1000000 * bpow radix2 (-24) * B + bpow radix2 (-149).
Proof.
  intros m i ys xs w y x r0 c0 B Ha Py Px Dy Dx Gy Gx Fy Fx Sw Dw Bw Hy Hx Hr0 Hc0.
  destruct (grid_32_sum m i ys xs w y x Ha Dy Dx Gy Gx Fy Fx Sw Dw Hy Hx) as (r & c & p & q & Hr & Hc & Fp & Fq & Hp & Hq & Ep & Eq & E).
  destruct (C142_between m i ys xs w y x r0 c0 (- B) B Ha Dy Dx Gy Gx Fy Fx Sw Dw Hy Hx Hr0 Hc0) as (out & E' & Fo & _).
  { intros a b Ea Eb. destruct Hr0 as (L0 & _), Hc0 as (L1 & _). apply Rabs_le_inv. apply (all2_at _ 0 _ _ w a b Bw Sw); lia. }
  rewrite E in E'. injection E' as E'. exists out. split; [rewrite E, E'; reflexivity|]. split; [exact Fo|].
  pose proof Ha as (Iy & Ix & Ly & Lx). rewrite (bilinear_cells ys xs (at2 0 w) r0 r c0 c y x Iy Ix Hr0 Hr Hc0 Hc).
  pose proof (inside_cell _ _ _ Hy Hr) as By. pose proof (inside_cell _ _ _ Hx Hc) as Bx.
  destruct Hr as (Lr & _), Hc as (Lc & _). pose proof (step_pos ys r Iy Lr) as Sy. pose proof (step_pos xs c Ix Lc) as Sx.
  rewrite bilinear_weights by assumption. cbv zeta.
  set (t := (y - nth r ys 0) / (nth (S r) ys 0 - nth r ys 0)). set (u := (x - nth c xs 0) / (nth (S c) xs 0 - nth c xs 0)).
  assert (Ny := dist_near m _ _ y (fl_nth ys r Dy ltac:(lia)) (fl_nth ys (S r) Dy Lr) Fy By (Py r Lr)). fold t in Ny.
  assert (Nx := dist_near m _ _ x (fl_nth xs c Dx ltac:(lia)) (fl_nth xs (S c) Dx Lc) Fx Bx (Px c Lc)). fold u in Nx.
  destruct Ny as (p1 & E1 & _ & N1). destruct Nx as (q1 & E2 & _ & N2).
  assert (p1 = p) by (assert (Q : Some p = Some p1) by (rewrite <- Ep; exact E1); now injection Q). assert (q1 = q) by (assert (Q : Some q = Some q1) by (rewrite <- Eq; exact E2); now injection Q). subst p1 q1.
  assert (Ty : 0 <= t <= 1) by (apply weight_range; assumption). assert (Tx : 0 <= u <= 1) by (apply weight_range; assumption).
  assert (V : forall a b, (a = r \/ a = S r)%nat -> (b = c \/ b = S c)%nat -> Rabs (at2 0 w a b) <= B).
  { intros a b Ea Eb. apply (all2_at _ 0 _ _ w a b Bw Sw); lia. }
  pose proof (V r c ltac:(auto) ltac:(auto)) as V1. pose proof (V r (S c) ltac:(auto) ltac:(auto)) as V2.
  pose proof (V (S r) c ltac:(auto) ltac:(auto)) as V3. pose proof (V (S r) (S c) ltac:(auto) ltac:(auto)) as V4.
  set (v1 := at2 0 w r c) in *. set (v2 := at2 0 w r (S c)) in *. set (v3 := at2 0 w (S r) c) in *. set (v4 := at2 0 w (S r) (S c)) in *.
  pose proof (sum4_near v1 v2 v3 v4 B p q V1 V2 V3 V4 Hp Hq) as Ns. set (s := sum4 v1 v2 v3 v4 p q) in *.
  apply (fit_inv b32 good_b32) in E' as (Eo & _).
  assert (PB : 0 <= B) by (pose proof (Rabs_pos v1); lra).
  pose proof (rd_err b32 good_b32 ltac:(cbn; lia) s) as Er. rewrite <- Eo in Er. change (- fprec b32)%Z with (-24)%Z in Er. change (femin b32) with (-149)%Z in Er.
  assert (Ee : 31 / 10 * eps b64 <= 4 * bpow radix2 (-53)) by (unfold eps; cbn [fprec b64]; change (- (53))%Z with (-53)%Z; pose proof (bpow_gt_0 radix2 (-53)); lra).
  assert (Bl : forall t u, 0 <= t <= 1 -> 0 <= u <= 1 -> Rabs (v1 * ((1 - t) * (1 - u)) + v2 * ((1 - t) * u) + v3 * (t * (1 - u)) + v4 * (t * u)) <= B).
  { clear - V1 V2 V3 V4. intros t u Ht Hu. assert (Tm : forall z a b, Rabs z <= B -> 0 <= a <= 1 -> 0 <= b <= 1 -> Rabs (z * (a * b)) <= B * (a * b)).
    { intros z a b Hz Ha Hb. rewrite Rabs_mult, (Rabs_pos_eq (a * b)) by nra. apply Rmult_le_compat_r; nra. }
    eapply Rle_trans; [apply Rabs_triang|]. eapply Rle_trans; [apply Rplus_le_compat_r, Rabs_triang|].
    eapply Rle_trans; [do 2 apply Rplus_le_compat_r; apply Rabs_triang|].
    pose proof (Tm v1 (1 - t) (1 - u) V1 ltac:(lra) ltac:(lra)). pose proof (Tm v2 (1 - t) u V2 ltac:(lra) ltac:(lra)).
    pose proof (Tm v3 t (1 - u) V3 ltac:(lra) ltac:(lra)). pose proof (Tm v4 t u V4 ltac:(lra) ltac:(lra)).
    apply Rle_trans with (B * ((1 - t) * (1 - u)) + B * ((1 - t) * u) + B * (t * (1 - u)) + B * (t * u)); [lra|]. right. ring. }
  assert (Ch : Rabs ((v1 * ((1 - p) * (1 - q)) + v2 * ((1 - p) * q) + v3 * (p * (1 - q)) + v4 * (p * q))
    - (v1 * (1 - t) * (1 - u) + v2 * (1 - t) * u + v3 * t * (1 - u) + v4 * t * u)) <= 2 * B * Rabs (p - t) + 2 * B * Rabs (q - u)).
  { replace ((v1 * ((1 - p) * (1 - q)) + v2 * ((1 - p) * q) + v3 * (p * (1 - q)) + v4 * (p * q))
      - (v1 * (1 - t) * (1 - u) + v2 * (1 - t) * u + v3 * t * (1 - u) + v4 * t * u))
      with ((p - t) * ((v3 * (1 - q) + v4 * q) - (v1 * (1 - q) + v2 * q)) + (q - u) * ((v2 * (1 - t) + v4 * t) - (v1 * (1 - t) + v3 * t))) by ring.
    assert (Cv : forall a b z, Rabs a <= B -> Rabs b <= B -> 0 <= z <= 1 -> - B <= a * (1 - z) + b * z <= B).
    { clear. intros a b z Ha Hb Hz. apply Rabs_le_inv in Ha. apply Rabs_le_inv in Hb. nra. }
    eapply Rle_trans; [apply Rabs_triang|]. rewrite !Rabs_mult. apply Rplus_le_compat.
    - rewrite (Rmult_comm (2 * B)). apply Rmult_le_compat_l; [apply Rabs_pos|]. pose proof (Cv v3 v4 q V3 V4 Hq). pose proof (Cv v1 v2 q V1 V2 Hq). apply Rabs_le. lra.
    - rewrite (Rmult_comm (2 * B)). apply Rmult_le_compat_l; [apply Rabs_pos|]. pose proof (Cv v2 v4 t V2 V4 Ty). pose proof (Cv v1 v3 t V1 V3 Ty). apply Rabs_le. lra. }
  set (e := v1 * ((1 - p) * (1 - q)) + v2 * ((1 - p) * q) + v3 * (p * (1 - q)) + v4 * (p * q)) in *.
  match type of Ch with Rabs (e - ?x) <= _ => set (b := x) in * end.
  pose proof (Bl p q Hp Hq) as Be. fold e in Be.
  assert (C1 : 2 * B * Rabs (p - t) <= 2 * B * (4 * bpow radix2 (-53))) by (apply Rmult_le_compat_l; lra).
  assert (C2 : 2 * B * Rabs (q - u) <= 2 * B * (4 * bpow radix2 (-53))) by (apply Rmult_le_compat_l; lra).
  assert (Eta : 0 < 10 * bpow radix2 (-1075) <= bpow radix2 (-149) / 4).
  { pose proof (bpow_gt_0 radix2 (-1075)). split; [lra|]. apply Rle_trans with (bpow radix2 (-151)).
    - apply Rle_trans with (bpow radix2 4 * bpow radix2 (-1075)); [apply Rmult_le_compat_r; [lra|cbn; lra]|]. rewrite <- bpow_plus. apply bpow_le. lia.
    - right. pose proof (bpow_plus radix2 2 (-151) : bpow radix2 (-149) = 4 * bpow radix2 (-151)) as Q. rewrite Q. field. }
  assert (U1 : bpow radix2 (-53) = bpow radix2 (-24) * / 536870912) by exact (bpow_plus radix2 (-24) (-29)).
  assert (U2 : bpow radix2 (-24) = / 16777216) by reflexivity.
  assert (Sb : Rabs s <= B + 30 * bpow radix2 (-53) * B + 10 * bpow radix2 (-1075)).
  { replace s with ((s - e) + e) by ring. eapply Rle_trans; [apply Rabs_triang|]. lra. }
  assert (Rabs s * bpow radix2 (-24) <= (B + 30 * bpow radix2 (-53) * B + 10 * bpow radix2 (-1075)) * bpow radix2 (-24)) by (apply Rmult_le_compat_r; [apply bpow_ge_0|exact Sb]).
  replace (out - b) with ((out - s) + ((s - e) + (e - b))) by ring.
  eapply Rle_trans; [apply Rabs_triang|]. eapply Rle_trans; [apply Rplus_le_compat_l, Rabs_triang|].
  clear - PB Er Ns Ch C1 C2 Eta U1 U2 H. rewrite U1 in *. rewrite U2 in *.
  assert (0 <= bpow radix2 (-149)) by apply bpow_ge_0. lra.
Qed.
Print Assumptions C142_near.

(** at the tie points: exactly the values given *)
Theorem C142_tie_points : forall m i ys xs w r c,
  axes ys xs -> doubles ys -> doubles xs -> not_huge ys -> not_huge xs ->
  shaped (length ys) (length xs) w -> floats32 w -> (r < length ys)%nat -> (c < length xs)%nat ->
  grid32 m i (points_of ys xs) (finite w) tt (Some (nth r ys 0)) (Some (nth c xs 0)) = Some (Some (at2 0 w r c)).
Proof.
  intros m i ys xs w r c Ha Dy Dx Hy Hx Sw Dw Hr Hc. pose proof Ha as (Iy & Ix & Ly & Lx).
  rewrite (grid_32 m i ys xs w _ _ Ha (node_inside ys r Iy Hr) (node_inside xs c Ix Hc) Sw). cbv zeta.
  destruct (node_distance m ys r Iy Ly Hr Dy Hy) as (p & Hp & Ep & Lr & Dp). destruct (node_distance m xs c Ix Lx Hc Dx Hx) as (q & Hq & Eq & Lc & Dq).
  set (r' := @locate _ RN (map Some ys) (Some (nth r ys 0))) in *. set (c' := @locate _ RN (map Some xs) (Some (nth c xs 0))) in *. clearbody r' c'. f_equal.
  assert (U : forall k, (k <= 1)%nat -> gf64 (INR k) /\ 0 <= INR k <= 1) by (intros [|[|k]] H; [split; [apply gf64_0|cbn; lra]|split; [apply gf64_1|cbn; lra]|lia]).
  destruct (U p Hp) as (Fp & Up). destruct (U q Hq) as (Fq & Uq).
  match goal with |- @nst _ _ (@linear_np _ _ ?V _ _ ?a ?b) = _ => assert (X : a = Some (INR p)) by exact Dp; assert (Y : b = Some (INR q)) by exact Dq; rewrite X, Y;
    pose proof (linear_np_value m (at2 0 w) V r' c' (INR p) (INR q) Fp Fq Up Uq) as L end.
  unfold SM in L. rewrite L.
  - assert (G : forall a b, (a < length ys)%nat -> (b < length xs)%nat -> gf64 (at2 0 w a b)).
    { intros a b La Lb. apply gf_32_64. apply (all2_at _ 0 _ _ w a b Dw Sw La Lb). }
    destruct (sum4_corner (at2 0 w r' c') (at2 0 w r' (S c')) (at2 0 w (S r') c') (at2 0 w (S r') (S c')) ltac:(apply G; lia) ltac:(apply G; lia) ltac:(apply G; lia) ltac:(apply G; lia))
      as (K1 & K2 & K3 & K4).
    assert (F : fit b32 (at2 0 w r c) = Some (at2 0 w r c)) by (apply fit_fl, (all2_at _ 0 _ _ w r c Dw Sw Hr Hc)).
    cbn [nst F64_32 FN bind1]. rewrite <- F. f_equal. subst r c.
    destruct p as [|[|p]]; [| |lia]; (destruct q as [|[|q]]; [| |lia]); cbn [INR]; rewrite ?Nat.add_0_r, ?Nat.add_1_r; assumption.
  - intros a b Ea Eb. assert (La : (a < length ys)%nat) by lia. assert (Lb : (b < length xs)%nat) by lia.
    split; [now apply (at_finite64 m w (length ys) (length xs))|]. destruct (all2_at _ 0 _ _ w a b Dw Sw La Lb) as (_ & Bd). left. exact Bd.
Qed.
Print Assumptions C142_tie_points.

(** the case of C98_refuted: in doubles 5 + 2^-50, in float32 exactly 5 *)
Example C142_case : forall m i, grid32 m i (points_of [0; 25] [0; 25]) (finite [[5; 5]; [5; 5]]) tt (Some 0) (Some 2) = Some (Some 5).
Proof.
  intros m i.
  assert (I2 : increasing [0; 25]) by (intros a b H; destruct a as [|[|a]]; destruct b as [|[|b]]; cbn in *; try lia; lra).
  assert (Fz : forall z, (Z.abs z < 2 ^ 53)%Z -> fl b64 (IZR z)).
  { intros z Hz. pose proof (fix_fl z 0 ltac:(lia) ltac:(lia)) as K. cbn [Z.opp bpow] in K. now rewrite Rmult_1_r in K. }
  assert (D2 : doubles [0; 25]) by (apply Forall_cons; [apply Fz; lia|apply Forall_cons; [apply Fz; lia|apply Forall_nil]]).
  assert (B25 : forall z, 0 <= z <= 25 -> Rabs z <= bpow radix2 1000).
  { intros z Hz. rewrite Rabs_pos_eq by lra. apply Rle_trans with (bpow radix2 5); [cbn; lra|apply bpow_le; lia]. }
  assert (G2 : not_huge [0; 25]) by (apply Forall_cons; [apply B25; lra|apply Forall_cons; [apply B25; lra|apply Forall_nil]]).
  apply (C142_constant m i [0; 25] [0; 25] [[5; 5]; [5; 5]]); try assumption.
  - repeat split; try exact I2; cbn; lia.
  - apply Fz; lia.
  - apply Fz; lia.
  - split; [reflexivity|]. repeat (apply Forall_cons; [reflexivity|]). apply Forall_nil.
  - split; [exact (gf_IZR b32 good_b32 5 ltac:(cbn; lia))|]. rewrite Rabs_pos_eq by lra. apply Rlt_le_trans with (bpow radix2 5); [cbn; lra|apply bpow_le; cbn; lia].
  - repeat (apply Forall_cons; [repeat (apply Forall_cons; [reflexivity|]); apply Forall_nil|]). apply Forall_nil.
  - split; cbn; lra.
  - split; cbn; lra.
Qed.
