(** C97, C98: SingleGridInterpolator on double arrays. *)
From Coq Require Import ZArith List Bool Arith Lia Reals Lra.
From Flocq.Core Require Import Core.
From Verif Require Import Spec Base Num Geo GeoProofs Chunks ChunksProofs GridLinear PropsGeo PropsChunks PropsGridLinear.
From Verif Require Import Float FloatGeo FloatAcc FloatTrip FloatNear FloatGrid FloatVii.
Import ListNotations.
Open Scope R_scope.

(** the interpolator on doubles *)
Definition grid64 (m : libm) := @rgi (option R) (F64 m) Grid.
(** distances of neighbouring tie points, neither tiny nor huge *)
Definition spaced (l : list R) : Prop := forall k, (S k < length l)%nat -> / 1000000 <= nth (S k) l 0 - nth k l 0 <= 100000000.
Definition doubles : list R -> Prop := Forall (fl b64).

Lemma fl_nth l k : doubles l -> (k < length l)%nat -> fl b64 (nth k l 0).
Proof. intros F H. red in F. rewrite Forall_forall in F. now apply F, nth_In. Qed.
Lemma nz0_64 m : @nz _ (F64 m) 0 = Some 0.
Proof. exact (nz_0 m). Qed.
Lemma nth_some64 m l k : nth k (map Some l) (@nz _ (F64 m) 0) = Some (nth k l 0).
Proof. rewrite nz0_64. apply map_nth. Qed.

(** one point: the cell, found with exact comparisons *)
Lemma grid_64 m i ys xs w y x : axes ys xs -> inside ys y -> inside xs x -> shaped (length ys) (length xs) w ->
  let r := @locate _ RN (map Some ys) (Some y) in let c := @locate _ RN (map Some xs) (Some x) in
  grid64 m i (points_of ys xs) (finite w) tt (Some y) (Some x) =
  Some (@nst _ (F64 m) (@linear_2d _ (F64 m) (fun r c => nth c (nth r (map (map Some) w) []) (@nz _ (F64 m) 0)) r c
    (@ndiv _ (F64 m) (@nsub _ (F64 m) (Some y) (Some (nth r ys 0))) (@nsub _ (F64 m) (Some (nth (S r) ys 0)) (Some (nth r ys 0))))
    (@ndiv _ (F64 m) (@nsub _ (F64 m) (Some x) (Some (nth c xs 0))) (@nsub _ (F64 m) (Some (nth (S c) xs 0)) (Some (nth c xs 0)))))).
Proof.
  intros (Iy & Ix & Ly & Lx) Hy Hx Sw. cbv zeta. unfold grid64, rgi, grid_point, grid_point_with, points_of, finite, floats. cbn [fst snd v_data v_int].
  assert (U : forall A (l : list R) (k : list A), increasing l -> @flip _ (F64 m) _ (map Some l) k = k) by (intros A l k I; apply (flip_up l k I)).
  rewrite !U by assumption.
  assert (U' : map (@flip _ (F64 m) (option R) (map Some xs)) (map (map Some) w) = map (map Some) w).
  { rewrite <- map_id. apply map_ext. intros k. now apply U. }
  rewrite U'.
  assert (W : forall l z, inside l z -> @within _ (F64 m) (map Some l) (Some z) = true).
  { intros l z H. unfold within. rewrite map_length, !nth_some64. apply within_RN in H. unfold within in H. rewrite map_length, !nth_some in H. exact H. }
  rewrite !W by assumption. cbn [andb negb]. rewrite andb_false_r. unfold distance. rewrite !nth_some64. unfold astype.
  change (@locate _ (F64 m) (map Some ys) (Some y)) with (@locate _ RN (map Some ys) (Some y)).
  change (@locate _ (F64 m) (map Some xs) (Some x)) with (@locate _ RN (map Some xs) (Some x)).
  destruct (fill_value i); reflexivity.
Qed.

Lemma at_finite64 m (w : list (list R)) n k r c : shaped n k w -> (r < n)%nat -> (c < k)%nat ->
  nth c (nth r (map (map Some) w) []) (@nz _ (F64 m) 0) = Some (at2 0 w r c).
Proof. intros Sw Hr Hc. rewrite nz0_64. now apply (at_finite w n k). Qed.

Lemma inside_cell l r y : inside l y -> in_cell l r y -> nth r l 0 <= y <= nth (S r) l 0.
Proof.
  intros [H1 H2] (L & A & B). split.
  - destruct A as [->|A]; [exact H1|exact A].
  - destruct B as [B|B]; [|exact B]. replace (S r) with (length l - 1)%nat by lia. exact H2.
Qed.
Lemma weight_range a b y : a < b -> a <= y <= b -> 0 <= (y - a) / (b - a) <= 1.
Proof.
  intros L H. assert (0 < / (b - a)) by (apply Rinv_0_lt_compat; lra). split; [apply Rmult_le_pos; lra|].
  apply Rmult_le_reg_r with (b - a); [lra|]. unfold Rdiv. rewrite Rmult_assoc, Rinv_l by lra. lra.
Qed.

(** ** C97: rounding errors *)
Theorem C97_double : forall m i ys xs w y x r c B,
  axes ys xs -> spaced ys -> spaced xs -> doubles ys -> doubles xs -> fl b64 y -> fl b64 x ->
  shaped (length ys) (length xs) w -> all2 (fun v => fl b64 v /\ Rabs v <= B) w -> / 1000 <= B <= 100000000 ->
  inside ys y -> inside xs x -> in_cell ys r y -> in_cell xs c x ->
  exists out, grid64 m i (points_of ys xs) (finite w) tt (Some y) (Some x) = Some (Some out) /\ fl b64 out /\
    Rabs (out - bilinear ys xs (at2 0 w) r c y x) <= 20 * bpow radix2 (-53) * B.
Proof.
  intros m i ys xs w y x r c B Ha Py Px Dy Dx Fy Fx Sw Dw HB Hy Hx Hr Hc. pose proof Ha as (Iy & Ix & Ly & Lx).
  rewrite (grid_64 m i ys xs w y x Ha Hy Hx Sw). cbv zeta.
  pose proof (located_in_cell ys y Iy Ly) as Hr'. pose proof (located_in_cell xs x Ix Lx) as Hc'.
  set (r' := @locate _ RN (map Some ys) (Some y)) in *. set (c' := @locate _ RN (map Some xs) (Some x)) in *. clearbody r' c'.
  rewrite (bilinear_cells ys xs (at2 0 w) r r' c c' y x Iy Ix Hr Hr' Hc Hc').
  pose proof (inside_cell _ _ _ Hy Hr') as By. pose proof (inside_cell _ _ _ Hx Hc') as Bx.
  destruct Hr' as (Lr & _), Hc' as (Lc & _). pose proof (step_pos ys r' Iy Lr) as Sy. pose proof (step_pos xs c' Ix Lc) as Sx.
  rewrite bilinear_weights by assumption. cbv zeta.
  set (t := (y - nth r' ys 0) / (nth (S r') ys 0 - nth r' ys 0)). set (u := (x - nth c' xs 0) / (nth (S c') xs 0 - nth c' xs 0)).
  assert (Ny : near b64 (@ndiv _ (F64 m) (@nsub _ (F64 m) (Some y) (Some (nth r' ys 0))) (@nsub _ (F64 m) (Some (nth (S r') ys 0)) (Some (nth r' ys 0)))) t (31 / 10 * eps b64)).
  { apply (dist_near m); [apply fl_nth; [exact Dy|lia]|apply fl_nth; [exact Dy|lia]|exact Fy|exact By|exact (Py r' Lr)]. }
  assert (Nx : near b64 (@ndiv _ (F64 m) (@nsub _ (F64 m) (Some x) (Some (nth c' xs 0))) (@nsub _ (F64 m) (Some (nth (S c') xs 0)) (Some (nth c' xs 0)))) u (31 / 10 * eps b64)).
  { apply (dist_near m); [apply fl_nth; [exact Dx|lia]|apply fl_nth; [exact Dx|lia]|exact Fx|exact Bx|exact (Px c' Lc)]. }
  assert (Ty : 0 <= t <= 1) by (apply weight_range; assumption). assert (Tx : 0 <= u <= 1) by (apply weight_range; assumption).
  assert (HV : forall a b, (a = r' \/ a = S r')%nat -> (b = c' \/ b = S c')%nat ->
    (fun r c => nth c (nth r (map (map Some) w) []) (@nz _ (F64 m) 0)) a b = Some (at2 0 w a b) /\ fl b64 (at2 0 w a b) /\ Rabs (at2 0 w a b) <= B).
  { intros a b Ea Eb. assert (La : (a < length ys)%nat) by lia. assert (Lb : (b < length xs)%nat) by lia.
    split; [now apply (at_finite64 m w (length ys) (length xs))|]. apply (all2_at _ 0 _ _ w a b Dw Sw La Lb). }
  destruct (linear_near m (at2 0 w) _ r' c' _ _ t u B HB Ty Tx HV Ny Nx) as (o & Eo & Fo & Do).
  exists o. split; [f_equal; exact Eo|]. split; [exact Fo|]. eapply Rle_trans; [exact Do|].
    unfold eps. cbn [fprec b64]. change (- (53))%Z with (-53)%Z. assert (0 <= bpow radix2 (-53) * B) by (apply Rmult_le_pos; [apply bpow_ge_0|lra]). lra.
Qed.
Print Assumptions C97_double.

(** tie points, exactly, for all finite doubles *)
Definition not_huge (l : list R) : Prop := Forall (fun v => Rabs v <= bpow radix2 1000) l.
Lemma huge_nth l k : not_huge l -> (k < length l)%nat -> Rabs (nth k l 0) <= bpow radix2 1000.
Proof. intros F H. red in F. rewrite Forall_forall in F. now apply F, nth_In. Qed.

Lemma located_node l k : increasing l -> (2 <= length l)%nat -> (k < length l)%nat ->
  let r := @locate _ RN (map Some l) (Some (nth k l 0)) in (S r < length l)%nat /\ (k = r \/ k = S r)%nat.
Proof.
  intros I L Hk. cbv zeta. destruct (locate_spec l (nth k l 0) I L) as (A & B & C). set (r := @locate _ RN (map Some l) (Some (nth k l 0))) in *.
  clearbody r. split; [exact A|]. destruct (Nat.eq_dec k r) as [->|N]; [now left|right].
  destruct (Nat.lt_trichotomy k (S r)) as [H|[H|H]]; [exfalso| exact H|exfalso].
  - destruct B as [->|B]; [lia|]. pose proof (I k r ltac:(lia)). lra.
  - destruct C as [C|C]; [lia|]. pose proof (I (S r) k ltac:(lia)). lra.
Qed.

Lemma node_distance m l k : increasing l -> (2 <= length l)%nat -> (k < length l)%nat -> doubles l -> not_huge l ->
  let r := @locate _ RN (map Some l) (Some (nth k l 0)) in
  exists p, (p <= 1)%nat /\ k = (r + p)%nat /\ (S r < length l)%nat /\
    @ndiv _ (F64 m) (@nsub _ (F64 m) (Some (nth k l 0)) (Some (nth r l 0))) (@nsub _ (F64 m) (Some (nth (S r) l 0)) (Some (nth r l 0))) = Some (INR p).
Proof.
  intros I L Hk D H. cbv zeta. destruct (located_node l k I L Hk) as (A & E). set (r := @locate _ RN (map Some l) (Some (nth k l 0))) in *. clearbody r.
  assert (P : forall q, (q < length l)%nat -> fl b64 (nth q l 0) /\ Rabs (nth q l 0) <= bpow radix2 1000) by (intros; split; [now apply fl_nth|now apply huge_nth]).
  destruct (P r ltac:(lia)) as (F1 & B1). destruct (P (S r) A) as (F2 & B2). pose proof (step_pos l r I A) as S.
  destruct E as [-> | ->].
  - exists 0%nat. split; [lia|]. split; [lia|]. split; [exact A|]. apply (dist_left m _ _ F1 F2 S B1 B2).
  - exists 1%nat. split; [lia|]. split; [lia|]. split; [exact A|]. apply (dist_right m _ _ F1 F2 S B1 B2).
Qed.

Theorem C97_tie_points : forall m i ys xs w r c,
  axes ys xs -> doubles ys -> doubles xs -> not_huge ys -> not_huge xs ->
  shaped (length ys) (length xs) w -> all2 (fl b64) w -> (r < length ys)%nat -> (c < length xs)%nat ->
  grid64 m i (points_of ys xs) (finite w) tt (Some (nth r ys 0)) (Some (nth c xs 0)) = Some (Some (at2 0 w r c)).
Proof.
  intros m i ys xs w r c Ha Dy Dx Hy Hx Sw Dw Hr Hc. pose proof Ha as (Iy & Ix & Ly & Lx).
  rewrite (grid_64 m i ys xs w _ _ Ha (node_inside ys r Iy Hr) (node_inside xs c Ix Hc) Sw). cbv zeta.
  destruct (node_distance m ys r Iy Ly Hr Dy Hy) as (p & Hp & Ep & Lr & ->). destruct (node_distance m xs c Ix Lx Hc Dx Hx) as (q & Hq & Eq & Lc & ->).
  f_equal.
  set (r' := @locate _ RN (map Some ys) (Some (nth r ys 0))) in *. set (c' := @locate _ RN (map Some xs) (Some (nth c xs 0))) in *. clearbody r' c'. rewrite Ep, Eq.
  apply (linear_corner m (at2 0 w)); [exact Hp|exact Hq|]. intros a b Ea Eb.
  assert (La : (a < length ys)%nat) by lia. assert (Lb : (b < length xs)%nat) by lia.
  split; [now apply (at_finite64 m w (length ys) (length xs))|]. apply (all2_at _ 0 _ _ w a b Dw Sw La Lb).
Qed.
Print Assumptions C97_tie_points.
(** any finite doubles: neighbours of very different size do not matter (compare C87) *)
Example C97_case : forall m i, grid64 m i (points_of [0; 3] [0; 3; 10]) (finite [[45; bpow radix2 900; 7]; [bpow radix2 900; 1; 2]]) tt (Some 0) (Some 0) = Some (Some 45).
Proof.
  intros m i.
  assert (Ha : axes [0; 3] [0; 3; 10]).
  { repeat split; try (cbn; lia); intros a b H; destruct a as [|[|[|a]]]; destruct b as [|[|[|b]]]; cbn in *; try lia; lra. }
  assert (Z : forall z, (Z.abs z < 2 ^ 53)%Z -> fl b64 (IZR z)).
  { intros z H. pose proof (fix_fl z 0 H ltac:(lia)) as K. cbn [Z.opp bpow] in K. now rewrite Rmult_1_r in K. }
  assert (Bg : fl b64 (bpow radix2 900)).
  { split; [apply generic_format_bpow; unfold FLT_exp; cbn; lia|]. rewrite Rabs_pos_eq by apply bpow_ge_0. apply bpow_lt. cbn. lia. }
  assert (Hg : forall z, (0 <= z < 2 ^ 53)%Z -> Rabs (IZR z) <= bpow radix2 1000).
  { intros z H. rewrite Rabs_pos_eq by (apply IZR_le; lia). apply Rle_trans with (bpow radix2 53); [|apply bpow_le; lia].
    rewrite <- (IZR_Zpower radix2 53) by lia. apply IZR_le. cbn. lia. }
  apply (C97_tie_points m i [0; 3] [0; 3; 10] [[45; bpow radix2 900; 7]; [bpow radix2 900; 1; 2]] 0 0).
  - exact Ha.
  - repeat (apply Forall_cons; [apply Z; lia|]). apply Forall_nil.
  - repeat (apply Forall_cons; [apply Z; lia|]). apply Forall_nil.
  - repeat (apply Forall_cons; [apply Hg; lia|]). apply Forall_nil.
  - repeat (apply Forall_cons; [apply Hg; lia|]). apply Forall_nil.
  - split; [reflexivity|repeat (apply Forall_cons; [reflexivity|]); apply Forall_nil].
  - repeat (apply Forall_cons; [repeat (apply Forall_cons; [first [exact Bg|apply Z; lia]|]); apply Forall_nil|]). apply Forall_nil.
  - cbn; lia.
  - cbn; lia.
Qed.

(** ** C98: in doubles too the value is between those of the corners. False; proved: up to 20 roundings. *)
Theorem C98_between_partial : forall m i ys xs w y x r c B lo hi,
  axes ys xs -> spaced ys -> spaced xs -> doubles ys -> doubles xs -> fl b64 y -> fl b64 x ->
  shaped (length ys) (length xs) w -> all2 (fun v => fl b64 v /\ Rabs v <= B) w -> / 1000 <= B <= 100000000 ->
  inside ys y -> inside xs x -> in_cell ys r y -> in_cell xs c x ->
  (forall a b, (a = r \/ a = S r)%nat -> (b = c \/ b = S c)%nat -> lo <= at2 0 w a b <= hi) ->
  exists out, grid64 m i (points_of ys xs) (finite w) tt (Some y) (Some x) = Some (Some out) /\
    lo - 20 * bpow radix2 (-53) * B <= out <= hi + 20 * bpow radix2 (-53) * B.
Proof.
  intros m i ys xs w y x r c B lo hi Ha Py Px Dy Dx Fy Fx Sw Dw HB Hy Hx Hr Hc Hlh.
  destruct (C97_double m i ys xs w y x r c B Ha Py Px Dy Dx Fy Fx Sw Dw HB Hy Hx Hr Hc) as (out & E & _ & D).
  exists out. split; [exact E|].
  assert (K : lo <= bilinear ys xs (at2 0 w) r c y x <= hi).
  { pose proof (inside_cell _ _ _ Hy Hr) as By. pose proof (inside_cell _ _ _ Hx Hc) as Bx. pose proof Ha as (Iy & Ix & _).
    destruct Hr as (Lr & _), Hc as (Lc & _). pose proof (step_pos ys r Iy Lr) as Sy. pose proof (step_pos xs c Ix Lc) as Sx.
    unfold bilinear. apply straight_line_between; try assumption; apply straight_line_between; auto. }
  apply Rabs_le_inv in D. lra.
Qed.
Print Assumptions C98_between_partial.

(** constant data 5, two twenty-fifths of the way: 5 + 2^-50 *)
Lemma rd_64 x e k : bpow radix2 (e - 1) <= x < bpow radix2 e -> (-1000 <= e)%Z -> Rabs (x * bpow radix2 (53 - e) - IZR k) < / 2 ->
  bpow radix2 e <= bpow radix2 1000 -> fit b64 x = Some (IZR k * bpow radix2 (e - 53)).
Proof.
  intros H He Hk Hb. change (e - 53)%Z with (e - fprec b64)%Z. rewrite <- (rd_eq b64 x e k H ltac:(cbn; lia) Hk). apply (fit_some b64 good_b64 _ 1000); [cbn; lia|].
  pose proof (bpow_gt_0 radix2 (e - 1)). rewrite Rabs_pos_eq; lra.
Qed.

Lemma constant_5 m i : grid64 m i (points_of [0; 25] [0; 25]) (finite [[5; 5]; [5; 5]]) tt (Some 0) (Some 2) = Some (Some (5629499534213121 * / 1125899906842624)).
Proof.
  assert (I2 : increasing [0; 25]) by (intros a b H; destruct a as [|[|a]]; destruct b as [|[|b]]; cbn in *; try lia; lra).
  assert (Ha : axes [0; 25] [0; 25]) by (repeat split; try exact I2; cbn; lia).
  rewrite (grid_64 m i [0; 25] [0; 25] [[5; 5]; [5; 5]] 0 2 Ha) by first [split; cbn; lra|split; [reflexivity|repeat (apply Forall_cons; [reflexivity|]); apply Forall_nil]].
  cbv zeta. change (@locate _ RN (map Some [0; 25]) (Some 0)) with 0%nat. change (@locate _ RN (map Some [0; 25]) (Some 2)) with 0%nat. cbn [nth map].
  set (N := F64 m).
  assert (D0 : @nsub _ N (Some 25) (Some 0) = Some 25).
  { cbn [nsub N F64 FN bind2]. rewrite Rminus_0_r. apply (fit_IZR b64 25); [apply good_b64|cbn; lia|cbn; lia]. }
  assert (D1 : @nsub _ N (Some 2) (Some 0) = Some 2).
  { cbn [nsub N F64 FN bind2]. rewrite Rminus_0_r. apply (fit_IZR b64 2); [apply good_b64|cbn; lia|cbn; lia]. }
  assert (Q0 : @ndiv _ N (@nsub _ N (Some 0) (Some 0)) (@nsub _ N (Some 25) (Some 0)) = Some 0).
  { rewrite D0. rewrite (sub_same m 0 : @nsub _ N (Some 0) (Some 0) = Some 0). cbn [ndiv N F64 FN bind2]. destruct (Req_EM_T 25 0); [lra|].
    unfold Rdiv. rewrite Rmult_0_l. apply fit_0. }
  set (p := 5764607523034235 * / 72057594037927936). set (q := 8286623314361713 * / 9007199254740992).
  assert (Q1 : @ndiv _ N (@nsub _ N (Some 2) (Some 0)) (@nsub _ N (Some 25) (Some 0)) = Some p).
  { rewrite D0, D1. cbn [ndiv N F64 FN bind2]. destruct (Req_EM_T 25 0); [lra|].
    rewrite (rd_64 (2 / 25) (-3) 5764607523034235); [..|lia| |apply bpow_le; lia]; bp; cbn; [reflexivity|lra|apply Rabs_def1; lra]. }
  assert (Q2 : @nsub _ N (Some 1) (Some p) = Some q).
  { cbn [nsub N F64 FN bind2]. rewrite (rd_64 (1 - p) 0 8286623314361713); [..|lia| |apply bpow_le; lia]; bp; unfold q, p; cbn; [reflexivity|lra|apply Rabs_def1; lra]. }
  set (s := 5179139571476071 * / 1125899906842624). set (t := 7205759403792794 * / 18014398509481984). set (o := 5629499534213121 * / 1125899906842624).
  assert (M1 : @nmul _ N (Some 5) (Some q) = Some s).
  { cbn [nmul N F64 FN bind2]. rewrite (rd_64 (5 * q) 3 5179139571476071); [..|lia| |apply bpow_le; lia]; bp; unfold s, q; cbn; [reflexivity|lra|apply Rabs_def1; lra]. }
  assert (M2 : @nmul _ N (Some 5) (Some p) = Some t).
  { cbn [nmul N F64 FN bind2]. rewrite (rd_64 (5 * p) (-1) 7205759403792794); [..|lia| |apply bpow_le; lia]; bp; unfold t, p; cbn; [reflexivity|lra|apply Rabs_def1; lra]. }
  assert (A1 : @nadd _ N (Some s) (Some t) = Some o).
  { cbn [nadd N F64 FN bind2]. rewrite (rd_64 (s + t) 3 5629499534213121); [..|lia| |apply bpow_le; lia]; bp; unfold s, t, o; cbn; [reflexivity|lra|apply Rabs_def1; lra]. }
  assert (F5 : fl b64 5).
  { pose proof (fix_fl 5 0 ltac:(lia) ltac:(lia)) as K. cbn [Z.opp bpow] in K. now rewrite Rmult_1_r in K. }
  assert (Fr : fl b64 o).
  { pose proof (fix_fl 5629499534213121 50 ltac:(lia) ltac:(lia)) as K. rewrite bpow_Zn in K by lia. exact K. }
  unfold linear_2d. cbn [nth]. rewrite Q0, Q1. rewrite (nz_1 m : @nz _ N 1 = Some 1). rewrite (sub_1_0 m : @nsub _ N (Some 1) (Some 0) = Some 1).
  rewrite Q2. rewrite (mul_1 m 5 F5 : @nmul _ N (Some 5) (Some 1) = Some 5), (mul_0 m 5 : @nmul _ N (Some 5) (Some 0) = Some 0).
  rewrite M1, M2, A1. rewrite (mul_0l m q : @nmul _ N (Some 0) (Some q) = Some 0), (mul_0l m p : @nmul _ N (Some 0) (Some p) = Some 0).
  rewrite !(add_0 m o Fr : @nadd _ N (Some o) (Some 0) = Some o).
  f_equal. apply (fit_fl b64 _ Fr).
Qed.

Theorem C98_refuted : forall m i, exists ys xs w y x out,
  axes ys xs /\ shaped (length ys) (length xs) w /\ inside ys y /\ inside xs x /\ all2 (fun v => v = 5) w /\
  grid64 m i (points_of ys xs) (finite w) tt (Some y) (Some x) = Some (Some out) /\ 5 < out.
Proof.
  intros m i. exists [0; 25], [0; 25], [[5; 5]; [5; 5]], 0, 2, (5629499534213121 * / 1125899906842624).
  assert (I2 : increasing [0; 25]) by (intros a b H; destruct a as [|[|a]]; destruct b as [|[|b]]; cbn in *; try lia; lra).
  repeat split; try exact I2; try (cbn; lia); try (cbn; lra).
  - repeat (apply Forall_cons; [reflexivity|]). apply Forall_nil.
  - repeat (apply Forall_cons; [repeat (apply Forall_cons; [reflexivity|]); apply Forall_nil|]). apply Forall_nil.
  - apply constant_5.
Qed.
Print Assumptions C98_refuted.

(** the hypotheses of C97_double and C98_between_partial for this case: the result is within 10^-14 of 5 *)
Example C98_case : forall m i, exists out,
  grid64 m i (points_of [0; 25] [0; 25]) (finite [[5; 5]; [5; 5]]) tt (Some 0) (Some 2) = Some (Some out) /\
  5 - 20 * bpow radix2 (-53) * 5 <= out <= 5 + 20 * bpow radix2 (-53) * 5.
Proof.
  intros m i.
  assert (I2 : increasing [0; 25]) by (intros a b H; destruct a as [|[|a]]; destruct b as [|[|b]]; cbn in *; try lia; lra).
  assert (S2 : spaced [0; 25]) by (intros [|k] H; cbn in *; [lra|lia]).
  assert (Fz : forall z, (Z.abs z < 2 ^ 53)%Z -> fl b64 (IZR z)).
  { intros z Hz. pose proof (fix_fl z 0 ltac:(lia) ltac:(lia)) as K. cbn [Z.opp bpow] in K. now rewrite Rmult_1_r in K. }
  assert (D2 : doubles [0; 25]) by (apply Forall_cons; [apply Fz; lia|apply Forall_cons; [apply Fz; lia|apply Forall_nil]]).
  assert (F5 : fl b64 5 /\ Rabs 5 <= 5) by (split; [apply Fz; lia|rewrite Rabs_pos_eq; lra]).
  apply (C98_between_partial m i [0; 25] [0; 25] [[5; 5]; [5; 5]] 0 2 0%nat 0%nat 5 5 5).
  - repeat split; try exact I2; cbn; lia.
  - exact S2.
  - exact S2.
  - exact D2.
  - exact D2.
  - apply Fz; lia.
  - apply Fz; lia.
  - split; [reflexivity|]. repeat (apply Forall_cons; [reflexivity|]). apply Forall_nil.
  - repeat (apply Forall_cons; [repeat (apply Forall_cons; [exact F5|]); apply Forall_nil|]). apply Forall_nil.
  - lra.
  - split; cbn; lra.
  - split; cbn; lra.
  - repeat split; [cbn; lia|now left|right; cbn; lra].
  - repeat split; [cbn; lia|now left|right; cbn; lra].
  - intros a b [-> | ->] [-> | ->]; cbn; lra.
Qed.
