(** C146: SingleGridInterpolator on integer tie values: computed in doubles, then cut off by astype. *)
From Coq Require Import ZArith List Bool Arith Lia Reals Lra.
From Flocq.Core Require Import Core.
From Verif Require Import Spec Base Num Geo GeoProofs Chunks ChunksProofs GridLinear PropsGeo PropsChunks PropsGridLinear.
From Verif Require Import Float FloatGeo FloatAcc FloatTrip FloatNear FloatGrid FloatVii PropsFloatGrid.
Import ListNotations.
Open Scope R_scope.

(** the same tie values as reals *)
Definition reals (w : list (list Z)) : list (list R) := map (map IZR) w.
Definition all2Z (P : Z -> Prop) (w : list (list Z)) : Prop := Forall (Forall P) w.

(** with and without the cast: the same double *)
Lemma grid_cast m i ys xs w y x : axes ys xs -> inside ys y -> inside xs x -> shaped (length ys) (length xs) w ->
  exists v, grid64 m i (points_of ys xs) (finite (reals w)) tt (Some y) (Some x) = Some (@nst _ (F64 m) v) /\
    grid64 m i (points_of ys xs) (ints w) tt (Some y) (Some x) = Some (@nz _ (F64 m) (@ntrunc _ (F64 m) v)) /\
    forall a, v = Some a -> fl b64 a.
Proof.
  intros Ha Hy Hx Sw. pose proof (shaped_map IZR _ _ w Sw) as Sr. fold (reals w) in Sr.
  eexists. split; [apply (grid_64 m i ys xs (reals w) y x Ha Hy Hx Sr)|]. split.
  - rewrite ints_finite. fold (reals w). destruct Ha as (Iy & Ix & Ly & Lx).
    unfold grid64, rgi, grid_point, grid_point_with, points_of. cbn [fst snd v_data v_int].
    assert (U : forall A (l : list R) (k : list A), increasing l -> @flip _ (F64 m) _ (map Some l) k = k) by (intros A l k I; apply (flip_up l k I)).
    rewrite !U by assumption.
    assert (U' : map (@flip _ (F64 m) (option R) (map Some xs)) (map (map Some) (reals w)) = map (map Some) (reals w)).
    { rewrite <- map_id. apply map_ext. intros k. now apply U. }
    rewrite U'.
    assert (W : forall l z, inside l z -> @within _ (F64 m) (map Some l) (Some z) = true).
    { intros l z H. unfold within. rewrite map_length, !nth_some64. apply within_RN in H. unfold within in H. rewrite map_length, !nth_some in H. exact H. }
    rewrite !W by assumption. cbn [andb negb]. rewrite andb_false_r. unfold distance. rewrite !nth_some64. unfold astype.
    change (@locate _ (F64 m) (map Some ys) (Some y)) with (@locate _ RN (map Some ys) (Some y)).
    change (@locate _ (F64 m) (map Some xs) (Some x)) with (@locate _ RN (map Some xs) (Some x)).
    destruct (fill_value i); reflexivity.
  - intros a. unfold linear_2d. cbn [nadd F64 FN]. unfold bind2 at 1.
    match goal with |- match ?p with _ => _ end = _ -> _ => destruct p; [|discriminate] end.
    match goal with |- match ?p with _ => _ end = _ -> _ => destruct p; [|discriminate] end.
    intros H. apply fit_inv in H; [exact (proj2 H)|exact good_b64].
Qed.

Lemma Rtrunc_mono a b : a <= b -> (Rtrunc a <= Rtrunc b)%Z.
Proof.
  intros H. apply Z.lt_succ_r, lt_IZR. unfold Z.succ. rewrite plus_IZR. unfold Rtrunc.
  destruct (Rlt_dec a 0) as [A|A]; destruct (Rlt_dec b 0) as [B|B]; rewrite ?opp_IZR;
    pose proof (Rfloor_spec a); pose proof (Rfloor_spec b); pose proof (Rfloor_spec (- a)); pose proof (Rfloor_spec (- b)); try lra.
  assert (0 <= Rfloor (- a))%Z by (apply Z.lt_succ_r, lt_IZR; unfold Z.succ; rewrite plus_IZR; lra).
  assert (0 <= Rfloor b)%Z by (apply Z.lt_succ_r, lt_IZR; unfold Z.succ; rewrite plus_IZR; lra).
  assert (0 <= IZR (Rfloor (- a))) by now apply IZR_le. assert (0 <= IZR (Rfloor b)) by now apply IZR_le. lra.
Qed.

Lemma cast_64 m a : Rabs a <= 200000000 -> @nz _ (F64 m) (@ntrunc _ (F64 m) (Some a)) = Some (IZR (Rtrunc a)).
Proof.
  intros H. cbn [ntrunc F64 FN]. pose proof (Rtrunc_bound a) as B. apply Rabs_def2 in B. apply Rabs_le_inv in H.
  assert (L : (- 200000001 <= Rtrunc a <= 200000001)%Z).
  { split; apply Z.lt_succ_r, lt_IZR; unfold Z.succ; rewrite plus_IZR; lra. }
  unfold to_int. replace ((int_min <=? Rtrunc a)%Z && (Rtrunc a <=? int_max)%Z) with true.
  - apply (nz_fix m). cbn. lia.
  - symmetry. apply andb_true_intro. unfold int_min, int_max. split; apply Z.leb_le; lia.
Qed.

Lemma int_fl z : (Z.abs z < 2 ^ 53)%Z -> fl b64 (IZR z).
Proof. intros H. pose proof (fix_fl z 0 H ltac:(lia)) as K. cbn [Z.opp bpow] in K. now rewrite Rmult_1_r in K. Qed.

Lemma reals_bounded w B : (0 <= B <= 100000000)%Z -> all2Z (fun z => Z.abs z <= B)%Z w -> all2 (fun v => fl b64 v /\ Rabs v <= IZR B) (reals w).
Proof.
  intros HB H. unfold reals. apply Forall_map. eapply Forall_impl; [|exact H]. intros r Hr. apply Forall_map. eapply Forall_impl; [|exact Hr].
  intros z Hz. cbv beta in Hz. split; [apply int_fl; change (2 ^ 53)%Z with 9007199254740992%Z; lia|]. rewrite <- abs_IZR. now apply IZR_le.
Qed.

(** what is returned: the double of C97 without its fraction *)
Theorem C146_cut_partial : forall m i ys xs w y x r c B,
  axes ys xs -> spaced ys -> spaced xs -> doubles ys -> doubles xs -> fl b64 y -> fl b64 x ->
  shaped (length ys) (length xs) w -> all2Z (fun z => Z.abs z <= B)%Z w -> (1 <= B <= 100000000)%Z ->
  inside ys y -> inside xs x -> in_cell ys r y -> in_cell xs c x ->
  let v := bilinear ys xs (at2 0 (reals w)) r c y x in
  exists z, grid64 m i (points_of ys xs) (ints w) tt (Some y) (Some x) = Some (Some (IZR z)) /\
    Rabs (IZR z - v) < 1 + 20 * bpow radix2 (-53) * IZR B /\
    (forall n, IZR n + 20 * bpow radix2 (-53) * IZR B < v -> v < IZR n + 1 - 20 * bpow radix2 (-53) * IZR B ->
       z = if Rle_dec 0 v then n else (n + 1)%Z).
Proof.
  intros m i ys xs w y x r c B Ha Py Px Dy Dx Fy Fx Sw Dw HB Hy Hx Hr Hc v.
  pose proof (reals_bounded w B ltac:(lia) Dw) as Dr.
  assert (HB' : / 1000 <= IZR B <= 100000000) by (destruct HB as [H1 H2]; apply IZR_le in H1, H2; lra).
  destruct (C97_double m i ys xs (reals w) y x r c (IZR B) Ha Py Px Dy Dx Fy Fx (shaped_map IZR _ _ w Sw) Dr HB' Hy Hx Hr Hc) as (o & E & Fo & D).
  fold v in D. set (e := 20 * bpow radix2 (-53) * IZR B) in *.
  assert (He : 0 < e <= 1 / 1000000).
  { unfold e. change (bpow radix2 (-53)) with (/ IZR (2 ^ 53)). change (2 ^ 53)%Z with 9007199254740992%Z. lra. }
  destruct (grid_cast m i ys xs w y x Ha Hy Hx Sw) as (u & E1 & E2 & Fu). rewrite E in E1. injection E1 as E1.
  destruct u as [a|]; [|discriminate E1]. specialize (Fu a eq_refl).
  assert (o = a) as ->.
  { cbn [nst F64 FN bind1] in E1. rewrite (fit_fl b64 a Fu) in E1. now injection E1. }
  assert (Bv : Rabs v <= IZR B).
  { pose proof (inside_cell _ _ _ Hy Hr) as By. pose proof (inside_cell _ _ _ Hx Hc) as Bx. pose proof Ha as (Iy & Ix & _).
    pose proof Hr as (Lr & _). pose proof Hc as (Lc & _). pose proof (step_pos ys r Iy Lr) as Sy. pose proof (step_pos xs c Ix Lc) as Sx.
    assert (K : forall p q, (p = r \/ p = S r)%nat -> (q = c \/ q = S c)%nat -> - IZR B <= at2 0 (reals w) p q <= IZR B).
    { intros p q Hp Hq. apply Rabs_le_inv.
      apply (all2_at _ 0 _ _ (reals w) p q Dr (shaped_map IZR _ _ w Sw)); lia. }
    apply Rabs_le. unfold v, bilinear. apply straight_line_between; try assumption; apply straight_line_between; auto. }
  exists (Rtrunc a). rewrite E2. split.
  { f_equal. apply cast_64. apply Rabs_le_inv in D, Bv. apply Rabs_le. lra. }
  pose proof (Rtrunc_bound a) as T. apply Rabs_def2 in T. apply Rabs_le_inv in D. split; [apply Rabs_def1; lra|].
  intros n H1 H2. unfold Rtrunc. destruct (Rle_dec 0 v) as [P|P].
  - assert (0 <= n)%Z by (apply Z.lt_succ_r, lt_IZR; unfold Z.succ; rewrite plus_IZR; lra). apply IZR_le in H.
    destruct (Rlt_dec a 0) as [A|A]; [lra|]. apply Rfloor_unique. lra.
  - apply Rnot_le_lt in P. assert (n < 0)%Z by (apply lt_IZR; lra). assert (n + 1 <= 0)%Z by lia. apply IZR_le in H0. rewrite plus_IZR in H0.
    destruct (Rlt_dec a 0) as [A|A].
    + destruct (Req_dec (IZR (n + 1)) a) as [Q|Q]; [rewrite plus_IZR in Q; lra|].
      rewrite plus_IZR in Q. enough (Rfloor (- a) = - (n + 1))%Z by lia. apply Rfloor_unique. rewrite opp_IZR, plus_IZR. lra.
    + exfalso. lra.
Qed.
Print Assumptions C146_cut_partial.

(** between the corners, or one nearer to zero than all of them *)
Theorem C146_between_partial : forall m i ys xs w y x r c B lo hi,
  axes ys xs -> spaced ys -> spaced xs -> doubles ys -> doubles xs -> fl b64 y -> fl b64 x ->
  shaped (length ys) (length xs) w -> all2Z (fun z => Z.abs z <= B)%Z w -> (1 <= B <= 100000000)%Z ->
  inside ys y -> inside xs x -> in_cell ys r y -> in_cell xs c x ->
  (forall a b, (a = r \/ a = S r)%nat -> (b = c \/ b = S c)%nat -> (lo <= at2 0%Z w a b <= hi)%Z) ->
  exists z, grid64 m i (points_of ys xs) (ints w) tt (Some y) (Some x) = Some (Some (IZR z)) /\
    ((lo <= z <= hi)%Z \/ (0 < lo /\ z = lo - 1)%Z \/ (hi < 0 /\ z = hi + 1)%Z).
Proof.
  intros m i ys xs w y x r c B lo hi Ha Py Px Dy Dx Fy Fx Sw Dw HB Hy Hx Hr Hc Hlh.
  pose proof (reals_bounded w B ltac:(lia) Dw) as Dr.
  assert (HB' : / 1000 <= IZR B <= 100000000) by (destruct HB as [H1 H2]; apply IZR_le in H1, H2; lra).
  assert (At : forall a b, at2 0 (reals w) a b = IZR (at2 0%Z w a b)).
  { intros a b. unfold at2, reals. change (@nil R) with (map IZR []). rewrite map_nth. apply (map_nth IZR). }
  destruct (C98_between_partial m i ys xs (reals w) y x r c (IZR B) (IZR lo) (IZR hi) Ha Py Px Dy Dx Fy Fx (shaped_map IZR _ _ w Sw) Dr HB' Hy Hx Hr Hc) as (o & E & K).
  { intros a b Pa Pb. rewrite At. destruct (Hlh a b Pa Pb). split; now apply IZR_le. }
  set (e := 20 * bpow radix2 (-53) * IZR B) in *.
  assert (He : 0 < e <= 1 / 1000000).
  { unfold e. change (bpow radix2 (-53)) with (/ IZR (2 ^ 53)). change (2 ^ 53)%Z with 9007199254740992%Z. lra. }
  destruct (grid_cast m i ys xs w y x Ha Hy Hx Sw) as (u & E1 & E2 & Fu). rewrite E in E1. injection E1 as E1.
  destruct u as [a|]; [|discriminate E1]. specialize (Fu a eq_refl).
  assert (o = a) as ->.
  { cbn [nst F64 FN bind1] in E1. rewrite (fit_fl b64 a Fu) in E1. now injection E1. }
  exists (Rtrunc a).
  assert (Ba : Rabs a <= 200000000).
  { destruct (C98_between_partial m i ys xs (reals w) y x r c (IZR B) (- IZR B) (IZR B) Ha Py Px Dy Dx Fy Fx (shaped_map IZR _ _ w Sw) Dr HB' Hy Hx Hr Hc) as (o' & E' & K').
    { intros p q Hp Hq. destruct Hr as (Lr & _), Hc as (Lc & _). apply Rabs_le_inv.
      apply (all2_at _ 0 _ _ (reals w) p q Dr (shaped_map IZR _ _ w Sw)); lia. }
    rewrite E in E'. injection E' as <-. fold e in K'. apply Rabs_le. lra. }
  split; [rewrite E2; f_equal; now apply cast_64|].
  pose proof (Rtrunc_mono _ _ (proj1 K)) as M1. pose proof (Rtrunc_mono _ _ (proj2 K)) as M2.
  assert (T1 : Rtrunc (IZR lo - e) = if Z_lt_dec 0 lo then (lo - 1)%Z else lo).
  { unfold Rtrunc. destruct (Z_lt_dec 0 lo) as [L|L].
    - assert (1 <= lo)%Z by lia. apply IZR_le in H. destruct (Rlt_dec _ 0); [lra|]. apply Rfloor_unique. rewrite minus_IZR. lra.
    - assert (lo <= 0)%Z by lia. apply IZR_le in H. destruct (Rlt_dec _ 0); [|lra]. enough (Rfloor (- (IZR lo - e)) = - lo)%Z by lia.
      apply Rfloor_unique. rewrite opp_IZR. lra. }
  assert (T2 : Rtrunc (IZR hi + e) = if Z_lt_dec hi 0 then (hi + 1)%Z else hi).
  { unfold Rtrunc. destruct (Z_lt_dec hi 0) as [L|L].
    - assert (hi <= -1)%Z by lia. apply IZR_le in H. destruct (Rlt_dec _ 0); [|lra]. enough (Rfloor (- (IZR hi + e)) = - (hi + 1))%Z by lia.
      apply Rfloor_unique. rewrite opp_IZR, plus_IZR. lra.
    - assert (0 <= hi)%Z by lia. apply IZR_le in H. destruct (Rlt_dec _ 0); [lra|]. apply Rfloor_unique. lra. }
  rewrite T1 in M1. rewrite T2 in M2.
  destruct (Z_lt_dec 0 lo); destruct (Z_lt_dec hi 0); lia.
Qed.
Print Assumptions C146_between_partial.

(** tie points come back *)
Theorem C146_tie_points_partial : forall m i ys xs w r c,
  axes ys xs -> doubles ys -> doubles xs -> not_huge ys -> not_huge xs ->
  shaped (length ys) (length xs) w -> all2Z (fun z => Z.abs z <= 100000000)%Z w -> (r < length ys)%nat -> (c < length xs)%nat ->
  grid64 m i (points_of ys xs) (ints w) tt (Some (nth r ys 0)) (Some (nth c xs 0)) = Some (Some (IZR (at2 0%Z w r c))).
Proof.
  intros m i ys xs w r c Ha Dy Dx Hy Hx Sw Dw Hr Hc. pose proof Ha as (Iy & Ix & Ly & Lx).
  pose proof (reals_bounded w 100000000 ltac:(lia) Dw) as Dr.
  assert (Sr : shaped (length ys) (length xs) (reals w)) by now apply shaped_map.
  assert (E : grid64 m i (points_of ys xs) (finite (reals w)) tt (Some (nth r ys 0)) (Some (nth c xs 0)) = Some (Some (at2 0 (reals w) r c))).
  { apply C97_tie_points; try assumption. eapply Forall_impl; [|exact Dr]. intros k Hk. eapply Forall_impl; [|exact Hk]. intros v Hv. apply Hv. }
  destruct (grid_cast m i ys xs w _ _ Ha (node_inside ys r Iy Hr) (node_inside xs c Ix Hc) Sw) as (u & E1 & E2 & Fu). rewrite E in E1. injection E1 as E1.
  destruct u as [a|]; [|discriminate E1]. specialize (Fu a eq_refl).
  cbn [nst F64 FN bind1] in E1. rewrite (fit_fl b64 a Fu) in E1. injection E1 as E1.
  assert (At : at2 0 (reals w) r c = IZR (at2 0%Z w r c)).
  { unfold at2, reals. change (@nil R) with (map IZR []). rewrite map_nth. apply (map_nth IZR). }
  rewrite E2. f_equal. rewrite cast_64; [rewrite <- E1, At, Rtrunc_IZR; reflexivity|].
  rewrite <- E1. eapply Rle_trans; [apply (all2_at _ 0 _ _ (reals w) r c Dr Sr Hr Hc)|]. lra.
Qed.
Print Assumptions C146_tie_points_partial.

(** constant tie values do not come back: 27 everywhere gives 26 *)
Lemma constant_27 m i : grid64 m i (points_of [0; 11] [0; 11]) (finite (reals [[27; 27]; [27; 27]]%Z)) tt (Some 0) (Some 1) = Some (Some (7599824371187711 * / 281474976710656)).
Proof.
  assert (I2 : increasing [0; 11]) by (intros a b H; destruct a as [|[|a]]; destruct b as [|[|b]]; cbn in *; try lia; lra).
  assert (Ha : axes [0; 11] [0; 11]) by (repeat split; try exact I2; cbn; lia).
  rewrite (grid_64 m i [0; 11] [0; 11] (reals [[27; 27]; [27; 27]]%Z) 0 1 Ha) by first [split; cbn; lra|split; [reflexivity|repeat (apply Forall_cons; [reflexivity|]); apply Forall_nil]].
  cbv zeta. change (@locate _ RN (map Some [0; 11]) (Some 0)) with 0%nat. change (@locate _ RN (map Some [0; 11]) (Some 1)) with 0%nat. unfold reals. cbn [nth map].
  set (N := F64 m).
  assert (D0 : @nsub _ N (Some 11) (Some 0) = Some 11).
  { cbn [nsub N F64 FN bind2]. rewrite Rminus_0_r. apply (fit_IZR b64 11); [apply good_b64|cbn; lia|cbn; lia]. }
  assert (D1 : @nsub _ N (Some 1) (Some 0) = Some 1).
  { cbn [nsub N F64 FN bind2]. rewrite Rminus_0_r. apply (fit_IZR b64 1); [apply good_b64|cbn; lia|cbn; lia]. }
  assert (Q0 : @ndiv _ N (@nsub _ N (Some 0) (Some 0)) (@nsub _ N (Some 11) (Some 0)) = Some 0).
  { rewrite D0. rewrite (sub_same m 0 : @nsub _ N (Some 0) (Some 0) = Some 0). cbn [ndiv N F64 FN bind2]. destruct (Req_EM_T 11 0); [lra|].
    unfold Rdiv. rewrite Rmult_0_l. apply fit_0. }
  set (p := 6550690367084358 * / 72057594037927936). set (q := 8188362958855447 * / 9007199254740992).
  assert (Q1 : @ndiv _ N (@nsub _ N (Some 1) (Some 0)) (@nsub _ N (Some 11) (Some 0)) = Some p).
  { rewrite D0, D1. cbn [ndiv N F64 FN bind2]. destruct (Req_EM_T 11 0); [lra|].
    rewrite (rd_64 (1 / 11) (-3) 6550690367084358); [..|lia| |apply bpow_le; lia]; bp; cbn; [reflexivity|lra|apply Rabs_def1; lra]. }
  assert (Q2 : @nsub _ N (Some 1) (Some p) = Some q).
  { cbn [nsub N F64 FN bind2]. rewrite (rd_64 (1 - p) 0 8188362958855447); [..|lia| |apply bpow_le; lia]; bp; unfold q, p; cbn; [reflexivity|lra|apply Rabs_def1; lra]. }
  set (s := 6908931246534283 * / 281474976710656). set (t := 5527144997227427 * / 2251799813685248). set (o := 7599824371187711 * / 281474976710656).
  assert (M1 : @nmul _ N (Some 27) (Some q) = Some s).
  { cbn [nmul N F64 FN bind2]. rewrite (rd_64 (27 * q) 5 6908931246534283); [..|lia| |apply bpow_le; lia]; bp; unfold s, q; cbn; [reflexivity|lra|apply Rabs_def1; lra]. }
  assert (M2 : @nmul _ N (Some 27) (Some p) = Some t).
  { cbn [nmul N F64 FN bind2]. rewrite (rd_64 (27 * p) 2 5527144997227427); [..|lia| |apply bpow_le; lia]; bp; unfold t, p; cbn; [reflexivity|lra|apply Rabs_def1; lra]. }
  assert (A1 : @nadd _ N (Some s) (Some t) = Some o).
  { cbn [nadd N F64 FN bind2]. rewrite (rd_64 (s + t) 5 7599824371187711); [..|lia| |apply bpow_le; lia]; bp; unfold s, t, o; cbn; [reflexivity|lra|apply Rabs_def1; lra]. }
  assert (F5 : fl b64 27) by (apply int_fl; lia).
  assert (Fr : fl b64 o).
  { pose proof (fix_fl 7599824371187711 48 ltac:(lia) ltac:(lia)) as K. rewrite bpow_Zn in K by lia. exact K. }
  unfold linear_2d. cbn [nth]. rewrite Q0, Q1. rewrite (nz_1 m : @nz _ N 1 = Some 1). rewrite (sub_1_0 m : @nsub _ N (Some 1) (Some 0) = Some 1).
  rewrite Q2. rewrite (mul_1 m 27 F5 : @nmul _ N (Some 27) (Some 1) = Some 27), (mul_0 m 27 : @nmul _ N (Some 27) (Some 0) = Some 0).
  rewrite M1, M2, A1. rewrite (mul_0l m q : @nmul _ N (Some 0) (Some q) = Some 0), (mul_0l m p : @nmul _ N (Some 0) (Some p) = Some 0).
  rewrite !(add_0 m o Fr : @nadd _ N (Some o) (Some 0) = Some o).
  f_equal. apply (fit_fl b64 _ Fr).
Qed.

Theorem C146_refuted : forall m i, exists ys xs w y x,
  axes ys xs /\ shaped (length ys) (length xs) w /\ inside ys y /\ inside xs x /\ all2Z (fun v => v = 27%Z) w /\
  grid64 m i (points_of ys xs) (ints w) tt (Some y) (Some x) = Some (Some 26).
Proof.
  intros m i. exists [0; 11], [0; 11], [[27; 27]; [27; 27]]%Z, 0, 1.
  assert (I2 : increasing [0; 11]) by (intros a b H; destruct a as [|[|a]]; destruct b as [|[|b]]; cbn in *; try lia; lra).
  assert (Ha : axes [0; 11] [0; 11]) by (repeat split; try exact I2; cbn; lia).
  assert (Sw : shaped 2 2 [[27; 27]; [27; 27]]%Z) by (split; [reflexivity|repeat (apply Forall_cons; [reflexivity|]); apply Forall_nil]).
  assert (H0 : inside [0; 11] 0) by (split; cbn; lra). assert (H1 : inside [0; 11] 1) by (split; cbn; lra).
  split; [exact Ha|]. split; [exact Sw|]. split; [exact H0|]. split; [exact H1|]. split.
  { repeat (apply Forall_cons; [repeat (apply Forall_cons; [reflexivity|]); apply Forall_nil|]). apply Forall_nil. }
  destruct (grid_cast m i [0; 11] [0; 11] [[27; 27]; [27; 27]]%Z 0 1 Ha H0 H1 Sw) as (u & E1 & E2 & Fu). rewrite constant_27 in E1. injection E1 as E1.
  destruct u as [a|]; [|discriminate E1]. specialize (Fu a eq_refl).
  cbn [nst F64 FN bind1] in E1. rewrite (fit_fl b64 a Fu) in E1. injection E1 as E1.
  rewrite E2. f_equal. rewrite <- E1. rewrite cast_64 by (apply Rabs_le; lra). do 2 f_equal.
  unfold Rtrunc. destruct (Rlt_dec _ 0); [lra|]. apply Rfloor_unique. lra.
Qed.
Print Assumptions C146_refuted.

(** the hypotheses of C146_between_partial for this case: 26 or 27; and of C146_cut_partial for a ramp: 27 + 8 / 11 gives 27 *)
Example C146_case : forall m i,
  (exists z, grid64 m i (points_of [0; 11] [0; 11]) (ints [[27; 27]; [27; 27]]%Z) tt (Some 0) (Some 1) = Some (Some (IZR z)) /\ (26 <= z <= 27)%Z) /\
  grid64 m i (points_of [0; 11] [0; 11]) (ints [[27; 35]; [27; 35]]%Z) tt (Some 0) (Some 1) = Some (Some 27).
Proof.
  intros m i.
  assert (I2 : increasing [0; 11]) by (intros a b H; destruct a as [|[|a]]; destruct b as [|[|b]]; cbn in *; try lia; lra).
  assert (Ha : axes [0; 11] [0; 11]) by (repeat split; try exact I2; cbn; lia).
  assert (S2 : spaced [0; 11]) by (intros [|k] H; cbn in *; [lra|lia]).
  assert (D2 : doubles [0; 11]) by (apply Forall_cons; [apply int_fl; lia|apply Forall_cons; [apply int_fl; lia|apply Forall_nil]]).
  assert (Sw : forall a b : Z, shaped 2 2 [[a; b]; [a; b]]%Z) by (intros; split; [reflexivity|repeat (apply Forall_cons; [reflexivity|]); apply Forall_nil]).
  assert (H0 : inside [0; 11] 0) by (split; cbn; lra). assert (H1 : inside [0; 11] 1) by (split; cbn; lra).
  assert (C0 : in_cell [0; 11] 0 0) by (repeat split; [cbn; lia|now left|right; cbn; lra]).
  assert (C1 : in_cell [0; 11] 0 1) by (repeat split; [cbn; lia|now left|right; cbn; lra]).
  assert (Bd : forall a b, (Z.abs a <= 35)%Z -> (Z.abs b <= 35)%Z -> all2Z (fun z => Z.abs z <= 35)%Z [[a; b]; [a; b]]%Z).
  { intros a b A B. repeat (apply Forall_cons; [repeat (apply Forall_cons; [assumption|]); apply Forall_nil|]). apply Forall_nil. }
  assert (F0 : fl b64 0) by (apply (int_fl 0); lia). assert (F1 : fl b64 1) by (apply (int_fl 1); lia). split.
  - destruct (C146_between_partial m i [0; 11] [0; 11] [[27; 27]; [27; 27]]%Z 0 1 0%nat 0%nat 35 27 27 Ha S2 S2 D2 D2 F0 F1 (Sw _ _) (Bd 27%Z 27%Z ltac:(lia) ltac:(lia)) ltac:(lia) H0 H1 C0 C1) as (z & E & K).
    { intros a b [-> | ->] [-> | ->]; cbn; lia. }
    exists z. split; [exact E|lia].
  - destruct (C146_cut_partial m i [0; 11] [0; 11] [[27; 35]; [27; 35]]%Z 0 1 0%nat 0%nat 35 Ha S2 S2 D2 D2 F0 F1 (Sw _ _) (Bd 27%Z 35%Z ltac:(lia) ltac:(lia)) ltac:(lia) H0 H1 C0 C1) as (z & E & _ & K).
    assert (V : bilinear [0; 11] [0; 11] (at2 0 (reals [[27; 35]; [27; 35]]%Z)) 0 0 0 1 = 27 + 8 / 11).
    { unfold bilinear, straight_line, at2, reals. cbn. field. }
    rewrite V in K. specialize (K 27%Z). rewrite E. do 3 f_equal.
    change (bpow radix2 (-53)) with (/ IZR (2 ^ 53)) in K. change (2 ^ 53)%Z with 9007199254740992%Z in K.
    specialize (K ltac:(lra) ltac:(lra)). destruct (Rle_dec 0 (27 + 8 / 11)); [exact K|lra].
Qed.
