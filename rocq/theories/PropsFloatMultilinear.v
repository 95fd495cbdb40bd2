(** C78 - C80: the multilinear interpolation in IEEE arithmetic, on double and on float arrays.

    [interpolant] (FloatMultilinear.v) is the specification: the sum over all nodes of the value of the node
    times a product of hat functions, one per axis. [near f x t e] (FloatNear.v): [x] is a number of the
    format [f] within [e] of [t]. *)
From Coq Require Import ZArith List Bool Lia Permutation Reals Lra.
From Flocq.Core Require Import Core.
From Verif Require Import Base Num Geo Float FloatGeo FloatAcc FloatTrip FloatNear Multilinear MultilinearProofs FloatMultilinear PropsMultilinear.
Import ListNotations.
Open Scope R_scope.

(** the element type of the arrays and the largest number of nodes of an axis *)
Definition dtype (f : format) (nmax : nat) : Prop := f = b64 /\ (Z.of_nat nmax = 10000000)%Z \/ f = b32 /\ (Z.of_nat nmax = 10000)%Z.
(** an array of numbers of the format *)
Definition some2 (a : list (list R)) : list (list (option R)) := map (map Some) a.

(** the numbers of points and of nodes are C ints; bounds, points and values are numbers of the format; every axis has at least two nodes and is neither tiny
    nor huge; every point lies in the grid *)
Definition input_ok (f : format) (nmax : nat) (smin smax : list R) (ns : list nat) (n : nat) (s : list (list R)) : Prop :=
  few n /\ (Z.of_nat (prodn ns) <= int_max)%Z /\
  (1 <= length ns <= 4)%nat /\ length smin = length ns /\ length smax = length ns /\
  Forall (fun k => (2 <= k <= nmax)%nat) ns /\
  Forall2 (fun a b => fl f a /\ fl f b /\ / 100000000 <= b - a <= 100000000) smin smax /\
  points_ok (length ns) n s /\ Forall (Forall (fl f)) s /\
  forall i, (i < n)%nat -> Forall2 (fun ab x => fst ab <= x <= snd ab) (combine smin smax) (map (fun r => nth i r 0) s).

Lemma dtype_fine f nmax : dtype f nmax -> fine f.
Proof. intros [[-> _]|[-> _]]; [apply fine_64|apply fine_32]. Qed.
Lemma dtype_axes f nmax ns : dtype f nmax -> Forall (fun k => (2 <= k <= nmax)%nat) ns -> Forall (axis_ok f) ns.
Proof.
  intros D. apply Forall_impl. intros k Hk. assert (I : INR (k - 1) <= IZR (Z.of_nat nmax)) by (rewrite INR_IZR_INZ; apply IZR_le; lia).
  pose proof (pos_INR (k - 1)). destruct D as [[-> E]|[-> E]]; rewrite E in I; (split; [lia|split; [lia|]]).
  - pose proof eps_64. apply Rle_trans with (12 / 100000000000000000 * 10000000); [apply Rmult_le_compat; lra|lra].
  - pose proof eps_32. apply Rle_trans with (5967 / 100000000000 * 10000); [apply Rmult_le_compat; lra|lra].
Qed.

Lemma dtype_int f nmax ns : dtype f nmax -> Forall (fun k => (2 <= k <= nmax)%nat) ns -> Forall (fun o => (int_min <= o <= int_max)%Z) (map Z.of_nat ns).
Proof.
  intros D H. apply Forall_map. eapply Forall_impl; [|exact H]. cbv beta. intros k Hk. unfold int_min, int_max.
  destruct D as [[_ E]|[_ E]]; lia.
Qed.

Lemma column_some {N : NumOps (option R)} n s i : Forall (fun r => length r = n) s -> (i < n)%nat ->
  column (some2 s) i = map Some (map (fun r => nth i r 0) s).
Proof.
  intros H Hi. unfold column, some2. rewrite !map_map. induction H as [|r s Hr H IH]; [reflexivity|]. cbn [map]. rewrite IH. f_equal.
  rewrite (nth_indep _ _ (Some 0)) by (rewrite map_length; lia). apply map_nth.
Qed.
Lemma fl_column f n s i : Forall (fun r => length r = n) s -> Forall (Forall (fl f)) s -> (i < n)%nat -> Forall (fl f) (map (fun r => nth i r 0) s).
Proof.
  intros H F Hi. induction H as [|r s Hr H IH]; [constructor|]. inversion F as [|? ? F1 F2]; subst. cbn [map]. constructor; [|auto].
  rewrite Forall_forall in F1. apply F1, nth_In. lia.
Qed.
Lemma points_some d n s : points_ok d n s -> points_ok d n (some2 s).
Proof.
  intros [A B]. split; [unfold some2; now rewrite map_length|]. unfold some2. apply Forall_map. eapply Forall_impl; [|exact B].
  intros r Hr. cbv beta in *. now rewrite map_length.
Qed.

Lemma mapM_exists {A B} (f : A -> res B) (P : A -> B -> Prop) l : (forall a, In a l -> exists b, f a = Ok b /\ P a b) ->
  exists r, mapM f l = Ok r /\ Forall2 P l r.
Proof.
  induction l as [|a l IH]; intros H; [exists []; split; [reflexivity|constructor]|].
  destruct (H a (or_introl eq_refl)) as (b & E & Hb). destruct IH as (r & Er & Hr); [intros; apply H; now right|].
  exists (b :: r). cbn [mapM]. rewrite E, Er. split; [reflexivity|now constructor].
Qed.

(** C78: the result is the interpolant up to 9 (k - 1) + 5 units in the last place of the largest value for every
    axis of k nodes *)
Theorem C78_rounding : forall f nmax c m scheds empty smin smax ns values s n B,
  dtype f nmax -> input_ok f nmax smin smax ns n s ->
  run_ok n scheds empty (some2 values) -> Forall (fun r => length r = prodn ns) values ->
  / 100000000 <= B <= 100000000 -> Forall (Forall (fun v => fl f v /\ Rabs v <= B)) values ->
  exists out, @multilinear_interpolation _ (FN f f c m) scheds empty (map Some smin) (map Some smax) (map Z.of_nat ns) (some2 values) (some2 s) = Ok out /\
    Forall2 (fun V row => Forall2 (fun i x =>
      near f x (interpolant smin smax ns (fun ks => nth (flat ns ks) V 0) (map (fun r => nth i r 0) s))
        (1.001 * bpow radix2 (- fprec f) * B * fold_right (fun k t => 9 * INR (k - 1) + 5 + t) 0 ns))
      (seq 0 n) row) values out.
Proof.
  intros f nmax c m scheds empty smin smax ns values s n B D (Hn & Hm & Hd & G1 & G2 & G3 & G4 & G5 & G6 & G7) Hr Hv HB HV.
  rewrite (run_generic (N := FN f f c m) (length ns) n) by (rewrite ?map_length; eauto using points_some, dtype_int).
  change (some2 values) with (map (map Some) values). rewrite mapM_map'. apply mapM_exists. intros V HV1.
  rewrite Forall_forall in Hv, HV. specialize (Hv V HV1). specialize (HV V HV1). cbv beta in Hv, HV.
  apply mapM_exists. intros i Hi. apply in_seq in Hi. destruct G5 as [G5 G5'].
  rewrite (column_some n) by (auto; lia).
  destruct (ml_near f c m (dtype_fine f nmax D) smin smax ns (map (fun r => nth i r 0) s) V 0 B) as (v & E & Nv); auto.
  - lia.
  - now apply (dtype_axes f nmax).
  - now rewrite map_length.
  - apply (fl_column f n); auto. lia.
  - apply G7. lia.
  - lia.
  - cbn [Nat.add]. lia.
  - exists v. split; [exact E|]. eapply near_weaken; [|exact Nv]. unfold ulps, eps. lra.
Qed.
Print Assumptions C78_rounding.

(** C79: the values of the corners of the grid are reproduced without any error *)
Theorem C79_corners_partial : forall f nmax c m scheds empty smin smax ns values s n,
  dtype f nmax -> input_ok f nmax smin smax ns n s ->
  run_ok n scheds empty (some2 values) -> Forall (fun r => length r = prodn ns) values -> Forall (Forall (fl f)) values ->
  (forall i, (i < n)%nat -> Forall2 (fun ab x => x = fst ab \/ x = snd ab) (combine smin smax) (map (fun r => nth i r 0) s)) ->
  @multilinear_interpolation _ (FN f f c m) scheds empty (map Some smin) (map Some smax) (map Z.of_nat ns) (some2 values) (some2 s) =
  Ok (map (fun V => map (fun i => Some (nth (flat ns (corner smin ns (map (fun r => nth i r 0) s))) V 0)) (seq 0 n)) values).
Proof.
  intros f nmax c m scheds empty smin smax ns values s n D (Hn & Hm & Hd & G1 & G2 & G3 & G4 & G5 & G6 & G7) Hr Hv HV Hc.
  rewrite (run_generic (N := FN f f c m) (length ns) n) by (rewrite ?map_length; eauto using points_some, dtype_int).
  change (some2 values) with (map (map Some) values). rewrite mapM_map'. apply mapM_Ok_map. intros V HV1.
  rewrite Forall_forall in Hv, HV. specialize (Hv V HV1). specialize (HV V HV1). cbv beta in Hv, HV.
  apply mapM_Ok_map. intros i Hi. apply in_seq in Hi. destruct G5 as [G5 G5'].
  rewrite (column_some n) by (auto; lia).
  apply (ml_corner f c m (dtype_fine f nmax D) smin smax ns (map (fun r => nth i r 0) s) V 0); auto.
  - now apply (dtype_axes f nmax).
  - now rewrite map_length.
  - apply Hc. lia.
  - lia.
  - cbn [Nat.add]. lia.
Qed.
Print Assumptions C79_corners_partial.

(** one axis, one point *)
Lemma run_1 {T} {N : NumOps T} (lo hi x v : T) vals k : (2 <= k <= 1000)%Z ->
  @ml _ N (dims_of [lo] [hi] [k] [x]) vals 0 = Ok v ->
  multilinear_interpolation [[0%Z]] [[nz 0]] [lo] [hi] [k] [vals] [[x]] = Ok [[v]].
Proof.
  intros Hk H. rewrite (run_generic 1 1); cbn [length]; try lia.
  - cbn [mapM seq column map nth]. rewrite H. reflexivity.
  - split; [reflexivity|]. repeat constructor.
  - unfold few, int_max. lia.
  - constructor; [unfold int_min, int_max; lia|constructor].
  - repeat split; repeat constructor.
Qed.

Section Refute.
Variables (c : R) (m : libm).
#[local] Instance D64 : NumOps (option R) := FN b64 b64 c m.
Lemma fit64_Z z : (Z.abs z < 2 ^ 24)%Z -> fit b64 (IZR z) = Some (IZR z).
Proof. intros H. apply fit_IZR; [apply good_b64|cbn; lia|exact H]. Qed.
Lemma fit64_eq x e k : (-1000 <= e <= 1000)%Z -> bpow radix2 (e - 1) <= x < bpow radix2 e -> Rabs (x * bpow radix2 (53 - e) - IZR k) < / 2 ->
  fit b64 x = Some (IZR k * bpow radix2 (e - 53)).
Proof.
  intros He Hx Hk. pose proof (rd_eq b64 x e k Hx ltac:(cbn; lia) Hk) as E.
  assert (L : Rabs x <= bpow radix2 e) by (rewrite Rabs_pos_eq; [lra|pose proof (bpow_ge_0 radix2 (e - 1)); lra]).
  rewrite (fit_some b64 good_b64 x e ltac:(cbn; lia) L). now rewrite E.
Qed.
Ltac bpn := rewrite ?bpow_Z, ?bpow_Zn by lia; cbn.

(** node 1 of 50 nodes at 0, 1, ..., 49: its value 1 is returned as 1 - 2^-53 *)
Lemma node_1_of_50 : ml (dims_of [Some 0] [Some 49] [50%Z] [Some 1]) (map (fun k => Some (INR k)) (seq 0 50)) 0 =
  Ok (Some (9007199254740991 * bpow radix2 (-53))).
Proof.
  cbn [dims_of].
  assert (S1 : nsub (Some 1) (Some 0) = Some 1) by (cbn [nsub D64 FN bind2]; rewrite Rminus_0_r; apply (fit64_Z 1); lia).
  assert (S2 : nsub (Some 49) (Some 0) = Some 49) by (cbn [nsub D64 FN bind2]; rewrite Rminus_0_r; apply (fit64_Z 49); lia).
  assert (S3 : ndiv (Some 1) (Some 49) = Some (5882252574524729 * bpow radix2 (-5 - 53))).
  { cbn [ndiv D64 FN bind2]. destruct (Req_EM_T 49 0) as [E|_]; [lra|]. apply (fit64_eq (1 / 49) (-5)); [lia| |].
    - bpn. lra.
    - bpn. apply Rabs_def1; lra. }
  rewrite S1, S2, S3. change (50 - 1)%Z with 49%Z.
  assert (Zn : nz 49 = Some 49) by (apply (fit64_Z 49); lia).
  set (sn := 5882252574524729 * _) in *.
  assert (S4 : nmul (Some sn) (Some 49) = Some (9007199254740991 * bpow radix2 (0 - 53))).
  { cbn [nmul D64 FN bind2]. unfold sn. apply (fit64_eq _ 0); [lia| |].
    - bpn. lra.
    - bpn. apply Rabs_def1; lra. }
  assert (CE : cell (Some sn) 50 = 0%Z).
  { unfold cell. change (50 - 1)%Z with 49%Z. rewrite Zn, S4. cbn [ntrunc D64 FN]. unfold Rtrunc.
    destruct (Rlt_dec _ 0) as [L|_]; [exfalso; revert L; bpn; lra|].
    assert (Rfloor (9007199254740991 * bpow radix2 (0 - 53)) = 0%Z) as ->.
    { pose proof (Rfloor_le (9007199254740991 * bpow radix2 (0 - 53))) as [A B]. revert A B. bpn. intros A B.
      assert (-1 < Rfloor (9007199254740991 * / 9007199254740992))%Z by (apply lt_IZR; cbn; lra).
      assert (Rfloor (9007199254740991 * / 9007199254740992) < 1)%Z by (apply lt_IZR; cbn; lra). lia. }
    reflexivity. }
  rewrite CE, Zn, S4. cbn [ml bind]. change (prodZ []) with 1%Z. change (0 + 1 * 0)%Z with 0%Z. change (0 + 1 * (0 + 1))%Z with 1%Z.
  change (rdi (map (fun k => Some (INR k)) (seq 0 50)) 0) with (Ok (Some (INR 0))).
  change (rdi (map (fun k => Some (INR k)) (seq 0 50)) 1) with (Ok (Some (INR 1))). cbn [bind INR].
  set (X := 9007199254740991 * _).
  assert (FX : fl b64 X).
  { split; [|apply Rle_lt_trans with 1; [unfold X; bpn; apply Rabs_le; lra|change 1 with (bpow radix2 0); apply bpow_lt; cbn; lia]].
    apply (gf_dyadic b64 9007199254740991 (-53)); cbn; lia. }
  assert (Z0 : nz 0 = Some 0) by (apply (fit64_Z 0); lia). assert (Z1 : nz 1 = Some 1) by (apply (fit64_Z 1); lia).
  assert (S5 : nsub (Some X) (nz 0) = Some X) by (rewrite Z0; cbn [nsub D64 FN bind2]; rewrite Rminus_0_r; now apply fit_fl).
  rewrite S5, Z1.
  assert (S6 : exists d, nsub (Some 1) (Some X) = Some d).
  { cbn [nsub D64 FN bind2]. destruct (near_fit b64 fine_64 (1 - X) 1) as (d & -> & _); [unfold X; bpn; apply Rabs_le; lra|unfold big; lra|]. eauto. }
  destruct S6 as [d ->]. f_equal.
  assert (F0 : fit b64 0 = Some 0) by (apply (fit64_Z 0); lia).
  cbn [nmul D64 FN bind2]. rewrite Rmult_0_r, F0, Rmult_1_r, (fit_fl b64 X FX). cbn [nadd D64 FN bind2]. rewrite Rplus_0_l.
  now apply fit_fl.
Qed.

(** the constant 5 is interpolated as 5 - 2^-50 at 3 * 2^-55 *)
Definition lam : R := 3 * bpow radix2 (-55).
Lemma fl_lam : fl b64 lam.
Proof.
  split; [apply (gf_dyadic b64 3 (-55)); cbn; lia|]. apply Rle_lt_trans with 1; [unfold lam; bpn; apply Rabs_le; lra|].
  change 1 with (bpow radix2 0). apply bpow_lt. cbn. lia.
Qed.
Lemma constant_5 : ml (dims_of [Some 0] [Some 1] [2%Z] [Some lam]) [Some 5; Some 5] 0 = Ok (Some (5629499534213119 * bpow radix2 (-50))).
Proof.
  pose proof fl_lam as FL. assert (L0 : 0 < lam < / 1000) by (unfold lam; bpn; lra). cbn [dims_of].
  assert (S1 : nsub (Some lam) (Some 0) = Some lam) by (cbn [nsub D64 FN bind2]; rewrite Rminus_0_r; now apply fit_fl).
  assert (S2 : nsub (Some 1) (Some 0) = Some 1) by (cbn [nsub D64 FN bind2]; rewrite Rminus_0_r; apply (fit64_Z 1); lia).
  assert (S3 : ndiv (Some lam) (Some 1) = Some lam).
  { cbn [ndiv D64 FN bind2]. destruct (Req_EM_T 1 0) as [E|_]; [lra|]. unfold Rdiv. rewrite Rinv_1, Rmult_1_r. now apply fit_fl. }
  rewrite S1, S2, S3. change (2 - 1)%Z with 1%Z.
  assert (Z0 : nz 0 = Some 0) by (apply (fit64_Z 0); lia). assert (Z1 : nz 1 = Some 1) by (apply (fit64_Z 1); lia).
  assert (S4 : nmul (Some lam) (Some 1) = Some lam) by (cbn [nmul D64 FN bind2]; rewrite Rmult_1_r; now apply fit_fl).
  assert (CE : cell (Some lam) 2 = 0%Z).
  { unfold cell. change (2 - 1)%Z with 1%Z. lia. }
  rewrite CE, Z1, S4, Z0. cbn [ml bind]. change (prodZ []) with 1%Z. change (0 + 1 * 0)%Z with 0%Z. change (0 + 1 * (0 + 1))%Z with 1%Z.
  change (rdi [Some 5; Some 5] 0) with (Ok (Some 5)). change (rdi [Some 5; Some 5] 1) with (Ok (Some 5)). cbn [bind]. rewrite S1, Z1.
  assert (S5 : nsub (Some 1) (Some lam) = Some (9007199254740991 * bpow radix2 (0 - 53))).
  { cbn [nsub D64 FN bind2]. apply (fit64_eq _ 0); [lia| |].
    - unfold lam. bpn. lra.
    - unfold lam. bpn. apply Rabs_def1; lra. }
  rewrite S5. set (mu := 9007199254740991 * _) in *.
  assert (S6 : nmul (Some mu) (Some 5) = Some (5629499534213119 * bpow radix2 (3 - 53))).
  { cbn [nmul D64 FN bind2]. apply (fit64_eq _ 3); [lia| |].
    - unfold mu. bpn. lra.
    - unfold mu. bpn. apply Rabs_def1; lra. }
  assert (S7 : nmul (Some lam) (Some 5) = Some (15 * bpow radix2 (-55))).
  { cbn [nmul D64 FN bind2]. replace (lam * 5) with (15 * bpow radix2 (-55)) by (unfold lam; ring). apply fit_fl.
    split; [apply (gf_dyadic b64 15 (-55)); cbn; lia|]. apply Rle_lt_trans with 1; [bpn; apply Rabs_le; lra|].
    change 1 with (bpow radix2 0). apply bpow_lt. cbn. lia. }
  rewrite S6, S7. f_equal. cbn [nadd D64 FN bind2]. apply (fit64_eq _ 3); [lia| |].
  - bpn. lra.
  - bpn. apply Rabs_def1; lra.
Qed.
End Refute.

Lemma fl64_Z z : (Z.abs z < 2 ^ 24)%Z -> fl b64 (IZR z).
Proof. intros H. apply (fit_inv b64 good_b64 _ _ (fit64_Z z H)). Qed.
Lemma fl64_nat k : (Z.of_nat k < 2 ^ 24)%Z -> fl b64 (INR k).
Proof. intros H. rewrite INR_IZR_INZ. apply fl64_Z. lia. Qed.

(** C79: in double arithmetic, a node (with coordinates that are exact doubles) whose value is not reproduced *)
Theorem C79_refuted : forall c m, exists smin smax ns values s k v,
  input_ok b64 (Z.to_nat 10000000) smin smax ns 1 s /\ Forall (fun r => length r = prodn ns) values /\ Forall (Forall (fl b64)) values /\
  map (fun r => nth 0 r 0) s = nodes_of smin smax ns [k] /\ (k < hd 0 ns)%nat /\
  @multilinear_interpolation _ (FN b64 b64 c m) [[0%Z]] [[Some 0]] (map Some smin) (map Some smax) (map Z.of_nat ns) (some2 values) (some2 s) = Ok [[Some v]] /\
  v <> nth (flat ns [k]) (hd [] values) 0.
Proof.
  intros c m. exists [0], [49], [50%nat], [map INR (seq 0 50)], [[1]], 1%nat, (9007199254740991 * bpow radix2 (-53)).
  assert (F0 : fl b64 0) by (apply (fl64_Z 0); lia). assert (F1 : fl b64 1) by (apply (fl64_Z 1); lia).
  assert (F49 : fl b64 49) by (apply (fl64_Z 49); lia).
  split; [|split; [|split; [|split; [|split; [|split]]]]].
  - unfold input_ok. cbn [length]. split; [unfold few, int_max; lia|]. split; [cbn [prodn fold_right]; unfold int_max; lia|]. split; [lia|]. split; [reflexivity|]. split; [reflexivity|].
    split; [constructor; [lia|constructor]|]. split; [constructor; [split; [assumption|split; [assumption|lra]]|constructor]|]. split; [split; repeat constructor|].
    split; [constructor; [constructor; [assumption|constructor]|constructor]|]. intros i Hi. assert (i = 0%nat) as -> by lia. cbn. repeat constructor; cbn; lra.
  - repeat constructor.
  - constructor; [|constructor]. apply Forall_forall. intros v Hv. apply in_map_iff in Hv as (k & <- & Hk). apply in_seq in Hk.
    apply fl64_nat. lia.
  - cbn. unfold node. cbn. repeat f_equal. lra.
  - cbn. lia.
  - pose proof (@run_1 _ (D64 c m) (Some 0) (Some 49) (Some 1) _ _ 50%Z ltac:(lia) (node_1_of_50 c m)) as R.
    assert (Z0 : @nz _ (D64 c m) 0 = Some 0) by (apply (fit64_Z 0); lia). rewrite Z0 in R.
    unfold some2. cbn [map]. rewrite map_map. exact R.
  - rewrite bpow_Zn by lia. cbn. lra.
Qed.
Print Assumptions C79_refuted.

(** C80: the interpolant stays between the smallest and the largest value *)
Lemma interpolant_between f smin smax ns g p lo hi : Forall (axis_ok f) ns -> length smin = length ns -> length smax = length ns -> length p = length ns ->
  grid_fl f smin smax -> inside smin smax p ->
  (forall ks, Forall2 (fun k n => (k < n)%nat) ks ns -> lo <= g ks <= hi) -> lo <= interpolant smin smax ns g p <= hi.
Proof.
  intros Ha. revert smin smax g p; induction Ha as [|n ns (Hn & Hn2 & Hn3) Ha IH]; intros smin smax g p H1 H2 H3 Hg Hi HB.
  - destruct smin; [|discriminate]. cbn. apply HB. constructor.
  - destruct smin as [|a smin]; [discriminate|]. destruct smax as [|b smax]; [discriminate|]. destruct p as [|x p]; [discriminate|].
    cbn [length] in *. inversion Hg as [|? ? ? ? (_ & _ & [W1 W2]) Hg']; subst. inversion Hi as [|? ? ? ? Hx Hi']; subst. cbn [fst snd] in Hx.
    cbn [interpolant].
    assert (N1 : 1 <= INR (n - 1)) by (change 1 with (INR 1); apply le_INR; lia).
    assert (ST : steps_to a b n x = (x - a) / (b - a) * INR (n - 1)) by (unfold steps_to; field; split; lra).
    assert (Q : 0 <= (x - a) / (b - a) <= 1).
    { split; [apply Rmult_le_pos; [lra|apply Rlt_le, Rinv_0_lt_compat; lra]|].
      apply (Rmult_le_reg_r (b - a)); [lra|]. unfold Rdiv. rewrite Rmult_assoc, Rinv_l by lra. lra. }
    destruct (cell_of n (steps_to a b n x) Hn) as (q & Hq & Cq).
    { rewrite ST. split; [apply Rmult_le_pos; lra|]. rewrite <- (Rmult_1_l (INR (n - 1))) at 2. apply Rmult_le_compat_r; lra. }
    rewrite (hats n _ _ q Hq Cq). apply mix_bounds; [lra| |]; apply IH; auto; intros ks Hk; apply HB; (constructor; [lia|exact Hk]).
Qed.

Theorem C80_between_partial : forall f nmax c m scheds empty smin smax ns values s n B lo hi out,
  dtype f nmax -> input_ok f nmax smin smax ns n s ->
  run_ok n scheds empty (some2 values) -> Forall (fun r => length r = prodn ns) values ->
  / 100000000 <= B <= 100000000 -> - B <= lo -> hi <= B -> Forall (Forall (fun v => fl f v /\ lo <= v <= hi)) values ->
  @multilinear_interpolation _ (FN f f c m) scheds empty (map Some smin) (map Some smax) (map Z.of_nat ns) (some2 values) (some2 s) = Ok out ->
  let e := 1.001 * bpow radix2 (- fprec f) * B * fold_right (fun k t => 9 * INR (k - 1) + 5 + t) 0 ns in
  Forall (Forall (fun x => exists v, x = Some v /\ lo - e <= v <= hi + e)) out.
Proof.
  intros f nmax c m scheds empty smin smax ns values s n B lo hi out D I Hr Hv HB Hlo Hhi HV E e.
  destruct (C78_rounding f nmax c m scheds empty smin smax ns values s n B D I Hr Hv HB) as (out' & E' & H).
  { eapply Forall_impl; [|exact HV]. intros r. apply Forall_impl. intros v [F V]. split; [exact F|]. apply Rabs_le. lra. }
  rewrite E in E'. injection E' as <-. fold e in H. destruct I as (Hn & Hm & Hd & G1 & G2 & G3 & G4 & G5 & G6 & G7).
  clear E Hr. revert Hv HV. induction H as [|V row values out HR H IH]; intros Hv HV; [constructor|].
  inversion Hv as [|? ? Hv1 Hv2]; subst. inversion HV as [|? ? HV1 HV2]; subst. constructor; [|auto].
  assert (Hl : forall i, In i (seq 0 n) -> (i < n)%nat) by (intros i Hi; apply in_seq in Hi; lia). revert HR Hl. clear IH H.
  generalize (seq 0 n). intros l HR. induction HR as [|i x l row Hx HR IH]; intros Hl; constructor.
  - destruct Hx as (v & -> & _ & Ev). exists v. split; [reflexivity|].
    assert (K : lo <= interpolant smin smax ns (fun ks => nth (flat ns ks) V 0) (map (fun r => nth i r 0) s) <= hi).
    { apply (interpolant_between f); auto.
      - now apply (dtype_axes f nmax).
      - rewrite map_length. apply G5.
      - apply G7, Hl. now left.
      - intros ks Hk. rewrite Forall_forall in HV1. apply HV1, nth_In. rewrite Hv1. clear -Hk.
        induction Hk as [|k m ks ms Hkm K1 IH]; cbn [flat prodn fold_right]; [lia|]. fold (prodn ms). nia. }
    apply Rabs_le_inv in Ev. lra.
  - apply IH. intros j Hj. apply Hl. now right.
Qed.
Print Assumptions C80_between_partial.

(** ... but in double arithmetic the result may leave that range: a constant is not reproduced *)
Theorem C80_refuted : forall c m, exists smin smax ns values s v,
  input_ok b64 (Z.to_nat 10000000) smin smax ns 1 s /\ Forall (fun r => length r = prodn ns) values /\
  Forall (Forall (fun x => fl b64 x /\ x = 5)) values /\
  @multilinear_interpolation _ (FN b64 b64 c m) [[0%Z]] [[Some 0]] (map Some smin) (map Some smax) (map Z.of_nat ns) (some2 values) (some2 s) = Ok [[Some v]] /\
  v < 5.
Proof.
  intros c m. exists [0], [1], [2%nat], [[5; 5]], [[lam]], (5629499534213119 * bpow radix2 (-50)).
  assert (F0 : fl b64 0) by (apply (fl64_Z 0); lia). assert (F1 : fl b64 1) by (apply (fl64_Z 1); lia).
  assert (F5 : fl b64 5) by (apply (fl64_Z 5); lia). pose proof fl_lam as FL.
  assert (L0 : 0 < lam < / 1000) by (unfold lam; rewrite bpow_Zn by lia; cbn; lra).
  split; [|split; [|split; [|split]]].
  - unfold input_ok. cbn [length]. split; [unfold few, int_max; lia|]. split; [cbn [prodn fold_right]; unfold int_max; lia|]. split; [lia|]. split; [reflexivity|]. split; [reflexivity|].
    split; [constructor; [lia|constructor]|]. split; [constructor; [split; [assumption|split; [assumption|lra]]|constructor]|]. split; [split; repeat constructor|].
    split; [constructor; [constructor; [assumption|constructor]|constructor]|]. intros i Hi. assert (i = 0%nat) as -> by lia. cbn. repeat constructor; cbn; lra.
  - repeat constructor.
  - constructor; [|constructor]. constructor; [split; [exact F5|reflexivity]|]. constructor; [split; [exact F5|reflexivity]|constructor].
  - pose proof (@run_1 _ (D64 c m) (Some 0) (Some 1) (Some lam) _ _ 2%Z ltac:(lia) (constant_5 c m)) as R.
    assert (Z0 : @nz _ (D64 c m) 0 = Some 0) by (apply (fit64_Z 0); lia). rewrite Z0 in R. exact R.
  - rewrite bpow_Zn by lia. cbn. lra.
Qed.
Print Assumptions C80_refuted.

(** a 3 x 2 grid of floats over [0, 2] x [-1, 1] and the points (1/2, 0), (2, -1) *)
Lemma fl32_Z z : (Z.abs z < 2 ^ 24)%Z -> fl b32 (IZR z).
Proof. intros H. apply (fit_inv b32 good_b32 (IZR z)), fit_IZR; [apply good_b32|cbn; lia|exact H]. Qed.
Example C78_case : input_ok b32 (Z.to_nat 10000) [0; -1] [2; 1] [3%nat; 2%nat] 2 [[/ 2; 2]; [0; -1]] /\
  interpolant [0; -1] [2; 1] [3%nat; 2%nat] (fun ks => nth (flat [3%nat; 2%nat] ks) [10; 20; 30; 40; 50; 70] 0) [/ 2; 0] = 25.
Proof.
  assert (H : fl b32 (/ 2)).
  { split; [|apply Rle_lt_trans with 1; [rewrite Rabs_pos_eq; lra|change 1 with (bpow radix2 0); apply bpow_lt; cbn; lia]].
    replace (/ 2) with (IZR 1 * bpow radix2 (-1)) by (rewrite bpow_Zn by lia; cbn; lra). apply gf_dyadic; cbn; lia. }
  assert (F0 : fl b32 0) by (apply (fl32_Z 0); lia). assert (F1 : fl b32 1) by (apply (fl32_Z 1); lia).
  assert (F2 : fl b32 2) by (apply (fl32_Z 2); lia). assert (F3 : fl b32 (-1)) by (apply (fl32_Z (-1)); lia).
  split.
  - unfold input_ok. cbn [length]. split; [unfold few, int_max; lia|]. split; [cbn [prodn fold_right]; unfold int_max; lia|]. split; [lia|]. split; [reflexivity|]. split; [reflexivity|].
    split; [constructor; [lia|constructor; [lia|constructor]]|].
    split; [constructor; [split; [|split]; [auto|auto|lra]|constructor; [split; [|split]; [auto|auto|lra]|constructor]]|].
    split; [split; repeat constructor|]. split.
    + constructor; [|constructor; [|constructor]]; (constructor; [auto|constructor; [auto|constructor]]).
    + intros i Hi. assert (i = 0%nat \/ i = 1%nat) as [-> | ->] by lia; cbn; (constructor; [cbn; lra|constructor; [cbn; lra|constructor]]).
  - cbn [interpolant]. unfold sum_to. cbn [seq fold_right].
    assert (A : steps_to 0 2 3 (/ 2) = / 2) by (unfold steps_to; cbn; lra). assert (B : steps_to (-1) 1 2 0 = / 2) by (unfold steps_to; cbn; lra).
    rewrite A, B. cbn [INR flat prodn fold_right Nat.add Nat.mul nth].
    replace (/ 2 - 0) with (/ 2) by ring. rewrite !(hat_1 (/ 2)) by lra. rewrite !(hat_2 (/ 2 - 1)) by lra. rewrite !(hat_0 (/ 2 - (1 + 1))) by lra. lra.
Qed.
