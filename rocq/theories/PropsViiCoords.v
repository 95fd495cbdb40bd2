(** C138: index coordinates attached to longitudes and latitudes (viiinterpolator.py) *)
From Coq Require Import Reals ZArith List Bool Lia Lra FunctionalExtensionality.
From Verif Require Import Base Num Geo Vii ViiProofs PropsVii PropsViiDims ViiCoords.
Import ListNotations.
Local Open Scope nat_scope.

(** as many labels as positions (guaranteed by xarray) *)
Definition labelled {T} (a : xarray T) : Prop :=
  forall d l, index a d = Some l -> (d = fst (dims (plain a)) -> length l = nrows (plain a)) /\ (d = snd (dims (plain a)) -> length l = ncols (plain a)).
(** the labels of a dimension are the same, or only one of the arrays has labels *)
Definition agreeing {T} (a b : xarray T) (d : nat) : Prop := index a d = index b d \/ index a d = None \/ index b d = None.

(** ** Labels *)
Lemma same_labels_eq a b : same_labels a b = true <-> a = b.
Proof.
  revert b. induction a as [|x a IH]; intros [|y b]; cbn; split; intros H; try discriminate; try reflexivity.
  - apply andb_true_iff in H as [H1 H2]. apply Z.eqb_eq in H1. apply IH in H2. congruence.
  - injection H as -> ->. rewrite Z.eqb_refl. now apply IH.
Qed.
Lemma has_label_in l x : has_label l x = true <-> In x l.
Proof.
  unfold has_label. rewrite existsb_exists. split.
  - intros (y & H & E). apply Z.eqb_eq in E. now subst.
  - intros H. exists x. split; [exact H|apply Z.eqb_refl].
Qed.
Lemma duplicates_not l : has_duplicates l = false <-> NoDup l.
Proof.
  induction l as [|x l IH]; cbn; [split; [intros; constructor|reflexivity]|]. rewrite orb_false_iff, IH. split.
  - intros [H1 H2]. constructor; [|exact H2]. intros H. apply has_label_in in H. congruence.
  - intros H. inversion H; subst. split; [|assumption]. destruct (has_label l x) eqn:E; [apply has_label_in in E; contradiction|reflexivity].
Qed.
Lemma position_in l x d : In x l -> position l x < length l /\ nth (position l x) l d = x.
Proof.
  induction l as [|y l IH]; [intros []|]. intros H. cbn [position length]. destruct (Z.eqb_spec x y) as [->|N]; [cbn; lia|].
  destruct H as [->|H]; [congruence|]. destruct (IH H). cbn. lia.
Qed.
Lemma position_nth l i d : NoDup l -> i < length l -> position l (nth i l d) = i.
Proof.
  intros H Hi. destruct (position_in l (nth i l d) d (nth_In l d Hi)) as [L E]. exact (proj1 (NoDup_nth l d) H _ _ L Hi E).
Qed.
Lemma take_all {T} n m (a : darray T) : n = nrows a -> m = ncols a -> take (seq 0 n) (seq 0 m) a = a.
Proof.
  intros -> ->. destruct a as [ds n m v]. unfold take. cbn [dims nrows ncols at_]. rewrite !seq_length. f_equal.
  extensionality i. extensionality j.
  assert (S : forall k n, nth k (seq 0 n) k = k).
  { intros k n0. destruct (Nat.lt_ge_cases k n0); [now rewrite seq_nth by lia|]. apply nth_overflow. now rewrite seq_length. }
  now rewrite !S.
Qed.

(** ** Agreeing labels *)
Lemma align_agreeing {T} (a b : xarray T) d na nb : agreeing a b d ->
  (forall l, index a d = Some l -> length l = na) -> (forall l, index b d = Some l -> length l = nb) ->
  align_dim (index a d) (index b d) na nb = if na =? nb then Ok (seq 0 na, seq 0 nb) else Err ValueError.
Proof.
  intros A La Lb. unfold align_dim. destruct (index a d) as [la|] eqn:Ea; [|reflexivity]. destruct (index b d) as [lb|] eqn:Eb; [|reflexivity].
  destruct A as [A|[A|A]]; rewrite Ea, Eb in A || (rewrite ?Ea, ?Eb in A); try discriminate. injection A as <-. rewrite (proj2 (same_labels_eq la la) eq_refl).
  rewrite <- (La la eq_refl), <- (Lb la eq_refl), Nat.eqb_refl. reflexivity.
Qed.
Theorem C138_agreeing_partial : forall {T} {N : NumOps T} nan (lon lat : xarray T) s f lt zt, labelled lon -> labelled lat -> (forall d, agreeing lat lon d) ->
  geo_interpolation nan lon lat s f lt zt = tie_points_geo_interpolation nan (plain lon) (plain lat) s f lt zt.
Proof.
  intros T N nan lon lat s f lt zt L1 L2 A. unfold geo_interpolation, tie_points_geo_interpolation.
  destruct (shape_eqb (plain lon) (plain lat)) eqn:S; [|reflexivity]. apply shape_eqb_eq in S as [S1 S2]. cbn [negb].
  destruct (_ || _); [reflexivity|]. destruct (to_cart _ _ _); [|reflexivity].
  unfold align_operands, align_longitude.
  destruct (dims (plain lat)) as [d0 d1] eqn:D. unfold dims_eqb. rewrite D. cbn [fst snd].
  destruct ((fst (dims (plain lon)) =? d0) && (snd (dims (plain lon)) =? d1)) eqn:E; cbn [bind].
  - apply andb_true_iff in E as [E1 E2]. apply Nat.eqb_eq in E1, E2.
    rewrite (align_agreeing lat lon d0 _ (nrows (plain lon)) (A d0)) by (intros l H; first [apply (L2 d0 l H); now rewrite D|apply (L1 d0 l H); now rewrite E1]).
    rewrite S1, Nat.eqb_refl. cbn [bind].
    rewrite (align_agreeing lat lon d1 _ (ncols (plain lon)) (A d1)) by (intros l H; first [apply (L2 d1 l H); now rewrite D|apply (L1 d1 l H); now rewrite E2]).
    rewrite S2, Nat.eqb_refl. cbn [bind fst snd]. rewrite !take_all by auto.
    replace (map_da (fun l : T => snd (vii_lonlat2xyz l l)) (plain lat)) with (map_da snd (zip_da vii_lonlat2xyz (plain lon) (plain lat))); [reflexivity|].
    unfold map_da, zip_da. cbn [dims nrows ncols at_]. rewrite S1, S2. f_equal. rewrite D, <- E1, <- E2. now destruct (dims (plain lon)).
  - destruct ((fst (dims (plain lon)) =? d1) && (snd (dims (plain lon)) =? d0)) eqn:E'; cbn [bind andb]; [|reflexivity].
    apply andb_true_iff in E' as [E1 E2]. apply Nat.eqb_eq in E1, E2. cbn [transpose_da nrows ncols].
    rewrite (align_agreeing lat lon d0 _ (ncols (plain lon)) (A d0)) by (intros l H; first [apply (L2 d0 l H); now rewrite D|apply (L1 d0 l H); now rewrite E2]).
    rewrite (align_agreeing lat lon d1 _ (nrows (plain lon)) (A d1)) by (intros l H; first [apply (L2 d1 l H); now rewrite D|apply (L1 d1 l H); now rewrite E1]).
    rewrite (Nat.eqb_sym (nrows (plain lon))), (Nat.eqb_sym (ncols (plain lon))), (andb_comm (ncols (plain lat) =? _)).
    destruct (nrows (plain lat) =? ncols (plain lon)) eqn:Q1; cbn [bind andb]; [|reflexivity]. destruct (ncols (plain lat) =? nrows (plain lon)) eqn:Q2; cbn [bind andb fst snd]; [|reflexivity].
    apply Nat.eqb_eq in Q1, Q2. rewrite !take_all by (cbn; congruence).
    replace (transpose_da (plain lon)) with {| dims := (d0, d1); nrows := nrows (plain lat); ncols := ncols (plain lat); at_ := fun i j => at_ (plain lon) j i |}
      by (unfold transpose_da; rewrite E1, E2, Q1, Q2; reflexivity).
    replace (map_da (fun l : T => snd (vii_lonlat2xyz l l)) (plain lat)) with
      (map_da snd (zip_da vii_lonlat2xyz {| dims := (d0, d1); nrows := nrows (plain lat); ncols := ncols (plain lat); at_ := fun i j => at_ (plain lon) j i |} (plain lat))); [reflexivity|].
    unfold map_da, zip_da. cbn [dims nrows ncols at_]. now rewrite D.
Qed.
Print Assumptions C138_agreeing_partial.

(** ** Longitudes and latitudes interpolated themselves: labels play no role *)
Section Reals.
#[local] Existing Instance RN.
Local Open Scope R_scope.
Theorem C138_geodetic_partial : forall nan (lon lat : xarray (option R)) vlon vlat s f thr zt,
  finite_da (plain lon) vlon -> finite_da (plain lat) vlat -> safe_lonlat (plain lon) vlon vlat thr ->
  geo_interpolation nan lon lat s f (Some thr) zt = tie_points_geo_interpolation nan (plain lon) (plain lat) s f (Some thr) zt.
Proof.
  intros nan lon lat vlon vlat s f thr zt F1 F2 H. unfold geo_interpolation, tie_points_geo_interpolation.
  destruct (shape_eqb (plain lon) (plain lat)) eqn:S; [|reflexivity]. apply shape_eqb_eq in S as [S1 S2]. cbn [negb].
  destruct (Nat.eqb_spec (nrows (plain lat)) 0); [reflexivity|]. destruct (Nat.eqb_spec (ncols (plain lat)) 0); [reflexivity|]. cbn [orb].
  now rewrite (proj2 (unsafe_cart (plain lon) (plain lat) vlon vlat thr F1 F2 S1 S2 ltac:(lia) ltac:(lia)) H).
Qed.
Print Assumptions C138_geodetic_partial.

Lemma align_err ia ib na nb e : align_dim ia ib na nb = Err e -> e = ValueError.
Proof.
  unfold align_dim. destruct ia, ib; try (destruct (na =? nb)%nat; congruence). destruct (same_labels _ _); [congruence|]. destruct (_ || _); congruence.
Qed.
(** ** Cartesian coordinates: different labels *)
(** a label of the latitudes that the longitudes do not have *)
Theorem C138_missing_label_partial : forall nan (lon lat : xarray (option R)) vlon vlat s f thr zt d la lb v, (1 <= s)%nat -> (1 <= f)%nat ->
  finite_da (plain lon) vlon -> finite_da (plain lat) vlat -> ~ safe_lonlat (plain lon) vlon vlat thr ->
  labelled lat -> dims (plain lon) = dims (plain lat) -> d = fst (dims (plain lat)) \/ d = snd (dims (plain lat)) ->
  index lat d = Some la -> index lon d = Some lb -> In v la -> ~ In v lb ->
  geo_interpolation nan lon lat s f (Some thr) zt = Err ValueError.
Proof.
  intros nan lon lat vlon vlat s f thr zt d la lb v Hs Hf F1 F2 HU L D Hd Ia Ib V1 V2. unfold geo_interpolation.
  destruct (shape_eqb (plain lon) (plain lat)) eqn:S; [|reflexivity]. apply shape_eqb_eq in S as [S1 S2]. cbn [negb].
  destruct (Nat.eqb_spec (nrows (plain lat)) 0) as [|N1]; [reflexivity|]. destruct (Nat.eqb_spec (ncols (plain lat)) 0) as [|N2]; [reflexivity|]. cbn [orb].
  destruct (to_cart (plain lon) (plain lat) (Some thr)) eqn:TC; [|exfalso; apply HU, (unsafe_cart (plain lon) (plain lat) vlon vlat thr F1 F2 S1 S2 ltac:(lia) ltac:(lia)), TC].
  unfold align_operands. destruct (dims (plain lat)) as [d0 d1] eqn:DL. unfold dims_eqb. rewrite DL, D. cbn [fst snd]. rewrite !Nat.eqb_refl. cbn [andb bind].
  assert (SH : forall na nb, align_dim (Some la) (Some lb) na nb = Err ValueError \/ exists r, align_dim (Some la) (Some lb) na nb = Ok r /\ (length (fst r) < length la)%nat /\ length (snd r) = length (fst r)).
  { intros na nb. unfold align_dim. destruct (same_labels la lb) eqn:E; [apply same_labels_eq in E; subst; contradiction|]. destruct (_ || _); [now left|right].
    eexists. split; [reflexivity|]. cbn [fst snd]. rewrite !map_length. split; [|reflexivity]. clear - V1 V2.
    assert (G : forall l, (length (filter (has_label lb) l) <= length l)%nat /\ (In v l -> (length (filter (has_label lb) l) < length l)%nat)).
    { induction l as [|x l [I1 I2]]; cbn; [split; [lia|intros []]|]. split; [destruct (has_label lb x); cbn; lia|].
      intros [->|H]; [|specialize (I2 H); destruct (has_label lb x); cbn; lia]. destruct (has_label lb v) eqn:Q; [apply has_label_in in Q; contradiction|lia]. }
    now apply G. }
  assert (BAD : forall r c : list nat * list nat, length (snd r) <> nrows (plain lat) \/ length (snd c) <> ncols (plain lat) ->
     forall y, tie_points_interpolation nan [map_da (fun p => fst (fst p)) (zip_da vii_lonlat2xyz (take (snd r) (snd c) (plain lon)) (take (fst r) (fst c) (plain lat))); y;
       map_da (fun l => snd (vii_lonlat2xyz l l)) (plain lat)] s f = Err ValueError).
  { intros r c H y. eapply C38_shapes; [exact Hs|exact Hf|right; left; reflexivity|]. left. cbn. intros E. injection E as E1 E2. destruct H; congruence. }
  destruct (align_dim (index lat d0) (index lon d0) (nrows (plain lat)) (nrows (plain lon))) as [r|er] eqn:R; [|cbn [bind]; now rewrite (align_err _ _ _ _ _ R)]. cbn [bind].
  destruct (align_dim (index lat d1) (index lon d1) (ncols (plain lat)) (ncols (plain lon))) as [c|ec] eqn:C; [|cbn [bind]; now rewrite (align_err _ _ _ _ _ C)]. cbn [bind fst snd].
  rewrite BAD; [reflexivity|]. cbn [fst snd] in Hd. destruct Hd as [->| ->]; rewrite Ia, Ib in *.
  - left. destruct (SH (nrows (plain lat)) (nrows (plain lon))) as [E|(r' & E & G1 & G2)]; rewrite E in R; [discriminate|]. injection R as <-. rewrite G2.
    pose proof (proj1 (L _ _ Ia)) as G. rewrite DL in G. specialize (G eq_refl). lia.
  - right. destruct (SH (ncols (plain lat)) (ncols (plain lon))) as [E|(r' & E & G1 & G2)]; rewrite E in C; [discriminate|]. injection C as <-. rewrite G2.
    pose proof (proj2 (L _ _ Ia)) as G. rewrite DL in G. specialize (G eq_refl). lia.
Qed.
Print Assumptions C138_missing_label_partial.
(** labels that are not the same, one of them repeated *)
Theorem C138_repeated_label_partial : forall nan (lon lat : xarray (option R)) vlon vlat s f thr zt d la lb,
  finite_da (plain lon) vlon -> finite_da (plain lat) vlat -> ~ safe_lonlat (plain lon) vlon vlat thr ->
  dims (plain lon) = dims (plain lat) -> d = fst (dims (plain lat)) \/ d = snd (dims (plain lat)) ->
  index lat d = Some la -> index lon d = Some lb -> la <> lb -> ~ (NoDup la /\ NoDup lb) ->
  geo_interpolation nan lon lat s f (Some thr) zt = Err ValueError.
Proof.
  intros nan lon lat vlon vlat s f thr zt d la lb F1 F2 HU D Hd Ia Ib V1 V2. unfold geo_interpolation.
  destruct (shape_eqb (plain lon) (plain lat)) eqn:S; [|reflexivity]. apply shape_eqb_eq in S as [S1 S2]. cbn [negb].
  destruct (Nat.eqb_spec (nrows (plain lat)) 0) as [|N1]; [reflexivity|]. destruct (Nat.eqb_spec (ncols (plain lat)) 0) as [|N2]; [reflexivity|]. cbn [orb].
  destruct (to_cart (plain lon) (plain lat) (Some thr)) eqn:TC; [|exfalso; apply HU, (unsafe_cart (plain lon) (plain lat) vlon vlat thr F1 F2 S1 S2 ltac:(lia) ltac:(lia)), TC].
  unfold align_operands. destruct (dims (plain lat)) as [d0 d1] eqn:DL. unfold dims_eqb. rewrite DL, D. cbn [fst snd]. rewrite !Nat.eqb_refl. cbn [andb bind].
  assert (SH : forall na nb, align_dim (Some la) (Some lb) na nb = Err ValueError).
  { intros na nb. unfold align_dim. destruct (same_labels la lb) eqn:E; [apply same_labels_eq in E; contradiction|].
    destruct (has_duplicates la) eqn:Q1; [reflexivity|]. destruct (has_duplicates lb) eqn:Q2; [reflexivity|]. apply duplicates_not in Q1, Q2. tauto. }
  destruct (align_dim (index lat d0) (index lon d0) (nrows (plain lat)) (nrows (plain lon))) as [r|er] eqn:R; [|cbn [bind]; now rewrite (align_err _ _ _ _ _ R)]. cbn [bind].
  destruct Hd as [->| ->]; cbn [fst snd] in Ia, Ib; rewrite Ia, Ib in *; rewrite SH in *; [discriminate|reflexivity].
Qed.
Print Assumptions C138_repeated_label_partial.

(** ** Cartesian coordinates: the same labels in another order *)
(** position [i] of the latitudes and position [k] of the longitudes have the same label, or count as the same *)
Definition matching (lat lon : xarray (option R)) (d i k : nat) : Prop :=
  match index lat d, index lon d with
  | Some la, Some lb => nth_error la i = nth_error lb k /\ nth_error la i <> None
  | _, _ => i = k
  end.
(** the labels of the longitudes are those of the latitudes in some order *)
Definition reordered (lat lon : xarray (option R)) (d : nat) : Prop :=
  match index lat d, index lon d with
  | Some la, Some lb => NoDup la /\ NoDup lb /\ forall v, In v la <-> In v lb
  | _, _ => True
  end.
Lemma align_reordered lat lon d n : reordered lat lon d -> (forall l, index lat d = Some l -> length l = n) -> (forall l, index lon d = Some l -> length l = n) ->
  exists r, align_dim (index lat d) (index lon d) n n = Ok (seq 0 n, r) /\ length r = n /\ (forall i x, (i < n)%nat -> (nth i r x < n)%nat) /\
    (forall k, (k < n)%nat -> exists i, (i < n)%nat /\ nth i r i = k) /\ forall i k, (i < n)%nat -> matching lat lon d i k -> nth i r i = k.
Proof.
  intros R La Lb. unfold align_dim, matching, reordered in *.
  assert (TR : forall m, exists r, Ok (seq 0 n, seq 0 n) = Ok (seq 0 n, r) /\ length r = n /\ (forall i x, (i < n)%nat -> (nth i r x < n)%nat) /\
    (forall k, (k < n)%nat -> exists i, (i < n)%nat /\ nth i r i = k) /\ forall i k : nat, (i < n)%nat -> (m i k -> i = k) -> m i k -> nth i r i = k).
  { intros m. exists (seq 0 n). split; [reflexivity|]. split; [apply seq_length|]. split; [intros i x Hi; rewrite seq_nth by exact Hi; lia|].
    split; [intros k Hk; exists k; split; [exact Hk|now rewrite seq_nth]|]. intros i k Hi E M. rewrite seq_nth by exact Hi. cbn. auto. }
  destruct (index lat d) as [la|]; [|rewrite Nat.eqb_refl; destruct (TR (fun i k => i = k)) as (r & E & A & B & C & M); exists r; repeat split; auto].
  destruct (index lon d) as [lb|]; [|rewrite Nat.eqb_refl; destruct (TR (fun i k => i = k)) as (r & E & A & B & C & M); exists r; repeat split; auto].
  destruct R as (Na & Nb & I). specialize (La la eq_refl). specialize (Lb lb eq_refl).
  assert (NE : forall i k, (i < n)%nat -> nth_error la i = nth_error lb k -> nth_error la i <> None -> (k < n)%nat /\ nth i la 0%Z = nth k lb 0%Z).
  { intros i k Hi E Q. assert (Hk : (k < length lb)%nat) by (apply nth_error_Some; congruence). split; [lia|].
    rewrite (nth_error_nth' la 0%Z), (nth_error_nth' lb 0%Z) in E by lia. congruence. }
  destruct (same_labels la lb) eqn:E.
  - apply same_labels_eq in E. subst lb. destruct (TR (fun i k => nth_error la i = nth_error la k /\ nth_error la i <> None)) as (r & E & A & B & C & M). exists r. repeat split; auto.
    intros i k Hi Q. apply M; auto. intros [Q1 Q2]. destruct (NE i k Hi Q1 Q2) as [Hk EQ]. apply (proj1 (NoDup_nth la 0%Z) Na); lia || exact EQ.
  - rewrite (proj2 (duplicates_not la) Na), (proj2 (duplicates_not lb) Nb). cbn [orb].
    assert (FL : filter (has_label lb) la = la).
    { assert (G : forall l, incl l la -> filter (has_label lb) l = l).
      { induction l as [|x l IH]; [reflexivity|]. intros H. cbn. rewrite (proj2 (has_label_in lb x)); [|apply I, H; now left]. f_equal. apply IH. intros y Hy. apply H. now right. }
      apply G, incl_refl. }
    rewrite FL. cbn zeta.
    assert (P1 : map (position la) la = seq 0 n).
    { apply (nth_ext _ _ 0%nat 0%nat); rewrite map_length; [now rewrite seq_length|]. intros i Hi. rewrite (nth_indep _ 0%nat (position la 0%Z)) by (now rewrite map_length).
      rewrite (map_nth (position la)), position_nth, seq_nth by (assumption || lia). reflexivity. }
    assert (NM : forall i x, (i < n)%nat -> nth i (map (position lb) la) x = position lb (nth i la 0%Z)).
    { intros i x Hi. rewrite (nth_indep _ x (position lb 0%Z)) by (rewrite map_length; lia). apply (map_nth (position lb)). }
    exists (map (position lb) la). rewrite P1. split; [reflexivity|]. split; [now rewrite map_length|]. split; [|split].
    + intros i x Hi. rewrite NM by exact Hi. rewrite <- Lb. apply (position_in lb _ 0%Z), I, nth_In. lia.
    + intros k Hk. destruct (position_in la (nth k lb 0%Z) 0%Z) as [Q1 Q2]; [apply I, nth_In; lia|]. exists (position la (nth k lb 0%Z)). split; [lia|]. rewrite NM by lia. rewrite Q2. apply position_nth; [exact Nb|lia].
    + intros i k Hi [Q1 Q2]. destruct (NE i k Hi Q1 Q2) as [Hk EQ]. rewrite NM, EQ by exact Hi. apply position_nth; [exact Nb|lia].
Qed.
(** ... then every latitude is paired with the longitude of the same label *)
Theorem C138_by_label_partial : forall nan (lon lat : xarray (option R)) vlon vlat s f thr zt,
  finite_da (plain lon) vlon -> finite_da (plain lat) vlat -> ~ safe_lonlat (plain lon) vlon vlat thr ->
  labelled lat -> labelled lon -> dims (plain lon) = dims (plain lat) -> reordered lat lon (fst (dims (plain lat))) -> reordered lat lon (snd (dims (plain lat))) ->
  nrows (plain lon) = nrows (plain lat) -> ncols (plain lon) = ncols (plain lat) ->
  exists lon', geo_interpolation nan lon lat s f (Some thr) zt = tie_points_geo_interpolation nan lon' (plain lat) s f (Some thr) zt /\
    dims lon' = dims (plain lat) /\ nrows lon' = nrows (plain lat) /\ ncols lon' = ncols (plain lat) /\
    forall i j k l, (i < nrows lon')%nat -> (j < ncols lon')%nat -> matching lat lon (fst (dims (plain lat))) i k -> matching lat lon (snd (dims (plain lat))) j l ->
      at_ lon' i j = at_ (plain lon) k l.
Proof.
  intros nan lon lat vlon vlat s f thr zt F1 F2 HU La Lb D R0 R1 S1 S2.
  set (d0 := fst (dims (plain lat))) in *. set (d1 := snd (dims (plain lat))) in *. assert (DL : dims (plain lat) = (d0, d1)) by (unfold d0, d1; now destruct (dims (plain lat))).
  destruct (align_reordered lat lon d0 (nrows (plain lat)) R0) as (r & Er & Ar & Br & Cr & Mr); [intros l H; now apply (La d0 l H)|intros l H; rewrite <- S1; apply (Lb d0 l H); unfold d0; now rewrite D|].
  destruct (align_reordered lat lon d1 (ncols (plain lat)) R1) as (c & Ec & Ac & Bc & Cc & Mc); [intros l H; now apply (La d1 l H)|intros l H; rewrite <- S2; apply (Lb d1 l H); unfold d1; now rewrite D|].
  exists (take r c (plain lon)). split; [|split; [exact D|split; [exact Ar|split; [exact Ac|]]]].
  2: { intros i j k l Hi Hj Mi Mj. cbn [take nrows ncols at_] in *. rewrite (Mr i k), (Mc j l) by (assumption || lia). reflexivity. }
  assert (SV : ~ safe_lonlat (take r c (plain lon)) (fun i j => vlon (nth i r i) (nth j c j)) (fun i j => vlat i j) thr).
  { intros [A B]. apply HU. cbn [take nrows ncols] in A, B. split.
    - intros i k Hi Hk. apply A; lia.
    - intros i k i' k' Hi Hk Hi' Hk'. destruct (Cr i) as (a & Ha & <-); [lia|]. destruct (Cr i') as (a' & Ha' & <-); [lia|].
      destruct (Cc k) as (b & Hb & <-); [lia|]. destruct (Cc k') as (b' & Hb' & <-); [lia|]. apply (B a b a' b'); lia. }
  assert (F3 : finite_da (take r c (plain lon)) (fun i j => vlon (nth i r i) (nth j c j))).
  { intros i j Hi Hj. cbn [take nrows ncols at_] in *. apply F1; [rewrite S1; apply Br; lia|rewrite S2; apply Bc; lia]. }
  unfold geo_interpolation, tie_points_geo_interpolation.
  rewrite (proj2 (shape_eqb_eq (plain lon) (plain lat))), (proj2 (shape_eqb_eq (take r c (plain lon)) (plain lat))) by (cbn; auto). cbn [negb].
  destruct (Nat.eqb_spec (nrows (plain lat)) 0) as [|N1]; [reflexivity|]. destruct (Nat.eqb_spec (ncols (plain lat)) 0) as [|N2]; [reflexivity|]. cbn [orb].
  destruct (to_cart (plain lon) (plain lat) (Some thr)) eqn:TC; [|exfalso; apply HU, (unsafe_cart (plain lon) (plain lat) vlon vlat thr F1 F2 S1 S2 ltac:(lia) ltac:(lia)), TC].
  destruct (to_cart (take r c (plain lon)) (plain lat) (Some thr)) eqn:TC'; [|exfalso; apply SV, (unsafe_cart (take r c (plain lon)) (plain lat) _ vlat thr F3 F2 Ar Ac); [cbn; lia|cbn; lia|exact TC']].
  unfold align_longitude. rewrite (proj2 (dims_eqb_eq (take r c (plain lon)) (plain lat))) by exact D. cbn [bind].
  unfold align_operands. rewrite (proj2 (dims_eqb_eq (plain lon) (plain lat)) D). cbn [bind]. rewrite DL, S1, S2, Er. cbn [bind]. rewrite Ec. cbn [bind fst snd].
  rewrite take_all by reflexivity.
  replace (map_da (fun l => snd (vii_lonlat2xyz l l)) (plain lat)) with (map_da snd (zip_da vii_lonlat2xyz (take r c (plain lon)) (plain lat))); [reflexivity|].
  unfold map_da, zip_da. cbn [take dims nrows ncols at_]. rewrite Ar, Ac, D. reflexivity.
Qed.
Print Assumptions C138_by_label_partial.

(** So the coordinates matter: one scan of two rows and three columns with columns numbered 0, 1, 2 for the longitudes and 1, 2, 3 for the latitudes, at 70 degrees north. *)
Definition numbered (from : Z) (d : nat) : option (list Z) := if (d =? 1)%nat then Some [from; (from + 1)%Z; (from + 2)%Z] else None.
Definition c138_lon : xarray (option R) := {| plain := {| dims := (0, 1)%nat; nrows := 2; ncols := 3; at_ := fun i k => Some (INR k) |}; index := numbered 0 |}.
Definition c138_lat (v : R) (from : Z) : xarray (option R) := {| plain := {| dims := (0, 1)%nat; nrows := 2; ncols := 3; at_ := fun i k => Some v |}; index := numbered from |}.
Lemma c138_finite v from : finite_da (plain c138_lon) (fun i k => INR k) /\ finite_da (plain (c138_lat v from)) (fun i k => v).
Proof. split; intros i j _ _; reflexivity. Qed.
Lemma c138_unsafe : ~ safe_lonlat (plain c138_lon) (fun i k => INR k) (fun i k => 70) 60.
Proof. intros [A _]. specialize (A 0%nat 0%nat ltac:(cbn; lia) ltac:(cbn; lia)). rewrite Rabs_pos_eq in A; lra. Qed.
Lemma c138_labelled from v : labelled (c138_lat v from) /\ labelled c138_lon.
Proof.
  split; intros d l; cbn [index c138_lat c138_lon plain dims fst snd nrows ncols]; unfold numbered; destruct d as [|[|d]]; cbn [Nat.eqb]; try discriminate;
    intros E; injection E as <-; (split; [lia|reflexivity]).
Qed.
Theorem C138_refuted : exists nan (lon lat : xarray (option R)) s f thr zt out, labelled lon /\ labelled lat /\
  tie_points_geo_interpolation nan (plain lon) (plain lat) s f thr zt = Ok out /\ geo_interpolation nan lon lat s f thr zt = Err ValueError.
Proof.
  destruct (c138_finite 70 1) as [F1 F2].
  assert (A : args_ok [plain c138_lon; plain (c138_lat 70 1)] 2 8 1).
  { exists (plain c138_lon), [plain (c138_lat 70 1)]. repeat split; cbn; try lia. repeat constructor. }
  destruct (C39_cartesian_when_unsafe None (plain c138_lon) (plain (c138_lat 70 1)) (fun i k => INR k) (fun i k => 70) 2 8 1 60 (Some (8 / 10)) F1 F2 A c138_unsafe)
    as (_ & _ & _ & _ & _ & _ & olon & olat & _ & _ & _ & _ & _ & _ & _ & _ & _ & _ & E & _).
  exists None, c138_lon, (c138_lat 70 1), 2%nat, 8%nat, (Some 60), (Some (8 / 10)), (olon, olat). split; [apply (c138_labelled 1 70)|]. split; [apply c138_labelled|]. split; [exact E|].
  apply (C138_missing_label_partial None c138_lon (c138_lat 70 1) (fun i k => INR k) (fun i k => 70) 2 8 60 (Some (8 / 10)) 1 [1; 2; 3]%Z [0; 1; 2]%Z 3%Z); auto; try lia.
  - exact c138_unsafe.
  - apply c138_labelled.
  - cbn. lia.
  - cbn. lia.
Qed.
Print Assumptions C138_refuted.
(** equal labels, or the same tie points at 10 degrees north: as without labels; columns numbered backwards: the longitudes are turned around *)
Example C138_case : (forall d, agreeing (c138_lat 70 0) c138_lon d) /\ safe_lonlat (plain c138_lon) (fun i k => INR k) (fun i k => 10) 60 /\
  let back := {| plain := plain (c138_lat 70 0); index := fun d => if (d =? 1)%nat then Some [2; 1; 0]%Z else None |} in
  exists lon', geo_interpolation None c138_lon back 2 8 (Some 60) (Some (8 / 10)) = tie_points_geo_interpolation None lon' (plain back) 2 8 (Some 60) (Some (8 / 10)) /\
    at_ lon' 0 0 = Some 2 /\ at_ lon' 1 2 = Some 0.
Proof.
  split; [intros d; left; reflexivity|]. split.
  - split; [intros; rewrite Rabs_pos_eq; lra|]. intros i k i' k' _ Hk _ _. cbn in Hk. assert (INR k <= INR 3) by (apply le_INR; lia). pose proof (pos_INR k'). cbn [INR] in *. lra.
  - intros back. destruct (c138_finite 70 0) as [F1 F2].
    destruct (C138_by_label_partial None c138_lon back (fun i k => INR k) (fun i k => 70) 2 8 60 (Some (8 / 10)) F1 F2 c138_unsafe) as (lon' & E & D & N1 & N2 & V); auto.
    + intros d l. cbn [back index plain dims fst snd nrows ncols c138_lat]. destruct d as [|[|d]]; cbn [Nat.eqb]; try discriminate; intros E; injection E as <-; (split; [lia|reflexivity]).
    + apply (c138_labelled 0 70).
    + exact I.
    + cbn. repeat split; try (repeat constructor; cbn; lia); intros; cbn in *; intuition.
    + exists lon'. split; [exact E|]. rewrite N1, N2 in V. split.
      * rewrite (V 0 0 0 2)%nat; cbn; try lia; try reflexivity; split; [reflexivity|discriminate].
      * rewrite (V 1 2 1 0)%nat; cbn; try lia; try reflexivity. split; [reflexivity|discriminate].
Qed.
End Reals.
