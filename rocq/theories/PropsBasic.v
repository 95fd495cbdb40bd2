(** C59, C60, C68: BasicSatelliteInterpolator. *)
From Coq Require Import ZArith List Bool Lia Reals Lra QArith.
From Verif Require Import Base Num Basic.
Import ListNotations.
Open Scope Z_scope.

(** ** Specification *)
(** element number q of a list of indices *)
Definition nthz (l : list Z) (q : Z) : Z := nth (Z.to_nat q) l 0.
Definition lenz (l : list Z) : Z := Z.of_nat (length l).
(** increasing indices from 0 on *)
Definition indices (l : list Z) : Prop := 1 <= lenz l /\ nthz l 0 = 0 /\ forall p q, 0 <= p < q -> q < lenz l -> nthz l p < nthz l q.
Definition last_index (l : list Z) : Z := nthz l (lenz l - 1).
(** tie values without gaps, one for each pair of a row and a column index *)
Definition ties {T} (cols rows : list Z) (data : frame T) (v : Z -> Z -> T) : Prop :=
  f_rows data = lenz rows /\ f_cols data = lenz cols /\ forall p q, 0 <= p < lenz rows -> 0 <= q < lenz cols -> f_at data p q = Some (v p q).

(** ** Lists of indices *)
Lemma nthz_cons x l q : 0 < q -> nthz (x :: l) q = nthz l (q - 1).
Proof. intros H. unfold nthz. replace (Z.to_nat q) with (S (Z.to_nat (q - 1))) by lia. reflexivity. Qed.
Lemma position_some l : forall i k q, position l i k = Some q -> k <= q < k + lenz l /\ nthz l (q - k) = i.
Proof.
  induction l as [|x l IH]; intros i k q H; [discriminate|]. cbn [position] in H. unfold lenz in *. cbn [length]. destruct (Z.eqb_spec x i) as [<-|_].
  - injection H as <-. split; [lia|]. rewrite Z.sub_diag. reflexivity.
  - destruct (IH _ _ _ H) as [A B]. split; [lia|]. rewrite nthz_cons by lia. rewrite <- B. f_equal. lia.
Qed.
Lemma position_none l : forall i k, position l i k = None -> forall q, 0 <= q < lenz l -> nthz l q <> i.
Proof.
  induction l as [|x l IH]; intros i k H q Hq; [unfold lenz in Hq; cbn in Hq; lia|]. cbn [position] in H. destruct (Z.eqb_spec x i) as [_|D]; [discriminate|].
  destruct (Z.eq_dec q 0) as [-> |]; [exact D|]. rewrite nthz_cons by lia. apply (IH _ _ H). unfold lenz in *. cbn [length] in Hq. lia.
Qed.
Lemma indices_inj l p q : indices l -> 0 <= p < lenz l -> 0 <= q < lenz l -> nthz l p = nthz l q -> p = q.
Proof.
  intros (_ & _ & H) Hp Hq E. destruct (Z.lt_trichotomy p q) as [L|[L|L]]; [|exact L|].
  - pose proof (H p q ltac:(lia) ltac:(lia)). lia.
  - pose proof (H q p ltac:(lia) ltac:(lia)). lia.
Qed.
Lemma indices_mono l p q : indices l -> 0 <= p <= q -> q < lenz l -> nthz l p <= nthz l q.
Proof. intros (_ & _ & H) Hp Hq. destruct (Z.eq_dec p q) as [-> |]; [lia|]. specialize (H p q ltac:(lia) Hq). lia. Qed.
Lemma position_at l q : indices l -> 0 <= q < lenz l -> position l (nthz l q) 0 = Some q.
Proof.
  intros H Hq. destruct (position l (nthz l q) 0) as [q'|] eqn:E.
  - apply position_some in E. destruct E as [A B]. rewrite Z.sub_0_r in B. f_equal. apply (indices_inj l); auto; lia.
  - exfalso. exact (position_none _ _ _ E q Hq eq_refl).
Qed.
Lemma position_between l p i : indices l -> 0 <= p -> p + 1 < lenz l -> nthz l p < i < nthz l (p + 1) -> position l i 0 = None.
Proof.
  intros H Hp Hl Hi. destruct (position l i 0) as [q|] eqn:E; [|reflexivity]. apply position_some in E. destruct E as [A B]. rewrite Z.sub_0_r in B.
  destruct (Z_le_gt_dec q p) as [L|L].
  - pose proof (indices_mono l q p H ltac:(lia) ltac:(lia)). lia.
  - pose proof (indices_mono l (p + 1) q H ltac:(lia) ltac:(lia)). lia.
Qed.
Lemma distinct_ok l : (forall p q, 0 <= p < q -> q < lenz l -> nthz l p < nthz l q) -> distinct l = true.
Proof.
  induction l as [|x l IH]; intros H; [reflexivity|]. cbn [distinct]. rewrite IH.
  - rewrite andb_true_r. apply negb_true_iff. destruct (existsb (Z.eqb x) l) eqn:E; [|reflexivity]. exfalso.
    apply existsb_exists in E. destruct E as (y & I & Ey). apply Z.eqb_eq in Ey. subst y. apply (In_nth _ _ 0) in I. destruct I as (k & Hk & Ek).
    pose proof (H 0 (Z.of_nat k + 1) ltac:(lia) ltac:(unfold lenz; cbn [length]; lia)) as L. rewrite (nthz_cons x l (Z.of_nat k + 1)) in L by lia.
    unfold nthz in L. replace (Z.to_nat (Z.of_nat k + 1 - 1)) with k in L by lia. change (nth (Z.to_nat 0) (x :: l) 0) with x in L. rewrite Ek in L. lia.
  - intros p q Hp Hq. specialize (H (p + 1) (q + 1) ltac:(lia) ltac:(unfold lenz in *; cbn [length]; lia)). rewrite !nthz_cons in H by lia.
    now replace (p + 1 - 1) with p in H by lia; replace (q + 1 - 1) with q in H by lia.
Qed.
Lemma last_rev l : 1 <= lenz l -> exists t, rev l = last_index l :: t.
Proof.
  intros H. destruct (rev l) as [|x t] eqn:E.
  - apply (f_equal (@length Z)) in E. rewrite rev_length in E. unfold lenz in H. cbn in E. lia.
  - exists t. f_equal. apply (f_equal (@rev Z)) in E. rewrite rev_involutive in E. cbn [rev] in E.
    unfold last_index, nthz, lenz. rewrite E, app_length, app_nth2 by (cbn; lia). cbn [length].
    replace (Z.to_nat (Z.of_nat (length (rev t) + 1) - 1) - length (rev t))%nat with 0%nat by lia. reflexivity.
Qed.
Lemma segment l i : indices l -> 0 <= i <= last_index l ->
  exists p, 0 <= p < lenz l /\ (nthz l p = i \/ p + 1 < lenz l /\ nthz l p < i < nthz l (p + 1)).
Proof.
  intros H Hi. destruct H as (H1 & H2 & H3).
  assert (G : forall k : nat, Z.of_nat k < lenz l -> nthz l (Z.of_nat k) < i \/ exists p, 0 <= p < lenz l /\ (nthz l p = i \/ p + 1 < lenz l /\ nthz l p < i < nthz l (p + 1))).
  { induction k as [|k IH]; intros Hk.
    - change (Z.of_nat 0) with 0. destruct (Z.eq_dec (nthz l 0) i) as [E|E]; [right; exists 0; split; [lia|now left]|left; lia].
    - destruct (IH ltac:(lia)) as [L|R]; [|right; exact R]. destruct (Z_lt_ge_dec (nthz l (Z.of_nat (S k))) i) as [L'|G']; [left; exact L'|]. right.
      destruct (Z.eq_dec (nthz l (Z.of_nat (S k))) i) as [E|E]; [exists (Z.of_nat (S k)); split; [lia|now left]|].
      exists (Z.of_nat k). split; [lia|]. right. replace (Z.of_nat k + 1) with (Z.of_nat (S k)) by lia. split; [lia|]. lia. }
  destruct (G (Z.to_nat (lenz l - 1)) ltac:(lia)) as [L|R]; [|exact R]. rewrite Z2Nat.id in L by lia. unfold last_index in Hi. lia.
Qed.

(** ** One axis *)
Section Axis.
Context {T : Type} {N : NumOps T}.
Lemma find_zrange_none (f : Z -> bool) a n : (forall j, a <= j < a + Z.of_nat n -> f j = false) -> find f (zrange a n) = None.
Proof. revert a. induction n as [|n IH]; intros a H; [reflexivity|]. cbn [zrange find]. rewrite H by lia. apply IH. intros j Hj. apply H. lia. Qed.
Lemma find_app {A} (f : A -> bool) l1 l2 : find f (l1 ++ l2) = match find f l1 with Some x => Some x | None => find f l2 end.
Proof. induction l1 as [|x l1 IH]; [reflexivity|]. cbn [app find]. destruct (f x); [reflexivity|exact IH]. Qed.
Lemma find_rev_none {A} (f : A -> bool) l : (forall x, In x l -> f x = false) -> find f (rev l) = None.
Proof.
  intros H. destruct (find f (rev l)) as [x|] eqn:E; [|reflexivity]. apply find_some in E. destruct E as [I E]. apply in_rev in I. rewrite H in E by exact I. discriminate.
Qed.
Lemma before_is (v : Z -> option T) a i : 0 <= a < i -> is_some (v a) = true -> (forall j, a < j < i -> v j = None) -> value_before v i = Some a.
Proof.
  intros Ha Hv Hn. unfold value_before, range0. replace (Z.to_nat i) with (Z.to_nat a + (1 + Z.to_nat (i - a - 1)))%nat by lia.
  rewrite zrange_app, zrange_app, !rev_app_distr, !find_app. rewrite find_rev_none.
  - cbn [zrange rev app find]. replace (0 + Z.of_nat (Z.to_nat a)) with a by lia. rewrite Hv. reflexivity.
  - intros j I. apply In_zrange in I. rewrite Hn by lia. reflexivity.
Qed.
Lemma after_is n (v : Z -> option T) b i : i < b < n -> is_some (v b) = true -> (forall j, i < j < b -> v j = None) -> value_after n v i = Some b.
Proof.
  intros Hb Hv Hn. unfold value_after. replace (Z.to_nat (n - 1 - i)) with (Z.to_nat (b - i - 1) + (1 + Z.to_nat (n - 1 - b)))%nat by lia.
  rewrite zrange_app, zrange_app, !find_app. rewrite find_zrange_none.
  - cbn [zrange app find]. replace (i + 1 + Z.of_nat (Z.to_nat (b - i - 1))) with b by lia. rewrite Hv. reflexivity.
  - intros j I. rewrite Hn by lia. reflexivity.
Qed.

(** values at the indices, linear between them *)
Definition axis_value (l : list Z) (u : Z -> T) (i : Z) (x : T) : Prop :=
  exists p, 0 <= p < lenz l /\ (nthz l p = i /\ x = u p \/ p + 1 < lenz l /\ nthz l p < i < nthz l (p + 1) /\ x = np_interp (nthz l p) (nthz l (p + 1)) i (u p) (u (p + 1))).
Lemma series_ok l (u : Z -> T) (t : Z -> option T) i : indices l -> (forall q, 0 <= q < lenz l -> t q = Some (u q)) -> 0 <= i <= last_index l ->
  exists x, series_interpolate (last_index l + 1) (fun i => match position l i 0 with Some q => t q | None => None end) i = Some x /\ axis_value l u i x.
Proof.
  intros Hl Ht Hi. set (v := fun i => match position l i 0 with Some q => t q | None => None end).
  assert (VA : forall q, 0 <= q < lenz l -> v (nthz l q) = Some (u q)) by (intros q Hq; unfold v; rewrite position_at by assumption; now apply Ht).
  destruct (segment l i Hl Hi) as (p & Hp & [E|(Hp1 & Hb)]).
  - exists (u p). split; [|exists p; auto]. unfold series_interpolate. rewrite <- E, VA by exact Hp. reflexivity.
  - exists (np_interp (nthz l p) (nthz l (p + 1)) i (u p) (u (p + 1))). split; [|exists p; auto].
    assert (VN : forall j, nthz l p < j < nthz l (p + 1) -> v j = None) by (intros j Hj; unfold v; rewrite (position_between l p j Hl) by lia; reflexivity).
    unfold series_interpolate. rewrite VN by exact Hb.
    assert (0 <= nthz l p) by (destruct Hl as (A & B & C); rewrite <- B; destruct (Z.eq_dec p 0) as [-> |]; [lia|specialize (C 0 p ltac:(lia) ltac:(lia)); lia]).
    assert (nthz l (p + 1) <= last_index l) by (apply (indices_mono l); [exact Hl|lia|lia]).
    rewrite (before_is v (nthz l p)) by (first [lia|rewrite VA by exact Hp; reflexivity|intros j Hj; apply VN; lia]).
    rewrite (after_is _ v (nthz l (p + 1))) by (first [lia|rewrite VA by lia; reflexivity|intros j Hj; apply VN; lia]).
    rewrite !VA by lia. reflexivity.
Qed.
Lemma last_nonneg l : indices l -> 0 <= last_index l.
Proof. intros H. pose proof (indices_mono l 0 (lenz l - 1) H) as M. destruct H as (A & B & _). unfold last_index. rewrite B in M. apply M; lia. Qed.
Lemma pandas_ok l (data : frame T) (u : Z -> Z -> T) w : indices l -> f_rows data = lenz l -> f_cols data = w ->
  (forall p j, 0 <= p < lenz l -> 0 <= j < w -> f_at data p j = Some (u p j)) ->
  exists d, pandas_interp data l = Ok d /\ f_rows d = last_index l + 1 /\ f_cols d = w /\
    forall i j, 0 <= i <= last_index l -> 0 <= j < w -> exists x, f_at d i j = Some x /\ axis_value l (fun p => u p j) i x.
Proof.
  intros Hl Hr Hc Hv. unfold pandas_interp. destruct (last_rev l (proj1 Hl)) as [t ->]. pose proof (last_nonneg l Hl). rewrite Z.max_r by lia.
  unfold reindex. fold (lenz l). rewrite Hr, Z.eqb_refl. rewrite distinct_ok by apply Hl. cbn [negb bind].
  eexists. split; [reflexivity|]. cbn [f_rows f_cols f_at]. split; [reflexivity|]. split; [exact Hc|].
  intros i j Hi Hj. apply (series_ok l (fun p => u p j) (fun q => f_at data q j) i Hl); [intros q Hq; now apply Hv|exact Hi].
Qed.

Lemma interp_ok cols rows (data : frame T) v : indices cols -> indices rows -> ties cols rows data v ->
  exists d, interp true cols rows data = Ok d /\ f_rows d = last_index rows + 1 /\ f_cols d = last_index cols + 1 /\
    forall i j, 0 <= i <= last_index rows -> 0 <= j <= last_index cols ->
      exists u x, (forall q, 0 <= q < lenz cols -> axis_value rows (fun p => v p q) i (u q)) /\ axis_value cols u j x /\ f_at d i j = Some x.
Proof.
  intros Hc Hr (T1 & T2 & T3). unfold interp, interp_rows.
  destruct (pandas_ok rows data v (lenz cols) Hr T1 T2 T3) as (d1 & E1 & R1 & C1 & V1). rewrite E1. cbn [bind]. unfold interp_cols, call_as_matrix. cbn [bind].
  set (U := fun p i => match f_at d1 i p with Some x => x | None => nz 0 end).
  destruct (pandas_ok cols (transpose d1) U (last_index rows + 1) Hc) as (d2 & E2 & R2 & C2 & V2); [exact C1|exact R1| |].
  { intros p i Hp Hi. cbn [transpose f_at]. unfold U. destruct (V1 i p ltac:(lia) Hp) as (x & -> & _). reflexivity. }
  rewrite E2. cbn [bind]. eexists. split; [reflexivity|]. cbn [transpose f_rows f_cols f_at]. split; [exact C2|]. split; [exact R2|].
  intros i j Hi Hj. destruct (V2 j i Hj ltac:(lia)) as (x & Ex & A). exists (fun p => U p i), x. split; [|split; [exact A|exact Ex]].
  intros q Hq. unfold U. destruct (V1 i q Hi Hq) as (y & -> & B). exact B.
Qed.
Lemma axis_at l u p x : indices l -> 0 <= p < lenz l -> axis_value l u (nthz l p) x -> x = u p.
Proof.
  intros Hl Hp (q & Hq & [[E ->]|(Hq1 & Hb & _)]).
  - f_equal. apply (indices_inj l); auto.
  - pose proof (position_between l q (nthz l p) Hl ltac:(lia) Hq1 Hb) as P. rewrite position_at in P by assumption. discriminate.
Qed.
End Axis.

(** C59, any arithmetic: shape of the results, no missing cells, the values at the tie points *)
Theorem C59_tie_points : forall {T} {N : NumOps T} cols rows (lat lon : frame T) vlat vlon,
  indices cols -> indices rows -> ties cols rows lat vlat -> ties cols rows lon vlon ->
  exists olat olon, basic_interpolate true cols rows lat lon = Ok (olat, olon) /\
    f_rows olat = last_index rows + 1 /\ f_cols olat = last_index cols + 1 /\ f_rows olon = last_index rows + 1 /\ f_cols olon = last_index cols + 1 /\
    (forall i j, 0 <= i <= last_index rows -> 0 <= j <= last_index cols -> f_at olat i j <> None /\ f_at olon i j <> None) /\
    forall p q, 0 <= p < lenz rows -> 0 <= q < lenz cols ->
      f_at olat (nthz rows p) (nthz cols q) = Some (vlat p q) /\ f_at olon (nthz rows p) (nthz cols q) = Some (vlon p q).
Proof.
  intros T N cols rows lat lon vlat vlon Hc Hr Tlat Tlon.
  destruct (interp_ok cols rows lat vlat Hc Hr Tlat) as (a & Ea & A1 & A2 & A3). destruct (interp_ok cols rows lon vlon Hc Hr Tlon) as (b & Eb & B1 & B2 & B3).
  exists a, b. unfold basic_interpolate. rewrite Ea, Eb. cbn [bind]. split; [reflexivity|]. do 4 (split; [assumption|]). split.
  - intros i j Hi Hj. destruct (A3 i j Hi Hj) as (? & ? & _ & _ & ->). destruct (B3 i j Hi Hj) as (? & ? & _ & _ & ->). split; discriminate.
  - intros p q Hp Hq.
    assert (G : forall l k, indices l -> 0 <= k < lenz l -> 0 <= nthz l k <= last_index l).
    { intros l k Hl Hk. split; [pose proof (indices_mono l 0 k Hl ltac:(lia) ltac:(lia)) as M; destruct Hl as (_ & B & _); lia|]. apply (indices_mono l); [exact Hl|lia|lia]. }
    assert (K : forall (d : frame T) v, (forall i j, 0 <= i <= last_index rows -> 0 <= j <= last_index cols ->
      exists u x, (forall q, 0 <= q < lenz cols -> axis_value rows (fun p => v p q) i (u q)) /\ axis_value cols u j x /\ f_at d i j = Some x) ->
      f_at d (nthz rows p) (nthz cols q) = Some (v p q)).
    { intros d v H. destruct (H (nthz rows p) (nthz cols q) (G rows p Hr Hp) (G cols q Hc Hq)) as (u & x & X1 & X2 & ->).
      rewrite (axis_at cols u q x Hc Hq X2). rewrite (axis_at rows (fun p => v p q) p (u q) Hr Hp (X1 q Hq)). reflexivity. }
    split; [exact (K a vlat A3)|exact (K b vlon B3)].
Qed.
Print Assumptions C59_tie_points.

(** C59, real numbers: bilinear between the four tie points around a cell *)
Section Linear.
#[local] Existing Instance RT.
Definition lerp (a b : Z) (i : Z) (ya yb : R) : R := (ya + (IZR i - IZR a) / (IZR b - IZR a) * (yb - ya))%R.
Lemma axis_lerp l (u : Z -> R) p i x : indices l -> 0 <= p -> p + 1 < lenz l -> nthz l p <= i <= nthz l (p + 1) -> axis_value l u i x ->
  x = lerp (nthz l p) (nthz l (p + 1)) i (u p) (u (p + 1)).
Proof.
  intros Hl Hp Hp1 Hi A. assert (L : nthz l p < nthz l (p + 1)) by (apply Hl; lia). apply IZR_lt in L.
  destruct (Z.eq_dec i (nthz l p)) as [-> |]; [rewrite (axis_at l u p x Hl ltac:(lia) A); unfold lerp; field; lra|].
  destruct (Z.eq_dec i (nthz l (p + 1))) as [-> |]; [rewrite (axis_at l u (p + 1) x Hl ltac:(lia) A); unfold lerp; field; lra|].
  destruct A as (q & Hq & [[E _]|(Hq1 & Hb & ->)]).
  - exfalso. pose proof (position_between l p i Hl Hp Hp1 ltac:(lia)) as P. rewrite <- E, position_at in P by assumption. discriminate.
  - assert (q = p).
    { destruct (Z.lt_trichotomy q p) as [C|[C|C]]; [|exact C|].
      - pose proof (indices_mono l (q + 1) p Hl ltac:(lia) ltac:(lia)). lia.
      - pose proof (indices_mono l (p + 1) q Hl ltac:(lia) ltac:(lia)). lia. }
    subst q. unfold np_interp, lerp. cbn [nadd nsub nmul ndiv nz RT]. field. lra.
Qed.
Theorem C59_bilinear : forall cols rows (lat lon : frame R) vlat vlon olat olon,
  indices cols -> indices rows -> ties cols rows lat vlat -> ties cols rows lon vlon ->
  basic_interpolate true cols rows lat lon = Ok (olat, olon) ->
  forall p q i j, 0 <= p -> p + 1 < lenz rows -> 0 <= q -> q + 1 < lenz cols ->
    nthz rows p <= i <= nthz rows (p + 1) -> nthz cols q <= j <= nthz cols (q + 1) ->
    let along_row v q := lerp (nthz rows p) (nthz rows (p + 1)) i (v p q) (v (p + 1) q) in
    let value v := lerp (nthz cols q) (nthz cols (q + 1)) j (along_row v q) (along_row v (q + 1)) in
    f_at olat i j = Some (value vlat) /\ f_at olon i j = Some (value vlon).
Proof.
  intros cols rows lat lon vlat vlon olat olon Hc Hr Tlat Tlon E p q i j Hp Hp1 Hq Hq1 Hi Hj along_row value.
  destruct (interp_ok cols rows lat vlat Hc Hr Tlat) as (a & Ea & _ & _ & A3). destruct (interp_ok cols rows lon vlon Hc Hr Tlon) as (b & Eb & _ & _ & B3).
  unfold basic_interpolate in E. rewrite Ea, Eb in E. cbn [bind] in E. injection E as <- <-.
  assert (G : forall l k x, indices l -> 0 <= k -> k + 1 < lenz l -> nthz l k <= x <= nthz l (k + 1) -> 0 <= x <= last_index l).
  { intros l k x Hl Hk Hk1 Hx. pose proof (indices_mono l 0 k Hl ltac:(lia) ltac:(lia)). pose proof (indices_mono l (k + 1) (lenz l - 1) Hl ltac:(lia) ltac:(lia)).
    destruct Hl as (_ & B & _). unfold last_index. lia. }
  assert (K : forall (d : frame R) v, (forall i j, 0 <= i <= last_index rows -> 0 <= j <= last_index cols ->
      exists u x, (forall q, 0 <= q < lenz cols -> axis_value rows (fun p => v p q) i (u q)) /\ axis_value cols u j x /\ f_at d i j = Some x) ->
      f_at d i j = Some (value v)).
  { intros d v H. destruct (H i j (G rows p i Hr Hp Hp1 Hi) (G cols q j Hc Hq Hq1 Hj)) as (u & x & X1 & X2 & ->).
    rewrite (axis_lerp cols u q j x Hc Hq Hq1 Hj X2). unfold value, along_row.
    rewrite (axis_lerp rows (fun p => v p q) p i (u q) Hr Hp Hp1 Hi (X1 q ltac:(lia))).
    rewrite (axis_lerp rows (fun p => v p (q + 1)) p i (u (q + 1)) Hr Hp Hp1 Hi (X1 (q + 1) ltac:(lia))). reflexivity. }
  split; [exact (K a vlat A3)|exact (K b vlon B3)].
Qed.
End Linear.
Print Assumptions C59_bilinear.
Example C59_case : indices [0; 2; 5] /\ indices [0; 4] /\ ties [0; 2; 5] [0; 4] {| f_rows := 2; f_cols := 3; f_at := fun i j => Some (IZR (i + j)) |} (fun i j => IZR (i + j)).
Proof.
  assert (A : forall l, 1 <= lenz l -> nthz l 0 = 0 -> (forall p q : nat, (p < q < length l)%nat -> nth p l 0 < nth q l 0) -> indices l).
  { intros l H1 H2 H3. split; [exact H1|]. split; [exact H2|]. intros p q Hp Hq. apply H3. unfold lenz in Hq. lia. }
  split; [|split]; [apply A..|split; [reflexivity|split; [reflexivity|reflexivity]]]; try reflexivity; try (unfold lenz; cbn; lia);
    intros [|[|[|p]]] [|[|[|q]]] H; cbn in *; lia.
Qed.
Example C59_run : (let* r := @basic_interpolate Q QT true [0; 2; 5] [0; 4] {| f_rows := 2; f_cols := 3; f_at := fun i j => Some (inject_Z (i * 4 + j * j * 6)) |}
    {| f_rows := 2; f_cols := 3; f_at := fun i j => Some (inject_Z (i * 4 + j * j * 6)) |} in Ok (match f_at (fst r) 1 3 with Some x => Qred x | None => 0%Q end)) = Ok 13%Q.
Proof. vm_compute. reflexivity. Qed.

(** C60: without DataFrame.as_matrix there is never a result *)
Theorem C60_no_result : forall {T} {N : NumOps T} cols rows (lat lon : frame T) r, basic_interpolate false cols rows lat lon <> Ok r.
Proof.
  intros T N cols rows lat lon r. unfold basic_interpolate, interp. destruct (interp_rows rows lat); discriminate.
Qed.
Print Assumptions C60_no_result.
Theorem C60_attribute_error : forall {T} {N : NumOps T} cols rows (lat lon : frame T) vlat,
  indices cols -> indices rows -> ties cols rows lat vlat -> basic_interpolate false cols rows lat lon = Err AttributeError.
Proof.
  intros T N cols rows lat lon vlat Hc Hr (T1 & T2 & T3). unfold basic_interpolate, interp, interp_rows.
  destruct (pandas_ok rows lat vlat (lenz cols) Hr T1 T2 T3) as (d & -> & _). reflexivity.
Qed.
Print Assumptions C60_attribute_error.
Theorem C60_refuted : exists cols rows (lat lon : frame Q) vlat vlon, indices cols /\ indices rows /\ ties cols rows lat vlat /\ ties cols rows lon vlon /\
  @basic_interpolate Q QT false cols rows lat lon = Err AttributeError.
Proof.
  exists [0; 2], [0; 3], {| f_rows := 2; f_cols := 2; f_at := fun _ _ => Some 2%Q |}, {| f_rows := 2; f_cols := 2; f_at := fun _ _ => Some 1%Q |}, (fun _ _ => 2%Q), (fun _ _ => 1%Q).
  assert (A : forall x, 0 < x -> indices [0; x]).
  { intros x Hx. split; [unfold lenz; cbn; lia|]. split; [reflexivity|]. intros p q Hp Hq. unfold lenz in Hq. cbn in Hq. assert (p = 0) as -> by lia. assert (q = 1) as -> by lia. exact Hx. }
  split; [apply A; lia|]. split; [apply A; lia|]. split; [repeat split|]. split; [repeat split|]. reflexivity.
Qed.
Print Assumptions C60_refuted.
Theorem C60_partial : forall {T} {N : NumOps T} cols rows (lat lon : frame T) vlat vlon,
  indices cols -> indices rows -> ties cols rows lat vlat -> ties cols rows lon vlon -> exists r, basic_interpolate true cols rows lat lon = Ok r.
Proof.
  intros T N cols rows lat lon vlat vlon Hc Hr H1 H2. destruct (C59_tie_points cols rows lat lon vlat vlon Hc Hr H1 H2) as (a & b & E & _). eauto.
Qed.
Print Assumptions C60_partial.

(** C68: the latitudes are returned first, whatever was passed *)
Theorem C68_order : forall {T} {N : NumOps T} m cols rows (lat lon : frame T) a b,
  basic_interpolate m cols rows lat lon = Ok (a, b) -> interp m cols rows lat = Ok a /\ interp m cols rows lon = Ok b.
Proof.
  intros T N m cols rows lat lon a b. unfold basic_interpolate. destruct (interp m cols rows lat) as [x|]; [|discriminate]. cbn [bind].
  destruct (interp m cols rows lon) as [y|]; [|discriminate]. cbn [bind]. intros E. injection E as <- <-. auto.
Qed.
Print Assumptions C68_order.
Theorem C68_refuted : exists cols rows (lat lon : frame Q) a b, @basic_interpolate Q QT true cols rows lat lon = Ok (a, b) /\
  f_at lon 0 0 = Some 1%Q /\ f_at lat 0 0 = Some 2%Q /\ f_at a 0 0 = Some 2%Q /\ f_at b 0 0 = Some 1%Q.
Proof.
  exists [0], [0], {| f_rows := 1; f_cols := 1; f_at := fun _ _ => Some 2%Q |}, {| f_rows := 1; f_cols := 1; f_at := fun _ _ => Some 1%Q |}.
  eexists _, _. split; [reflexivity|]. repeat split; reflexivity.
Qed.
Print Assumptions C68_refuted.

(** C122: tie point data with missing values, and indices that do not start at 0 *)
#[local] Existing Instance RT.
Definition ascending (l : list Z) : Prop := 1 <= lenz l /\ 0 <= nthz l 0 /\ forall p q, 0 <= p < q -> q < lenz l -> nthz l p < nthz l q.
(** the value at index i along one axis: the tie value itself; between the nearest tie values before and after it; after the last tie value
    that value; before the first one no value *)
Inductive along_axis (l : list Z) (v : Z -> option R) (i : Z) : option R -> Prop :=
| at_tie p y : 0 <= p < lenz l -> nthz l p = i -> v p = Some y -> along_axis l v i (Some y)
| between_ties p q y z : 0 <= p < q -> q < lenz l -> nthz l p < i < nthz l q -> v p = Some y -> v q = Some z -> (forall r, p < r < q -> v r = None) ->
    along_axis l v i (Some (lerp (nthz l p) (nthz l q) i y z))
| after_ties p y : 0 <= p < lenz l -> nthz l p < i -> v p = Some y -> (forall r, p < r < lenz l -> v r = None) -> along_axis l v i (Some y)
| before_ties : (forall p, 0 <= p < lenz l -> nthz l p <= i -> v p = None) -> along_axis l v i None.

Lemma ascending_inj l p q : ascending l -> 0 <= p < lenz l -> 0 <= q < lenz l -> nthz l p = nthz l q -> p = q.
Proof.
  intros (_ & _ & H) Hp Hq E. destruct (Z.lt_trichotomy p q) as [L|[L|L]]; [|exact L|].
  - pose proof (H p q ltac:(lia) ltac:(lia)). lia.
  - pose proof (H q p ltac:(lia) ltac:(lia)). lia.
Qed.
Lemma ascending_lt l p q : ascending l -> 0 <= p < lenz l -> 0 <= q < lenz l -> nthz l p < nthz l q -> p < q.
Proof. intros (_ & _ & H) Hp Hq E. destruct (Z.lt_trichotomy p q) as [L|[->|L]]; [exact L|lia|]. pose proof (H q p ltac:(lia) ltac:(lia)). lia. Qed.
Lemma ascending_position l q : ascending l -> 0 <= q < lenz l -> position l (nthz l q) 0 = Some q.
Proof.
  intros H Hq. destruct (position l (nthz l q) 0) as [q'|] eqn:E.
  - apply position_some in E. destruct E as [A B]. rewrite Z.sub_0_r in B. f_equal. apply (ascending_inj l); auto; lia.
  - exfalso. exact (position_none _ _ _ E q Hq eq_refl).
Qed.
Lemma ascending_range l q : ascending l -> 0 <= q < lenz l -> 0 <= nthz l q <= last_index l.
Proof.
  intros (A & B & H) Hq. unfold last_index. split.
  - destruct (Z.eq_dec q 0) as [-> |]; [exact B|]. specialize (H 0 q ltac:(lia) ltac:(lia)). lia.
  - destruct (Z.eq_dec q (lenz l - 1)) as [-> |]; [lia|]. specialize (H q (lenz l - 1) ltac:(lia) ltac:(lia)). lia.
Qed.
Lemma find_zrange_some (f : Z -> bool) n : forall a b, find f (zrange a n) = Some b -> a <= b < a + Z.of_nat n /\ f b = true /\ forall j, a <= j < b -> f j = false.
Proof.
  induction n as [|n IH]; intros a b H; [discriminate|]. cbn [zrange find] in H. destruct (f a) eqn:F.
  - injection H as <-. split; [lia|]. split; [exact F|]. intros j Hj. lia.
  - destruct (IH _ _ H) as (B & C & D). split; [lia|]. split; [exact C|]. intros j Hj. destruct (Z.eq_dec j a) as [-> |]; [exact F|]. apply D. lia.
Qed.
Lemma find_rev_some (f : Z -> bool) n : forall a b, find f (rev (zrange a n)) = Some b -> a <= b < a + Z.of_nat n /\ f b = true /\ forall j, b < j < a + Z.of_nat n -> f j = false.
Proof.
  induction n as [|n IH]; intros a b H; [discriminate|]. replace (S n) with (n + 1)%nat in * by lia. rewrite zrange_app, rev_app_distr in H. cbn [zrange rev app find] in H.
  destruct (f (a + Z.of_nat n)) eqn:F.
  - injection H as <-. split; [lia|]. split; [exact F|]. intros j Hj. lia.
  - destruct (IH _ _ H) as (B & C & D). split; [lia|]. split; [exact C|]. intros j Hj. destruct (Z.eq_dec j (a + Z.of_nat n)) as [-> |]; [exact F|]. apply D. lia.
Qed.
Lemma find_all_false {A} (f : A -> bool) l : find f l = None -> forall x, In x l -> f x = false.
Proof. exact (find_none f l). Qed.
Lemma is_some_false {A} (x : option A) : is_some x = false -> x = None. Proof. destruct x; [discriminate|reflexivity]. Qed.

Lemma series_axis l (t : Z -> option R) i : ascending l -> 0 <= i <= last_index l ->
  along_axis l t i (series_interpolate (last_index l + 1) (fun i => match position l i 0 with Some q => t q | None => None end) i).
Proof.
  intros Hl Hi. set (v := fun i => match position l i 0 with Some q => t q | None => None end).
  assert (VA : forall q, 0 <= q < lenz l -> v (nthz l q) = t q) by (intros q Hq; unfold v; rewrite ascending_position by assumption; reflexivity).
  assert (VS : forall j y, v j = Some y -> exists q, 0 <= q < lenz l /\ nthz l q = j /\ t q = Some y).
  { intros j y. unfold v. destruct (position l j 0) as [q|] eqn:E; [|discriminate]. intros H. apply position_some in E. rewrite Z.sub_0_r in E. exists q. split; [lia|]. split; [apply E|exact H]. }
  unfold series_interpolate. destruct (v i) as [y|] eqn:Ei.
  - destruct (VS i y Ei) as (q & Hq & E & V). exact (at_tie l t i q y Hq E V).
  - destruct (value_before v i) as [a|] eqn:Ea.
    + unfold value_before, range0 in Ea. destruct (find_rev_some _ _ _ _ Ea) as (Ra & Sa & Na). rewrite Z2Nat.id in Ra, Na by lia.
      destruct (v a) as [ya|] eqn:Va; [|discriminate Sa]. destruct (VS a ya Va) as (p & Hp & Ep & Tp). subst a.
      destruct (value_after (last_index l + 1) v i) as [b|] eqn:Eb.
      * unfold value_after in Eb. destruct (find_zrange_some _ _ _ _ Eb) as (Rb & Sb & Nb). destruct (v b) as [yb|] eqn:Vb; [|discriminate Sb]. destruct (VS b yb Vb) as (q & Hq & Eq & Tq). subst b.
        assert (Hpq : p < q) by (apply (ascending_lt l); auto; lia).
        replace (np_interp (nthz l p) (nthz l q) i ya yb) with (lerp (nthz l p) (nthz l q) i ya yb).
        -- apply between_ties; auto; [lia|lia|lia|]. intros r Hr. destruct Hl as (A & B & C). pose proof (C p r ltac:(lia) ltac:(lia)). pose proof (C r q ltac:(lia) ltac:(lia)).
           rewrite <- VA by lia. destruct (Z.lt_trichotomy (nthz l r) i) as [L|[-> |L]]; [|exact Ei|]; apply is_some_false; [apply Na|apply Nb]; lia.
        -- unfold np_interp, lerp. cbn [nadd nsub nmul ndiv nz RT]. assert (IZR (nthz l p) < IZR (nthz l q))%R by (apply IZR_lt; lia). field. lra.
      * apply (after_ties l t i p ya Hp); [lia|exact Tp|]. intros r Hr. destruct Hl as (A & B & C). pose proof (C p r ltac:(lia) ltac:(lia)). pose proof (ascending_range l r (conj A (conj B C)) ltac:(lia)).
        rewrite <- VA by lia. destruct (Z.lt_trichotomy (nthz l r) i) as [L|[-> |L]]; [|exact Ei|]; apply is_some_false; [apply Na; lia|].
        unfold value_after in Eb. apply (find_all_false _ _ Eb). apply In_zrange. lia.
    + apply before_ties. intros p Hp Hpi. pose proof (ascending_range l p Hl Hp). rewrite <- VA by exact Hp. destruct (Z.eq_dec (nthz l p) i) as [-> |]; [exact Ei|].
      apply is_some_false. unfold value_before, range0 in Ea. apply (find_all_false _ _ Ea). apply in_rev. rewrite rev_involutive. apply In_zrange. lia.
Qed.
Lemma pandas_axis l (data : frame R) : ascending l -> f_rows data = lenz l ->
  exists d, pandas_interp data l = Ok d /\ f_rows d = last_index l + 1 /\ f_cols d = f_cols data /\ forall i j, 0 <= i <= last_index l -> along_axis l (fun p => f_at data p j) i (f_at d i j).
Proof.
  intros Hl Hr. unfold pandas_interp. destruct (last_rev l (proj1 Hl)) as [t ->]. pose proof (ascending_range l 0 Hl ltac:(destruct Hl; lia)) as R0. rewrite Z.max_r by lia.
  unfold reindex. fold (lenz l). rewrite Hr, Z.eqb_refl. rewrite distinct_ok by apply Hl. cbn [negb bind].
  eexists. split; [reflexivity|]. cbn [f_rows f_cols f_at]. split; [reflexivity|]. split; [reflexivity|].
  intros i j Hi. exact (series_axis l (fun q => f_at data q j) i Hl Hi).
Qed.
Definition holes (cols rows : list Z) (data out : frame R) : Prop :=
  f_rows out = last_index rows + 1 /\ f_cols out = last_index cols + 1 /\
  forall i j, 0 <= i <= last_index rows -> 0 <= j <= last_index cols ->
    exists along_rows, (forall q, along_axis rows (fun p => f_at data p q) i (along_rows q)) /\ along_axis cols along_rows j (f_at out i j).
Lemma interp_holes cols rows (data : frame R) : ascending cols -> ascending rows -> f_rows data = lenz rows -> f_cols data = lenz cols ->
  exists d, interp true cols rows data = Ok d /\ holes cols rows data d.
Proof.
  intros Hc Hr E1 E2. unfold interp, interp_rows. destruct (pandas_axis rows data Hr E1) as (d1 & -> & R1 & C1 & V1). cbn [bind]. unfold interp_cols, call_as_matrix. cbn [bind].
  destruct (pandas_axis cols (transpose d1) Hc) as (d2 & -> & R2 & C2 & V2); [cbn [transpose f_rows]; congruence|]. cbn [bind].
  eexists. split; [reflexivity|]. cbn [transpose f_cols] in C2. unfold holes. cbn [transpose f_rows f_cols f_at]. split; [congruence|]. split; [exact R2|].
  intros i j Hi Hj. exists (fun q => f_at d1 i q). split; [intros q; apply V1; exact Hi|]. exact (V2 j i Hj).
Qed.
Theorem C122_missing : forall cols rows (lat lon : frame R), ascending cols -> ascending rows ->
  f_rows lat = lenz rows -> f_cols lat = lenz cols -> f_rows lon = lenz rows -> f_cols lon = lenz cols ->
  exists olat olon, basic_interpolate true cols rows lat lon = Ok (olat, olon) /\ holes cols rows lat olat /\ holes cols rows lon olon.
Proof.
  intros cols rows lat lon Hc Hr A1 A2 B1 B2. destruct (interp_holes cols rows lat Hc Hr A1 A2) as (a & Ea & Ha). destruct (interp_holes cols rows lon Hc Hr B1 B2) as (b & Eb & Hb).
  exists a, b. unfold basic_interpolate. rewrite Ea, Eb. auto.
Qed.
Print Assumptions C122_missing.
(** this determines the values *)
Theorem C122_determined : forall l v i x y, ascending l -> along_axis l v i x -> along_axis l v i y -> x = y.
Proof.
  intros l v i x y Hl. assert (Mono : forall p q, 0 <= p < lenz l -> 0 <= q < lenz l -> nthz l p < nthz l q -> p < q) by (intros; now apply (ascending_lt l)).
  assert (Inj : forall p q, 0 <= p < lenz l -> 0 <= q < lenz l -> nthz l p = nthz l q -> p = q) by (intros; now apply (ascending_inj l)).
  assert (Up : forall p q, 0 <= p < q -> q < lenz l -> nthz l p < nthz l q) by apply Hl.
  assert (W : forall p q a b a' b', 0 <= p < lenz l -> 0 <= q < lenz l -> nthz l p < i -> nthz l q < i -> v p = Some a -> v q = Some b -> (forall r, p < r < a' -> v r = None) -> (forall r, q < r < b' -> v r = None) -> q < a' -> p < b' -> p = q).
  { intros p q a b a' b' Hp Hq Lp Lq Vp Vq Np Nq Qa Pb. destruct (Z.lt_trichotomy p q) as [L|[L|L]]; [|exact L|].
    - rewrite Np in Vq by lia. discriminate.
    - rewrite Nq in Vp by lia. discriminate. }
  intros X Y. destruct X as [p a Hp Ep Vp|p q a b Hpq Hq Li Vp Vq Nr|p a Hp Lp Vp Nr|Nb]; inversion Y as [p' a' Hp' Ep' Vp' EY|p' q' a' b' Hpq' Hq' Li' Vp' Vq' Nr' EY|p' a' Hp' Lp' Vp' Nr' EY|Nb' EY]; subst y.
  - assert (p = p') as <- by (apply Inj; congruence). congruence.
  - exfalso. assert (p' < p) by (apply Mono; lia). assert (p < q') by (apply Mono; lia). rewrite Nr' in Vp by lia. discriminate.
  - exfalso. assert (p' < p) by (apply Mono; lia). rewrite Nr' in Vp by lia. discriminate.
  - exfalso. rewrite Nb' in Vp by lia. discriminate.
  - exfalso. assert (p < p') by (apply Mono; lia). assert (p' < q) by (apply Mono; lia). rewrite Nr in Vp' by lia. discriminate.
  - assert (p < q') by (apply Mono; lia). assert (p' < q) by (apply Mono; lia).
    assert (p = p') as <- by (apply (W p p' a a' q q'); auto; lia).
    assert (q = q') as <-. { destruct (Z.lt_trichotomy q q') as [L|[L|L]]; [|exact L|]; [rewrite Nr' in Vq by lia; discriminate|rewrite Nr in Vq' by lia; discriminate]. }
    congruence.
  - exfalso. assert (p' < q) by (apply Mono; lia). rewrite Nr' in Vq by lia. discriminate.
  - exfalso. rewrite Nb' in Vp by lia. discriminate.
  - exfalso. assert (p < p') by (apply Mono; lia). rewrite Nr in Vp' by lia. discriminate.
  - exfalso. assert (p < q') by (apply Mono; lia). rewrite Nr in Vq' by lia. discriminate.
  - assert (p = p') as <- by (apply (W p p' a a' (lenz l) (lenz l)); auto; lia). congruence.
  - exfalso. rewrite Nb' in Vp by lia. discriminate.
  - exfalso. rewrite Nb in Vp' by lia. discriminate.
  - exfalso. rewrite Nb in Vp' by lia. discriminate.
  - exfalso. rewrite Nb in Vp' by lia. discriminate.
  - reflexivity.
Qed.
Print Assumptions C122_determined.
(** indices that start above 0: nothing before the first tie row and the first tie column *)
Theorem C122_leading : forall cols rows (lat lon olat olon : frame R), ascending cols -> ascending rows ->
  f_rows lat = lenz rows -> f_cols lat = lenz cols -> f_rows lon = lenz rows -> f_cols lon = lenz cols ->
  basic_interpolate true cols rows lat lon = Ok (olat, olon) ->
  forall i j, 0 <= i <= last_index rows -> 0 <= j <= last_index cols -> i < nthz rows 0 \/ j < nthz cols 0 -> f_at olat i j = None /\ f_at olon i j = None.
Proof.
  intros cols rows lat lon olat olon Hc Hr A1 A2 B1 B2 E i j Hi Hj C.
  destruct (C122_missing cols rows lat lon Hc Hr A1 A2 B1 B2) as (a & b & E' & Ha & Hb). rewrite E in E'. injection E' as <- <-.
  assert (G : forall data out, holes cols rows data out -> f_at out i j = None).
  { intros data out (_ & _ & H). destruct (H i j Hi Hj) as (m & M & X). apply (C122_determined cols m j _ _ Hc X). apply before_ties.
    assert (First : forall l p k, ascending l -> 0 <= p < lenz l -> k < nthz l 0 -> nthz l p <= k -> False).
    { intros l p k (_ & _ & U) Hp Hk Hpk. destruct (Z.eq_dec p 0) as [-> |]; [lia|]. specialize (U 0 p ltac:(lia) ltac:(lia)). lia. }
    intros q Hq Lq. destruct C as [C|C]; [|exfalso; exact (First cols q j Hc Hq C Lq)].
    apply (C122_determined rows (fun p => f_at data p q) i _ _ Hr (M q)). apply before_ties. intros p Hp Lp. exfalso. exact (First rows p i Hr Hp C Lp). }
  split; eapply G; eassumption.
Qed.
Print Assumptions C122_leading.
(** one tie column at 1, tie rows 1, 3, 6, 7 with values 10, missing, 30, missing *)
Example C122_case : ascending [1; 3; 6; 7] /\
  (let d := {| f_rows := 4; f_cols := 1; f_at := fun p _ => if p =? 0 then Some 10%Q else if p =? 2 then Some 30%Q else None |} in
   match @basic_interpolate Q QT true [1] [1; 3; 6; 7] d d with
   | Ok (a, _) => map (fun i => option_map Qred (f_at a i 1)) (range0 8) = [None; Some 10%Q; Some 14%Q; Some 18%Q; Some 22%Q; Some 26%Q; Some 30%Q; Some 30%Q] /\ f_at a 1 0 = None
   | Err _ => False
   end).
Proof.
  split; [|vm_compute; split; reflexivity]. split; [cbn; lia|]. split; [cbn; lia|]. intros p q Hp Hq. unfold lenz in Hq. cbn in Hq.
  assert (P : p = 0 \/ p = 1 \/ p = 2) by lia. assert (Q : q = 1 \/ q = 2 \/ q = 3) by lia.
  destruct P as [-> |[-> | ->]], Q as [-> |[-> | ->]]; try lia; vm_compute; reflexivity.
Qed.
