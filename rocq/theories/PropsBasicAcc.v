(** C148, C149: BasicSatelliteInterpolator between the tie points of smooth fields, and across the date line. *)
From Coq Require Import ZArith List Bool Arith Lia Reals Lra QArith.
From Flocq.Core Require Import Core.
From Verif Require Import Base Num Spec Float FloatVii Basic PropsBasic PropsCubic PropsGround PropsFloatGround PropsFloatBasic PropsSymmetry.
Import ListNotations.
Open Scope R_scope.

(** ** C148 *)
(** tie values within d of a field F(row, column) *)
Definition measured (cols rows : list Z) (v : Z -> Z -> R) (F : R -> R -> R) (d : R) : Prop :=
  forall p q, (0 <= p < lenz rows)%Z -> (0 <= q < lenz cols)%Z -> Rabs (v p q - F (IZR (nthz rows p)) (IZR (nthz cols q))) <= d.
(** second derivatives at most Ky down the tie columns and at most Kx along the pixel rows *)
Definition curved (cols rows : list Z) (F : R -> R -> R) (Ky Kx : R) : Prop :=
  (forall q, (0 <= q < lenz cols)%Z -> bounded_curvature (fun y => F y (IZR (nthz cols q))) 0 (IZR (last_index rows)) Ky) /\
  (forall i, (0 <= i <= last_index rows)%Z -> bounded_curvature (F (IZR i)) 0 (IZR (last_index cols)) Kx).
(** distance of neighbouring tie rows or columns *)
Definition step (l : list Z) (p : Z) : R := IZR (nthz l (p + 1) - nthz l p).

Lemma curvature_nonneg f lo hi K : lo <= hi -> bounded_curvature f lo hi K -> 0 <= K.
Proof. intros H (f1 & f2 & B). destruct (B lo ltac:(lra)) as (_ & _ & B'). pose proof (Rabs_pos (f2 lo)). lra. Qed.
Lemma lerp_curved l f K p i : indices l -> (0 <= p)%Z -> (p + 1 < lenz l)%Z -> (nthz l p <= i <= nthz l (p + 1))%Z ->
  bounded_curvature f 0 (IZR (last_index l)) K ->
  Rabs (lerp (nthz l p) (nthz l (p + 1)) i (f (IZR (nthz l p))) (f (IZR (nthz l (p + 1)))) - f (IZR i)) <= K * step l p ^ 2 / 8.
Proof.
  intros Hl Hp Hp1 Hi B. assert (L : (nthz l p < nthz l (p + 1))%Z) by (apply Hl; lia).
  pose proof (indices_mono l 0 p Hl ltac:(lia) ltac:(lia)) as M0. pose proof (indices_mono l (p + 1) (lenz l - 1) Hl ltac:(lia) ltac:(lia)) as M1.
  assert (Z0 : nthz l 0 = 0%Z) by apply Hl. rewrite Z0 in M0. fold (last_index l) in M1.
  assert (HK : 0 <= K) by (eapply curvature_nonneg; [|exact B]; apply IZR_le; lia).
  assert (R0 : 0 <= IZR (nthz l p)) by (apply IZR_le; lia). assert (R1 : IZR (nthz l (p + 1)) <= IZR (last_index l)) by (apply IZR_le; lia).
  assert (R2 : IZR (nthz l p) < IZR (nthz l (p + 1))) by (apply IZR_lt; lia).
  assert (R3 : IZR (nthz l p) <= IZR i <= IZR (nthz l (p + 1))) by (split; apply IZR_le; lia).
  pose proof (curved_line f 0 (IZR (last_index l)) K _ _ (IZR i) B R0 R2 R1 R3) as C.
  pose proof (product_quarter _ _ (IZR i) R3) as Q.
  replace (lerp (nthz l p) (nthz l (p + 1)) i (f (IZR (nthz l p))) (f (IZR (nthz l (p + 1)))))
    with (straight_line (IZR (nthz l p)) (f (IZR (nthz l p))) (IZR (nthz l (p + 1))) (f (IZR (nthz l (p + 1)))) (IZR i)) by (unfold lerp, straight_line; field; lra).
  rewrite Rabs_minus_sym. eapply Rle_trans; [exact C|]. unfold step. rewrite minus_IZR.
  replace (K * (IZR (nthz l (p + 1)) - IZR (nthz l p)) ^ 2 / 8) with ((IZR (nthz l (p + 1)) - IZR (nthz l p)) ^ 2 / 4 / 2 * K) by field.
  apply Rmult_le_compat_r; lra.
Qed.

Definition bilinear (cols rows : list Z) (v : Z -> Z -> R) (p q i j : Z) : R :=
  let along_row q := lerp (nthz rows p) (nthz rows (p + 1)) i (v p q) (v (p + 1)%Z q) in
  lerp (nthz cols q) (nthz cols (q + 1)) j (along_row q) (along_row (q + 1)%Z).
Lemma bilinear_curved cols rows v F d Ky Kx p q i j : indices cols -> indices rows -> measured cols rows v F d -> curved cols rows F Ky Kx ->
  (0 <= p)%Z -> (p + 1 < lenz rows)%Z -> (0 <= q)%Z -> (q + 1 < lenz cols)%Z ->
  (nthz rows p <= i <= nthz rows (p + 1))%Z -> (nthz cols q <= j <= nthz cols (q + 1))%Z ->
  Rabs (bilinear cols rows v p q i j - F (IZR i) (IZR j)) <= d + (Ky * step rows p ^ 2 + Kx * step cols q ^ 2) / 8.
Proof.
  intros Hc Hr Hm (Cy & Cx) Hp Hp1 Hq Hq1 Hi Hj. unfold bilinear.
  assert (Lp : (nthz rows p < nthz rows (p + 1))%Z) by (apply Hr; lia). assert (Lq : (nthz cols q < nthz cols (q + 1))%Z) by (apply Hc; lia).
  assert (A : forall k, (0 <= k < lenz cols)%Z ->
    Rabs (lerp (nthz rows p) (nthz rows (p + 1)) i (v p k) (v (p + 1)%Z k) - F (IZR i) (IZR (nthz cols k))) <= d + Ky * step rows p ^ 2 / 8).
  { intros k Hk. pose proof (lerp_near _ _ i _ _ _ _ d Lp Hi (Hm p k ltac:(lia) Hk) (Hm (p + 1)%Z k ltac:(lia) Hk)) as N.
    pose proof (lerp_curved rows (fun y => F y (IZR (nthz cols k))) Ky p i Hr Hp Hp1 Hi (Cy k Hk)) as C. cbv beta in C.
    apply Rabs_le_inv in N, C. apply Rabs_le. lra. }
  pose proof (lerp_near _ _ j _ _ _ _ _ Lq Hj (A q ltac:(lia)) (A (q + 1)%Z ltac:(lia))) as N.
  pose proof (lerp_curved cols (F (IZR i)) Kx q j Hc Hq Hq1 Hj (Cx i (index_range rows p i Hr Hp Hp1 Hi))) as C.
  apply Rabs_le_inv in N, C. apply Rabs_le. lra.
Qed.

(** exact arithmetic *)
Theorem C148_value : forall cols rows (lat lon : frame R) vlat vlon olat olon Flat Flon d Ky Kx,
  indices cols -> indices rows -> ties cols rows lat vlat -> ties cols rows lon vlon ->
  measured cols rows vlat Flat d -> measured cols rows vlon Flon d -> curved cols rows Flat Ky Kx -> curved cols rows Flon Ky Kx ->
  @basic_interpolate R RT true cols rows lat lon = Ok (olat, olon) ->
  forall p q i j, (0 <= p)%Z -> (p + 1 < lenz rows)%Z -> (0 <= q)%Z -> (q + 1 < lenz cols)%Z ->
    (nthz rows p <= i <= nthz rows (p + 1))%Z -> (nthz cols q <= j <= nthz cols (q + 1))%Z ->
    exists x y, f_at olat i j = Some x /\ f_at olon i j = Some y /\
      Rabs (x - Flat (IZR i) (IZR j)) <= d + (Ky * step rows p ^ 2 + Kx * step cols q ^ 2) / 8 /\
      Rabs (y - Flon (IZR i) (IZR j)) <= d + (Ky * step rows p ^ 2 + Kx * step cols q ^ 2) / 8.
Proof.
  intros cols rows lat lon vlat vlon olat olon Flat Flon d Ky Kx Hc Hr Tlat Tlon Mlat Mlon Clat Clon E p q i j Hp Hp1 Hq Hq1 Hi Hj.
  destruct (C59_bilinear cols rows lat lon vlat vlon olat olon Hc Hr Tlat Tlon E p q i j Hp Hp1 Hq Hq1 Hi Hj) as (E1 & E2).
  exists (bilinear cols rows vlat p q i j), (bilinear cols rows vlon p q i j).
  split; [exact E1|]. split; [exact E2|]. split; apply bilinear_curved; assumption.
Qed.
Print Assumptions C148_value.

(** double arrays: 15 roundings more *)
Theorem C148_double : forall m cols rows (lat lon : frame (option R)) vlat vlon olat olon Flat Flon d Ky Kx B,
  indices cols -> indices rows -> (last_index cols <= 1000000)%Z -> (last_index rows <= 1000000)%Z ->
  double_ties cols rows lat vlat B -> double_ties cols rows lon vlon B -> / 1000 <= B <= 100000000 ->
  measured cols rows vlat Flat d -> measured cols rows vlon Flon d -> curved cols rows Flat Ky Kx -> curved cols rows Flon Ky Kx ->
  @basic_interpolate _ (F64 m) true cols rows lat lon = Ok (olat, olon) ->
  forall p q i j, (0 <= p)%Z -> (p + 1 < lenz rows)%Z -> (0 <= q)%Z -> (q + 1 < lenz cols)%Z ->
    (nthz rows p <= i <= nthz rows (p + 1))%Z -> (nthz cols q <= j <= nthz cols (q + 1))%Z ->
    exists x y, f_at olat i j = Some (Some x) /\ f_at olon i j = Some (Some y) /\
      Rabs (x - Flat (IZR i) (IZR j)) <= d + (Ky * step rows p ^ 2 + Kx * step cols q ^ 2) / 8 + 15 * bpow radix2 (-53) * B /\
      Rabs (y - Flon (IZR i) (IZR j)) <= d + (Ky * step rows p ^ 2 + Kx * step cols q ^ 2) / 8 + 15 * bpow radix2 (-53) * B.
Proof.
  intros m cols rows lat lon vlat vlon olat olon Flat Flon d Ky Kx B Hc Hr Lc Lr Tlat Tlon HB Mlat Mlon Clat Clon E p q i j Hp Hp1 Hq Hq1 Hi Hj.
  destruct (C147_double m cols rows lat lon vlat vlon olat olon B Hc Hr Lc Lr Tlat Tlon HB E p q i j Hp Hp1 Hq Hq1 Hi Hj) as (x & y & Ex & Ey & Dx & Dy).
  exists x, y. split; [exact Ex|]. split; [exact Ey|].
  fold (bilinear cols rows vlat p q i j) in Dx. fold (bilinear cols rows vlon p q i j) in Dy.
  pose proof (bilinear_curved cols rows vlat Flat d Ky Kx p q i j Hc Hr Mlat Clat Hp Hp1 Hq Hq1 Hi Hj) as B1.
  pose proof (bilinear_curved cols rows vlon Flon d Ky Kx p q i j Hc Hr Mlon Clon Hp Hp1 Hq Hq1 Hi Hj) as B2.
  apply Rabs_le_inv in Dx, Dy, B1, B2. split; apply Rabs_le; lra.
Qed.
Print Assumptions C148_double.

(** on the ground *)
Theorem C148_ground : forall m cols rows (lat lon : frame (option R)) vlat vlon olat olon Flat Flon d Ky Kx B r,
  indices cols -> indices rows -> (last_index cols <= 1000000)%Z -> (last_index rows <= 1000000)%Z ->
  double_ties cols rows lat vlat B -> double_ties cols rows lon vlon B -> / 1000 <= B <= 100000000 -> 0 <= r ->
  measured cols rows vlat Flat d -> measured cols rows vlon Flon d -> curved cols rows Flat Ky Kx -> curved cols rows Flon Ky Kx ->
  @basic_interpolate _ (F64 m) true cols rows lat lon = Ok (olat, olon) ->
  forall p q i j, (0 <= p)%Z -> (p + 1 < lenz rows)%Z -> (0 <= q)%Z -> (q + 1 < lenz cols)%Z ->
    (nthz rows p <= i <= nthz rows (p + 1))%Z -> (nthz cols q <= j <= nthz cols (q + 1))%Z ->
    exists x y, f_at olat i j = Some (Some x) /\ f_at olon i j = Some (Some y) /\
      distance (ground r y x) (ground r (Flon (IZR i) (IZR j)) (Flat (IZR i) (IZR j))) <=
        r * (PI / 90) * (d + (Ky * step rows p ^ 2 + Kx * step cols q ^ 2) / 8 + 15 * bpow radix2 (-53) * B).
Proof.
  intros m cols rows lat lon vlat vlon olat olon Flat Flon d Ky Kx B r Hc Hr Lc Lr Tlat Tlon HB Hrad Mlat Mlon Clat Clon E p q i j Hp Hp1 Hq Hq1 Hi Hj.
  destruct (C148_double m cols rows lat lon vlat vlon olat olon Flat Flon d Ky Kx B Hc Hr Lc Lr Tlat Tlon HB Mlat Mlon Clat Clon E p q i j Hp Hp1 Hq Hq1 Hi Hj)
    as (x & y & Ex & Ey & Dx & Dy).
  exists x, y. split; [exact Ex|]. split; [exact Ey|]. eapply Rle_trans; [apply ground_shift; exact Hrad|].
  set (e := d + _ + _) in *. replace (r * (PI / 90) * e) with (r * (PI / 180) * (e + e)) by field.
  apply Rmult_le_compat_l; [|lra]. pose proof PI_RGT_0. apply Rmult_le_pos; lra.
Qed.
Print Assumptions C148_ground.

(** the bound is attained: the field x^2 on tie columns 0 and 2, at pixel 1 *)
Example C148_case : let F := fun y x : R => 0 * y + x ^ 2 in let v := fun p q : Z => 4 * IZR q in
  let data := {| f_rows := 2; f_cols := 2; f_at := fun p q => Some (v p q) |} in
  indices [0; 2]%Z /\ ties [0; 2]%Z [0; 2]%Z data v /\ measured [0; 2]%Z [0; 2]%Z v F 0 /\ curved [0; 2]%Z [0; 2]%Z F 0 2 /\
  exists olat olon, @basic_interpolate R RT true [0; 2]%Z [0; 2]%Z data data = Ok (olat, olon) /\ exists x, f_at olat 1%Z 1%Z = Some x /\
    Rabs (x - F 1 1) = 0 + (0 * step [0; 2]%Z 0 ^ 2 + 2 * step [0; 2]%Z 0 ^ 2) / 8.
Proof.
  cbv zeta.
  assert (I : indices [0; 2]%Z).
  { split; [unfold lenz; cbn; lia|]. split; [reflexivity|]. intros p q H1 H2. unfold lenz in H2. cbn in H2.
    assert (p = 0 /\ q = 1)%Z as [-> ->] by lia. reflexivity. }
  set (data := {| f_rows := 2; f_cols := 2; f_at := fun p q => Some (4 * IZR q) |}).
  assert (T : ties [0; 2]%Z [0; 2]%Z data (fun p q => 4 * IZR q)) by (repeat split).
  split; [exact I|]. split; [exact T|]. split; [|split].
  - intros p q _ Hq. unfold lenz in Hq. cbn in Hq. assert (q = 0 \/ q = 1)%Z as [-> | ->] by lia.
    + change (nthz [0; 2]%Z 0) with 0%Z. rewrite Rabs_pos_eq; lra.
    + change (nthz [0; 2]%Z 1) with 2%Z. match goal with |- Rabs ?x <= _ => replace x with 0 by ring end. rewrite Rabs_R0. lra.
  - assert (DC : forall (c t : R), derivable_pt_lim (fun _ => c) t 0) by (intros; apply derivable_pt_lim_const).
    split; intros k Hk.
    + exists (fun _ => 0), (fun _ => 0). intros t _. split; [|split; [apply DC|rewrite Rabs_R0; lra]].
      assert (X : forall y, IZR (nthz [0; 2]%Z k) ^ 2 = 0 * y + IZR (nthz [0; 2]%Z k) ^ 2) by (intros; ring).
      intros eps He. destruct (DC (IZR (nthz [0; 2]%Z k) ^ 2) t eps He) as (dl & Hd). exists dl. intros h Hh Hhd.
      rewrite <- !X. exact (Hd h Hh Hhd).
    + exists (fun x => 2 * x), (fun _ => 2). intros t _. split; [|split; [|rewrite Rabs_pos_eq; lra]].
      * pose proof (derivable_pt_lim_pow t 2) as P. cbn [Init.Nat.pred INR] in P.
        intros eps He. destruct (P eps He) as (dl & Hd). exists dl. intros h Hh Hhd. specialize (Hd h Hh Hhd).
        match goal with |- Rabs ?a < _ => match type of Hd with Rabs ?b < _ => replace a with b; [exact Hd|] end end. field. exact Hh.
      * pose proof (derivable_pt_lim_scal id 2 t 1 (derivable_pt_lim_id t)) as P. rewrite Rmult_1_r in P. exact P.
  - destruct (C59_tie_points (N := RT) _ _ data data _ _ I I T T) as (olat & olon & E & _). exists olat, olon. split; [exact E|].
    destruct (C59_bilinear _ _ data data _ _ olat olon I I T T E 0 0 1 1 ltac:(lia) ltac:(reflexivity) ltac:(lia) ltac:(reflexivity)
      ltac:(vm_compute; split; discriminate) ltac:(vm_compute; split; discriminate))%Z as (E1 & _).
    eexists. split; [exact E1|]. unfold step.
    change (nthz [0; 2]%Z 0) with 0%Z. change (nthz [0; 2]%Z (0 + 1)) with 2%Z. unfold lerp. cbn [Z.add].
    change (2 - 0)%Z with 2%Z. rewrite Rabs_pos_eq; lra.
Qed.

(** these tie values are doubles *)
Example C148_case_double : double_ties [0; 2]%Z [0; 2]%Z {| f_rows := 2; f_cols := 2; f_at := fun p q => Some (Some (4 * IZR q)) |} (fun p q => 4 * IZR q) 4.
Proof.
  split; [repeat split|]. intros p q _ Hq. unfold lenz in Hq. cbn in Hq. rewrite <- mult_IZR. split.
  - pose proof (fix_fl (4 * q) 0 ltac:(lia) ltac:(lia)) as K. cbn [Z.opp bpow] in K. now rewrite Rmult_1_r in K.
  - rewrite Rabs_pos_eq by (apply IZR_le; lia). apply IZR_le. lia.
Qed.

(** ** C149: the date line *)
(** all tie values of a cell turned by the same angle turn its pixels by that angle *)
Theorem C149_turn_partial : forall cols rows (lat lon lon' : frame R) vlat vlon vlon' olat olon olat' olon',
  indices cols -> indices rows -> ties cols rows lat vlat -> ties cols rows lon vlon -> ties cols rows lon' vlon' ->
  @basic_interpolate R RT true cols rows lat lon = Ok (olat, olon) -> @basic_interpolate R RT true cols rows lat lon' = Ok (olat', olon') ->
  olat' = olat /\
  forall t p q i j, (0 <= p)%Z -> (p + 1 < lenz rows)%Z -> (0 <= q)%Z -> (q + 1 < lenz cols)%Z ->
    (nthz rows p <= i <= nthz rows (p + 1))%Z -> (nthz cols q <= j <= nthz cols (q + 1))%Z ->
    (forall a b, (a = p \/ a = p + 1)%Z -> (b = q \/ b = q + 1)%Z -> vlon' a b = vlon a b + t) ->
    exists y, f_at olon i j = Some y /\ f_at olon' i j = Some (y + t).
Proof.
  intros cols rows lat lon lon' vlat vlon vlon' olat olon olat' olon' Hc Hr Tlat Tlon Tlon' E E'. split.
  - apply (C68_order (N := RT)) in E, E'. destruct E as (E & _), E' as (E' & _). rewrite E in E'. now injection E'.
  - intros t p q i j Hp Hp1 Hq Hq1 Hi Hj K.
    destruct (C59_bilinear cols rows lat lon vlat vlon olat olon Hc Hr Tlat Tlon E p q i j Hp Hp1 Hq Hq1 Hi Hj) as (_ & E1).
    destruct (C59_bilinear cols rows lat lon' vlat vlon' olat' olon' Hc Hr Tlat Tlon' E' p q i j Hp Hp1 Hq Hq1 Hi Hj) as (_ & E2).
    eexists. split; [exact E1|]. rewrite E2. f_equal. rewrite !K by auto.
    assert (Lp : (nthz rows p < nthz rows (p + 1))%Z) by (apply Hr; lia). assert (Lq : (nthz cols q < nthz cols (q + 1))%Z) by (apply Hc; lia).
    apply IZR_lt in Lp, Lq. unfold lerp. field. lra.
Qed.
Print Assumptions C149_turn_partial.

(** longitudes 170, 171 turned by 9 degrees *)
Example C149_case : exists olat olon olat' olon' y,
  let data t := {| f_rows := 2; f_cols := 2; f_at := fun p q : Z => Some (170 + IZR q + t) |} in
  @basic_interpolate R RT true [0; 2]%Z [0; 4]%Z (data 0) (data 0) = Ok (olat, olon) /\ @basic_interpolate R RT true [0; 2]%Z [0; 4]%Z (data 0) (data 9) = Ok (olat', olon') /\
  f_at olon 3%Z 1%Z = Some y /\ f_at olon' 3%Z 1%Z = Some (y + 9).
Proof.
  set (v t := fun p q : Z => 170 + IZR q + t). set (data t := {| f_rows := 2; f_cols := 2; f_at := fun p q => Some (v t p q) |} : frame R).
  assert (I : forall c, (0 < c)%Z -> indices [0; c]%Z).
  { intros c Hc. split; [unfold lenz; cbn; lia|]. split; [reflexivity|]. intros p q H1 H2. unfold lenz in H2. cbn in H2.
    assert (p = 0 /\ q = 1)%Z as [-> ->] by lia. exact Hc. }
  assert (T : forall t, ties [0; 2]%Z [0; 4]%Z (data t) (v t)) by (repeat split).
  destruct (C59_tie_points (N := RT) _ _ (data 0) (data 0) _ _ (I 2%Z ltac:(lia)) (I 4%Z ltac:(lia)) (T 0) (T 0)) as (olat & olon & E & _).
  destruct (C59_tie_points (N := RT) _ _ (data 0) (data 9) _ _ (I 2%Z ltac:(lia)) (I 4%Z ltac:(lia)) (T 0) (T 9)) as (olat' & olon' & E' & _).
  destruct (C149_turn_partial _ _ (data 0) (data 0) (data 9) _ _ _ olat olon olat' olon' (I 2%Z ltac:(lia)) (I 4%Z ltac:(lia)) (T 0) (T 0) (T 9) E E') as (_ & K).
  destruct (K 9%R 0 0 3 1 ltac:(lia) ltac:(reflexivity) ltac:(lia) ltac:(reflexivity)
      ltac:(vm_compute; split; discriminate) ltac:(vm_compute; split; discriminate))%Z as (y & E1 & E2); [intros; unfold v; ring|].
  exists olat, olon, olat', olon', y. auto.
Qed.

(** mirrored tie values give mirrored pixels, with or without the date line *)
Theorem C149_mirror : forall cols rows (lat lon lon' : frame R) vlat vlon olat olon olat' olon',
  indices cols -> indices rows -> ties cols rows lat vlat -> ties cols rows lon vlon -> ties cols rows lon' (fun p q => - vlon p q) ->
  @basic_interpolate R RT true cols rows lat lon = Ok (olat, olon) -> @basic_interpolate R RT true cols rows lat lon' = Ok (olat', olon') ->
  forall p q i j, (0 <= p)%Z -> (p + 1 < lenz rows)%Z -> (0 <= q)%Z -> (q + 1 < lenz cols)%Z ->
    (nthz rows p <= i <= nthz rows (p + 1))%Z -> (nthz cols q <= j <= nthz cols (q + 1))%Z ->
    exists y, f_at olon i j = Some y /\ f_at olon' i j = Some (- y).
Proof.
  intros cols rows lat lon lon' vlat vlon olat olon olat' olon' Hc Hr Tlat Tlon Tlon' E E' p q i j Hp Hp1 Hq Hq1 Hi Hj.
  destruct (C59_bilinear cols rows lat lon vlat vlon olat olon Hc Hr Tlat Tlon E p q i j Hp Hp1 Hq Hq1 Hi Hj) as (_ & E1).
  destruct (C59_bilinear cols rows lat lon' vlat _ olat' olon' Hc Hr Tlat Tlon' E' p q i j Hp Hp1 Hq Hq1 Hi Hj) as (_ & E2).
  eexists. split; [exact E1|]. rewrite E2. f_equal.
  assert (Lp : (nthz rows p < nthz rows (p + 1))%Z) by (apply Hr; lia). assert (Lq : (nthz cols q < nthz cols (q + 1))%Z) by (apply Hc; lia).
  apply IZR_lt in Lp, Lq. unfold lerp. field. lra.
Qed.
Print Assumptions C149_mirror.

(** the same tie points written as 179, 181 and as 179, -179 degrees: the pixel between them is at 180 or at 0 degrees *)
Theorem C149_refuted : exists cols rows (lat lon lon' : frame R) vlat vlon vlon' olat olon olat' olon' i j y y',
  indices cols /\ indices rows /\ ties cols rows lat vlat /\ ties cols rows lon vlon /\ ties cols rows lon' vlon' /\
  (forall p q, (0 <= p < lenz rows)%Z -> (0 <= q < lenz cols)%Z -> congruent (vlon' p q) (vlon p q) /\ -180 <= vlon' p q <= 180) /\
  @basic_interpolate R RT true cols rows lat lon = Ok (olat, olon) /\ @basic_interpolate R RT true cols rows lat lon' = Ok (olat', olon') /\
  f_at olon i j = Some y /\ f_at olon' i j = Some y' /\ y = 180 /\ y' = 0 /\ ~ congruent y' y.
Proof.
  set (v := fun p q : Z => 179 + 2 * IZR q). set (v' := fun p q : Z => 179 - 358 * IZR q).
  set (data v := {| f_rows := 2; f_cols := 2; f_at := fun p q => Some (v p q) |} : frame R).
  assert (I : indices [0; 2]%Z).
  { split; [unfold lenz; cbn; lia|]. split; [reflexivity|]. intros p q H1 H2. unfold lenz in H2. cbn in H2.
    assert (p = 0 /\ q = 1)%Z as [-> ->] by lia. reflexivity. }
  assert (T : forall v, ties [0; 2]%Z [0; 2]%Z (data v) v) by (repeat split).
  destruct (C59_tie_points (N := RT) _ _ (data v) (data v) _ _ I I (T v) (T v)) as (olat & olon & E & _).
  destruct (C59_tie_points (N := RT) _ _ (data v) (data v') _ _ I I (T v) (T v')) as (olat' & olon' & E' & _).
  destruct (C59_bilinear _ _ _ _ _ _ olat olon I I (T v) (T v) E 0 0 1 1 ltac:(lia) ltac:(reflexivity) ltac:(lia) ltac:(reflexivity)
      ltac:(vm_compute; split; discriminate) ltac:(vm_compute; split; discriminate))%Z as (_ & E1).
  destruct (C59_bilinear _ _ _ _ _ _ olat' olon' I I (T v) (T v') E' 0 0 1 1 ltac:(lia) ltac:(reflexivity) ltac:(lia) ltac:(reflexivity)
      ltac:(vm_compute; split; discriminate) ltac:(vm_compute; split; discriminate))%Z as (_ & E2).
  exists [0; 2]%Z, [0; 2]%Z, (data v), (data v), (data v'), v, v, v', olat, olon, olat', olon', 1%Z, 1%Z.
  eexists. eexists. split; [exact I|]. split; [exact I|]. split; [apply T|]. split; [apply T|]. split; [apply T|]. split.
  { intros p q _ Hq. unfold lenz in Hq. cbn in Hq. assert (q = 0 \/ q = 1)%Z as [-> | ->] by lia; unfold v, v'; (split; [|lra]).
    - exists 0%Z. lra.
    - exists (-1)%Z. lra. }
  split; [exact E|]. split; [exact E'|]. split; [exact E1|]. split; [exact E2|].
  change (nthz [0; 2]%Z 0) with 0%Z. change (nthz [0; 2]%Z (0 + 1)) with 2%Z. unfold lerp, v, v'. cbn [Z.add].
  match goal with |- ?a = 180 /\ ?b = 0 /\ _ => assert (Ha : a = 180) by lra; assert (Hb : b = 0) by lra end.
  split; [exact Ha|]. split; [exact Hb|]. rewrite Ha, Hb. intros (k & K).
  assert (L : -1 < IZR k < 0) by lra. destruct L as (L1 & L2). apply lt_IZR in L1, L2. lia.
Qed.
Print Assumptions C149_refuted.
