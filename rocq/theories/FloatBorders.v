(** Rounding errors of the border filling of interpolator.py on double arrays. *)
From Coq Require Import ZArith List Lia Bool Arith Reals Lra.
From Flocq.Core Require Import Core.
From Verif Require Import Spec Base Num Splits Geo Float FloatGeo FloatAcc FloatTrip FloatNear Modis Interp PlProofs InterpProofs Borders.
Import ListNotations.
Open Scope R_scope.

Lemma abs_le4 a x : - x <= a <= x -> Rabs a <= x.
Proof. intros. apply Rabs_le. lra. Qed.

(** ** one element *)
Section Element.
Variable l : libm.
#[local] Instance FD : NumOps (option R) := F64 l.
Notation nd := (near b64).

Lemma lin_near W g q e B D p0 p1 x d0 d1 P0 P1 X a0 a1 :
  12 / 100000000000000000 <= W <= / 1000000000 -> / 1000 <= g <= 10000 -> 1 <= q <= 1000 ->
  Rabs (P0 - P1) = g -> Rabs (X - P1) <= q * g ->
  nd p0 P0 (W * g) -> nd p1 P1 (W * g) -> nd x X (W * g) ->
  nd d0 a0 e -> nd d1 a1 e -> 0 <= e <= D / 1000 -> / 100000 <= D -> q * D <= 100000000 -> Rabs a1 <= B -> B <= 100000000 -> Rabs (a0 - a1) <= D ->
  nd (lin_at p0 p1 x d0 d1) (straight_line P0 a0 P1 a1 X) (e * (1 + 2001 / 1000 * q) + 15 * W * q * D + eps b64 * B).
Proof.
  intros HW Hg Hq Eg Hx N0 N1 NX M0 M1 He HD HqD HB1 HB HDa.
  pose proof eps_64 as U. set (u := eps b64) in *.
  assert (Wg : 0 < W * g) by (apply Rmult_lt_0_compat; lra).
  assert (ug : u * g <= W * g) by (apply Rmult_le_compat_r; lra).
  assert (g0 : 0 < g) by lra.
  assert (qg1 : g <= q * g) by (rewrite <- (Rmult_1_l g) at 1; apply Rmult_le_compat_r; lra).
  assert (qg2 : q * g <= 10000000) by (replace 10000000 with (1000 * 10000) by lra; apply Rmult_le_compat; lra).
  assert (Wsm : W * g <= / 100000 * g) by (apply Rmult_le_compat_r; lra).
  set (K := W * q).
  assert (K1 : W <= K) by (unfold K; rewrite <- (Rmult_1_r W) at 1; apply Rmult_le_compat_l; lra).
  assert (K2 : K <= / 1000000) by (unfold K; replace (/ 1000000) with (/ 1000000000 * 1000) by lra; apply Rmult_le_compat; lra).
  assert (Kg : W * g <= K * g) by (apply Rmult_le_compat_r; lra).
  assert (uq : u * q <= K) by (unfold K; apply Rmult_le_compat_r; lra).
  assert (uWg : u * (W * g) <= / 1000000 * (W * g)) by (apply Rmult_le_compat_r; lra).
  assert (uqg : u * (q * g) <= K * g) by (rewrite <- Rmult_assoc; apply Rmult_le_compat_r; lra).
  (* x - p1 *)
  assert (A1 : nd (nsub x p1) (X - P1) ((301 / 100) * (K * g))).
  { eapply near_weaken; [|apply (near_sub b64 b64 pi64 l fine_64 _ _ _ _ _ _ (q * g + 2 * (W * g)) NX N1)]; [|lra|unfold big; lra].
    fold u. lra. }
  (* p0 - p1 *)
  assert (A2 : nd (nsub p0 p1) (P0 - P1) ((301 / 100) * (W * g))).
  { eapply near_weaken; [|apply (near_sub b64 b64 pi64 l fine_64 _ _ _ _ _ _ (g + 2 * (W * g)) N0 N1)]; [|lra|unfold big; lra].
    fold u. lra. }
  assert (A3 : nd (nmul (nz 1) (nsub p0 p1)) (P0 - P1) ((41 / 10) * (W * g))).
  { pose proof (near_nz b64 b64 pi64 l fine_64 1 ltac:(lia)) as O.
    assert (MM : Rabs 1 <= 1) by (rewrite Rabs_R1; lra).
    pose proof (near_mul b64 b64 pi64 l fine_64 _ _ _ _ _ _ 1 g (g + (301 / 100) * (W * g)) O A2 MM ltac:(lra) ltac:(lra) ltac:(unfold big; lra)) as Q.
    rewrite Rmult_1_l in Q. eapply near_weaken; [|exact Q]. fold u. lra. }
  assert (NZ : P0 - P1 <> 0) by (intros Z; rewrite Z, Rabs_R0 in Eg; lra).
  assert (Q1 : Rabs ((X - P1) / (P0 - P1)) <= q).
  { unfold Rdiv. rewrite Rabs_mult, Rabs_inv, Eg. apply (Rmult_le_reg_r g); [lra|]. rewrite Rmult_assoc, Rinv_l, Rmult_1_r by lra. lra. }
  assert (GB : ((301 / 100) * (K * g) + q * ((41 / 10) * (W * g))) / (g * (1 - / 10000)) <= (712 / 100) * K).
  { replace ((301 / 100) * (K * g) + q * ((41 / 10) * (W * g))) with ((711 / 100) * K * g) by (unfold K; field).
    apply (Rmult_le_reg_r (g * (1 - / 10000))); [apply Rmult_lt_0_compat; lra|]. unfold Rdiv. rewrite Rmult_assoc, Rinv_l, Rmult_1_r; [|apply Rgt_not_eq, Rmult_lt_0_compat; lra].
    replace ((712 / 100) * K * (g * (1 - / 10000))) with (((712 / 100) * (1 - / 10000)) * (K * g)) by ring. replace ((711 / 100) * K * g) with ((711 / 100) * (K * g)) by ring.
    lra. }
  assert (A4 : nd (ndiv (nsub x p1) (nmul (nz 1) (nsub p0 p1))) ((X - P1) / (P0 - P1)) ((82 / 10) * K)).
  { eapply near_weaken; [|apply (near_div b64 b64 pi64 l fine_64 _ _ _ _ _ _ q (g * (1 - / 10000)) (q + (712 / 100) * K) A1 A3 Q1)].
    - fold u. assert (u * K <= / 1000 * K) by (apply Rmult_le_compat_r; lra). lra.
    - lra.
    - apply Rmult_lt_0_compat; lra.
    - lra.
    - unfold big. lra. }
  assert (uD : u * D <= W * D) by (apply Rmult_le_compat_r; lra).
  assert (KD : 0 < K * D) by (apply Rmult_lt_0_compat; lra).
  assert (WD : W * D <= K * D) by (apply Rmult_le_compat_r; lra).
  assert (uD0 : 0 < u * D) by (apply Rmult_lt_0_compat; lra).
  assert (D0 : D <= q * D) by (rewrite <- (Rmult_1_l D) at 1; apply Rmult_le_compat_r; lra).
  assert (ue : u * e <= u * (D / 1000)) by (apply Rmult_le_compat_l; lra).
  assert (A5 : nd (nsub d0 d1) (a0 - a1) (2 * e + (101 / 100) * (u * D))).
  { eapply near_weaken; [|apply (near_sub b64 b64 pi64 l fine_64 _ _ _ _ _ _ (D + 2 * e) M0 M1)]; [|lra|unfold big; lra]. fold u. lra. }
  set (E5 := 2 * e + (101 / 100) * (u * D)) in *.
  assert (qe : q * e <= q * (D / 1000)) by (apply Rmult_le_compat_l; lra).
  assert (qe0 : e <= q * e) by (rewrite <- (Rmult_1_l e) at 1; apply Rmult_le_compat_r; lra).
  assert (uqD : u * (q * D) <= K * D) by (rewrite <- Rmult_assoc; apply Rmult_le_compat_r; lra).
  assert (T5 : q * E5 + D * ((82 / 10) * K) + (82 / 10) * K * E5 <= (20001 / 10000) * (q * e) + (923 / 100) * (K * D)).
  { unfold E5. assert (K * e <= / 1000000 * e) by (apply Rmult_le_compat_r; lra).
    assert (K * (u * D) <= / 1000000 * (u * D)) by (apply Rmult_le_compat_r; lra).
    assert (q * (u * D) <= K * D) by (replace (q * (u * D)) with (u * (q * D)) by ring; lra).
    lra. }
  assert (KDs : K * D <= / 1000000 * D) by (apply Rmult_le_compat_r; lra).
  assert (A6 : nd (nmul (ndiv (nsub x p1) (nmul (nz 1) (nsub p0 p1))) (nsub d0 d1)) ((X - P1) / (P0 - P1) * (a0 - a1)) ((20001 / 10000) * (q * e) + (105 / 10) * (K * D))).
  { eapply near_weaken; [|apply (near_mul b64 b64 pi64 l fine_64 _ _ _ _ _ _ q D ((101 / 100) * (q * D)) A4 A5 Q1 HDa)]; [|lra|unfold big; lra]. fold u. lra. }
  replace (straight_line P0 a0 P1 a1 X) with (a1 + (X - P1) / (P0 - P1) * (a0 - a1)).
  2:{ unfold straight_line. field. lra. }
  assert (B0 : 0 <= B) by (pose proof (Rabs_pos a1); lra).
  assert (BQ : Rabs ((X - P1) / (P0 - P1) * (a0 - a1)) <= q * D) by (rewrite Rabs_mult; apply Rmult_le_compat; auto using Rabs_pos).
  pose proof (Rabs_triang a1 ((X - P1) / (P0 - P1) * (a0 - a1))) as TR.
  unfold lin_at.
  eapply near_weaken; [|apply (near_add b64 b64 pi64 l fine_64 _ _ _ _ _ _ (B + (11 / 10) * (q * D)) M1 A6)]; [|lra|unfold big; lra].
  fold u. replace (15 * W * q * D) with (15 * (K * D)) by (unfold K; field). lra.
Qed.
End Element.

(** ** lists *)
Lemma Forall2_same {A B C} (Q : B -> C -> Prop) (f : A -> B) (g : A -> C) (l : list A) :
  (forall a, In a l -> Q (f a) (g a)) -> Forall2 Q (map f l) (map g l).
Proof. induction l as [|a l IH]; intros H; simpl; constructor; [apply H; now left|apply IH; intros; apply H; now right]. Qed.
Lemma Forall2_at {A B} (Q : A -> B -> Prop) l l' i d d' : Forall2 Q l l' -> (i < length l')%nat -> Q (nth i l d) (nth i l' d').
Proof. intros F. revert i. induction F; intros i Hi; [simpl in Hi; lia|]. destruct i; [assumption|]. apply IHF. simpl in Hi. lia. Qed.
Lemma Forall2_len {A B} (Q : A -> B -> Prop) l l' : Forall2 Q l l' -> length l = length l'.
Proof. induction 1; simpl; congruence. Qed.
Lemma Forall2_cat {A B C} (Q : B -> C -> Prop) (f : A -> list B) (g : A -> list C) (l : list A) :
  (forall a, In a l -> Forall2 Q (f a) (g a)) -> Forall2 Q (concat (map f l)) (concat (map g l)).
Proof.
  induction l as [|a l IH]; intros H; simpl; [constructor|]. apply Forall2_app; [apply H; now left|apply IH; intros; apply H; now right].
Qed.
Lemma Forall2_from_nth {A B} (Q : A -> B -> Prop) l l' d d' : length l = length l' ->
  (forall i, (i < length l')%nat -> Q (nth i l d) (nth i l' d')) -> Forall2 Q l l'.
Proof.
  revert l'. induction l as [|a l IH]; intros [|b l'] L H; simpl in L; try lia; constructor.
  - apply (H 0%nat). simpl. lia.
  - apply IH; [lia|]. intros i Hi. apply (H (S i)). simpl. lia.
Qed.

Section Rows.
Variable l : libm.
#[local] Existing Instance RT.
Notation nd := (near b64).
Notation lin64 := (@lin_at _ (F64 l)).
Notation linR := (@lin_at _ RT).

Lemma lin_line p0 p1 x d0 d1 : p0 <> p1 -> linR p0 p1 x d0 d1 = straight_line p0 d0 p1 d1 x.
Proof. intros H. unfold lin_at, straight_line. rt. field. lra. Qed.

(** errors: of the positions, of the tie data after the rows and after the columns *)
Definition wpos : R := 3 / 100000000000.
Definition efill1 : R := 65 / 1000000.
Definition efill2 : R := / 2000.

(** a row of doubles near a row of reals of moderate size and slope *)
Definition row_ok (w : nat) (e B D : R) (r' : list (option R)) (r : list R) : Prop :=
  length r' = w /\ length r = w /\
  (forall j, (j < w)%nat -> nd (nth j r' (Some 0)) (nth j r 0) e /\ Rabs (nth j r 0) <= B) /\
  (forall j, (S j < w)%nat -> Rabs (nth j r 0 - nth (S j) r 0) <= D).

Lemma row_weaken w e B D e' B' D' r' r : e <= e' -> B <= B' -> D <= D' -> row_ok w e B D r' r -> row_ok w e' B' D' r' r.
Proof.
  intros He HB HD (L1 & L2 & H1 & H2). split; [exact L1|]. split; [exact L2|]. split.
  - intros j Hj. destruct (H1 j Hj) as [X Y]. split; [eapply near_weaken; [exact He|exact X]|lra].
  - intros j Hj. specialize (H2 j Hj). lra.
Qed.

(** positions of a line and of the point where it is evaluated *)
Definition pos_ok (p0 p1 x : option R) (P0 P1 X : R) : Prop :=
  nd p0 P0 wpos /\ nd p1 P1 wpos /\ nd x X wpos /\ Rabs (P0 - P1) = 1 /\ Rabs (X - P1) <= 7 / 5.

Lemma pos_lin p0 p1 x P0 P1 X d0 d1 a0 a1 e B D : pos_ok p0 p1 x P0 P1 X -> nd d0 a0 e -> nd d1 a1 e ->
  0 <= e <= D / 1000 -> / 100000 <= D -> D <= 10000000 -> Rabs a1 <= B -> B <= 100000000 -> Rabs (a0 - a1) <= D ->
  nd (lin64 p0 p1 x d0 d1) (linR P0 P1 X a0 a1) (e * (1 + 2001 / 1000 * (7 / 5)) + 15 * wpos * (7 / 5) * D + eps b64 * B).
Proof.
  intros (N0 & N1 & NX & G & Q) M0 M1 He HD HD' HB HB' Hd.
  rewrite lin_line by (intros ->; rewrite Rminus_diag_eq, Rabs_R0 in G by reflexivity; lra).
  apply (lin_near l wpos 1 (7 / 5)); auto; rewrite ?Rmult_1_r; auto; unfold wpos; try lra.
Qed.

Lemma rows_lin w p0 p1 x P0 P1 X a' a b' b : pos_ok p0 p1 x P0 P1 X ->
  row_ok w 0 10000000 100000 a' a -> row_ok w 0 10000000 100000 b' b ->
  (forall j, (j < w)%nat -> Rabs (nth j a 0 - nth j b 0) <= 100000) ->
  row_ok w efill1 10200000 380000 (map2 (lin64 p0 p1 x) a' b') (map2 (linR P0 P1 X) a b).
Proof.
  intros HP (La' & La & A1 & A2) (Lb' & Lb & B1 & B2) HD.
  split; [rewrite map2_length; lia|]. split; [rewrite map2_length; lia|].
  assert (NE : P0 <> P1) by (destruct HP as (_ & _ & _ & G & _); intros ->; rewrite Rminus_diag_eq, Rabs_R0 in G by reflexivity; lra).
  set (s := (X - P1) / (P0 - P1)).
  assert (SB : -7 / 5 <= s <= 7 / 5).
  { destruct HP as (_ & _ & _ & G & Q). apply Rabs_le_inv in Q || idtac. assert (Rabs s <= 7 / 5).
    { unfold s, Rdiv. rewrite Rabs_mult, Rabs_inv, G, Rinv_1, Rmult_1_r. apply Rabs_le. lra. }
    apply Rabs_le_inv in H. lra. }
  assert (V : forall j, (j < w)%nat -> nth j (map2 (linR P0 P1 X) a b) 0 = nth j b 0 + s * (nth j a 0 - nth j b 0)).
  { intros j Hj. rewrite (nth_map2 _ _ _ j 0 0) by lia. rewrite lin_line by exact NE. unfold straight_line, s. field. lra. }
  split.
  - intros j Hj. rewrite V by exact Hj. destruct (A1 j Hj) as [Na Ba], (B1 j Hj) as [Nb Bb]. specialize (HD j Hj). split.
    + rewrite <- V by exact Hj.
      rewrite (nth_map2 _ _ _ j (Some 0) (Some 0)), (nth_map2 _ _ _ j 0 0) by lia.
      eapply near_weaken; [|apply (pos_lin _ _ _ _ _ _ _ _ _ _ 0 10000000 100000 HP Na Nb)]; try lra.
      pose proof eps_64. unfold wpos, efill1. lra.
    + apply Rabs_le_inv in Bb. apply Rabs_le_inv in HD.
      assert (Rabs (s * (nth j a 0 - nth j b 0)) <= 7 / 5 * 100000).
      { rewrite Rabs_mult. apply Rmult_le_compat; auto using Rabs_pos; apply Rabs_le; lra. }
      apply Rabs_le_inv in H. apply Rabs_le. lra.
  - intros j Hj. rewrite !V by lia. specialize (A2 j Hj). specialize (B2 j Hj).
    replace (nth j b 0 + s * (nth j a 0 - nth j b 0) - (nth (S j) b 0 + s * (nth (S j) a 0 - nth (S j) b 0)))
      with ((1 - s) * (nth j b 0 - nth (S j) b 0) + s * (nth j a 0 - nth (S j) a 0)) by ring.
    eapply Rle_trans; [apply Rabs_triang|]. rewrite !Rabs_mult.
    assert (Rabs (1 - s) * Rabs (nth j b 0 - nth (S j) b 0) <= 12 / 5 * 100000) by (apply Rmult_le_compat; auto using Rabs_pos; apply Rabs_le; lra).
    assert (Rabs s * Rabs (nth j a 0 - nth (S j) a 0) <= 7 / 5 * 100000) by (apply Rmult_le_compat; auto using Rabs_pos; apply Rabs_le; lra).
    lra.
Qed.

(** ** columns *)
Definition cols_ok (cols' hcols' : list (option R)) (cols hcols : list R) : Prop :=
  Forall2 (fun x t => nd x t wpos) cols' cols /\ Forall2 (fun x t => nd x t wpos) hcols' hcols /\
  (2 <= length cols)%nat /\ hcols <> [] /\
  Rabs (nth 0 cols 0 - nth 1 cols 0) = 1 /\ Rabs (hd 0 hcols - nth 1 cols 0) <= 7 / 5 /\
  Rabs (nth (length cols - 2) cols 0 - nth (length cols - 1) cols 0) = 1 /\ Rabs (last hcols 0 - nth (length cols - 1) cols 0) <= 7 / 5 /\
  @gfirst _ (F64 l) cols' hcols' = @gfirst _ RT cols hcols /\ @glast _ (F64 l) cols' hcols' = @glast _ RT cols hcols.

Lemma grow_near cols' hcols' cols hcols r' r : cols_ok cols' hcols' cols hcols ->
  row_ok (length cols) efill1 10200000 380000 r' r ->
  Forall2 (fun x t => nd x t efill2) (@grow _ (F64 l) cols' hcols' r') (@grow _ RT cols hcols r).
Proof.
  intros (F1 & F2 & Lc & Hne & G0 & Q0 & G1 & Q1 & EF & EL) (L' & L & V & D).
  pose proof (Forall2_len _ _ _ F1) as LC. pose proof (Forall2_len _ _ _ F2) as LHC.
  assert (LH : (1 <= length hcols)%nat) by (destruct hcols; [congruence|simpl; lia]).
  assert (ST : forall i j p0 p1 x P0 P1 X, pos_ok p0 p1 x P0 P1 X -> (j < length cols)%nat -> j = S i ->
    nd (lin64 p0 p1 x (nth i r' (@nz _ (F64 l) 0)) (nth j r' (@nz _ (F64 l) 0))) (linR P0 P1 X (nth i r 0) (nth j r 0)) efill2).
  { intros i j p0 p1 x P0 P1 X HP Hi ->. rewrite !(nth_indep r' (@nz _ (F64 l) 0) (Some 0)) by lia.
    destruct (V i ltac:(lia)) as [Ni Bi]. destruct (V (S i) ltac:(lia)) as [Nj Bj]. specialize (D i Hi).
    eapply near_weaken; [|apply (pos_lin _ _ _ _ _ _ _ _ _ _ efill1 10200000 380000 HP Ni Nj)]; try (unfold efill1; lra); try lra.
    pose proof eps_64. unfold wpos, efill1, efill2. lra. }
  unfold grow. rewrite EF, EL. apply Forall2_app; [|apply Forall2_app].
  - destruct (@gfirst _ RT cols hcols); constructor; [|constructor]. apply ST; [|lia|reflexivity].
    split; [apply (Forall2_at _ _ _ 0 _ _ F1); lia|]. split; [apply (Forall2_at _ _ _ 1 _ _ F1); lia|].
    split; [rewrite !hd_nth; apply (Forall2_at _ _ _ 0 _ _ F2); lia|]. split; [exact G0|exact Q0].
  - apply (Forall2_from_nth _ _ _ (Some 0) 0); [lia|]. intros i Hi. eapply near_weaken; [|apply V; lia]. unfold efill1, efill2. lra.
  - destruct (@glast _ RT cols hcols); constructor; [|constructor]. rewrite L', L, LC. apply ST; [|lia|lia].
    split; [apply (Forall2_at _ _ _ _ _ _ F1); lia|]. split; [apply (Forall2_at _ _ _ _ _ _ F1); lia|].
    split; [rewrite !last_nth, LHC; apply (Forall2_at _ _ _ _ _ _ F2); lia|]. split; [exact G1|exact Q1].
Qed.
Lemma gcols_near cols' hcols' cols hcols : cols_ok cols' hcols' cols hcols ->
  Forall2 (fun x t => nd x t wpos) (@gcols _ (F64 l) cols' hcols') (@gcols _ RT cols hcols).
Proof.
  intros (F1 & F2 & Lc & Hne & G0 & Q0 & G1 & Q1 & EF & EL). pose proof (Forall2_len _ _ _ F2) as LHC.
  assert (LH : (1 <= length hcols)%nat) by (destruct hcols; [congruence|simpl; lia]).
  unfold gcols. rewrite EF, EL. apply Forall2_app; [|apply Forall2_app; [exact F1|]].
  - destruct (@gfirst _ RT cols hcols); constructor; [|constructor]. rewrite !hd_nth; apply (Forall2_at _ _ _ 0 _ _ F2); lia.
  - destruct (@glast _ RT cols hcols); constructor; [|constructor]. rewrite !last_nth, LHC; apply (Forall2_at _ _ _ _ _ _ F2); lia.
Qed.

(** ** the tie data of a scene: doubles of moderate size and slope *)
Definition moderate (n w : nat) (d : list (list R)) : Prop :=
  length d = n /\ Forall (fun r => length r = w) d /\
  (forall i j, (i < n)%nat -> (j < w)%nat -> fl b64 (nth j (nth i d []) 0) /\ Rabs (nth j (nth i d []) 0) <= 10000000) /\
  (forall i j, (S i < n)%nat -> (j < w)%nat -> Rabs (nth j (nth (S i) d []) 0 - nth j (nth i d []) 0) <= 100000) /\
  (forall i j, (i < n)%nat -> (S j < w)%nat -> Rabs (nth (S j) (nth i d []) 0 - nth j (nth i d []) 0) <= 100000).
Definition doubles64 (d : list (list R)) : list (list (option R)) := map (map Some) d.

Lemma moderate_row n w d i : moderate n w d -> (i < n)%nat -> row_ok w 0 10000000 100000 (nth i (doubles64 d) []) (nth i d []).
Proof.
  intros (L & W & V & _ & H) Hi. rewrite Forall_forall in W.
  assert (Li : length (nth i d []) = w) by (apply W, nth_In; lia).
  assert (E : nth i (doubles64 d) [] = map Some (nth i d [])) by (unfold doubles64; now rewrite (nth_map' _ d i []) by lia).
  rewrite E. split; [now rewrite map_length|]. split; [exact Li|]. split.
  - intros j Hj. rewrite (nth_map' Some _ j 0) by lia. destruct (V i j Hi Hj) as [F B]. split; [now apply near_0|exact B].
  - intros j Hj. rewrite Rabs_minus_sym. now apply H.
Qed.

Section Whole.
Variables (g m k : nat) (P' H' : list (option R)) (P H : list R) (cols' hcols' : list (option R)) (cols hcols : list R) (kx ky : Z).
Hypothesis Hg : (1 <= g)%nat.
Hypothesis Hm : (2 <= m)%nat.
Hypothesis Hk : (1 <= k)%nat.
Hypothesis LP : length P = (k * m)%nat.
Hypothesis LH : length H = (g * (k * m))%nat.
Hypothesis NP : Forall2 (fun x t => nd x t wpos) P' P.
Hypothesis NH : Forall2 (fun x t => nd x t wpos) H' H.
Hypothesis CO : cols_ok cols' hcols' cols hcols.
Hypothesis Pgap : forall i, (S i < k * m)%nat -> nth (S i) P 0 - nth i P 0 = 1.
Hypothesis Hin0 : forall c, (c < k)%nat -> Rabs (nth (g * m * c) H 0 - nth (c * m + 1) P 0) <= 7 / 5.
Hypothesis Hin1 : forall c, (c < k)%nat -> Rabs (nth (g * m * c + g * m - 1) H 0 - nth (c * m + m - 1) P 0) <= 7 / 5.
Hypothesis Win' : forall c, (c < k)%nat ->
  @window _ (F64 l) P' (@ndiv _ (F64 l) (@nz _ (F64 l) (Z.of_nat (g * m) * Z.of_nat c)) (@ndiv _ (F64 l) (@nz _ (F64 l) (Z.of_nat (g * (k * m)))) (@nz _ (F64 l) (Z.of_nat (k * m)))))
    (@ndiv _ (F64 l) (@nz _ (F64 l) (Z.of_nat (g * m) * Z.of_nat c + Z.of_nat (g * m))) (@ndiv _ (F64 l) (@nz _ (F64 l) (Z.of_nat (g * (k * m)))) (@nz _ (F64 l) (Z.of_nat (k * m))))) = seq (c * m) m.
Hypothesis Win : forall c, (c < k)%nat ->
  window P (nz (Z.of_nat (g * m) * Z.of_nat c) / (nz (Z.of_nat (g * (k * m))) / nz (Z.of_nat (k * m))))%num
     (nz (Z.of_nat (g * m) * Z.of_nat c + Z.of_nat (g * m)) / (nz (Z.of_nat (g * (k * m))) / nz (Z.of_nat (k * m))))%num = seq (c * m) m.

Lemma rows_pos c i j : (c < k)%nat -> (S i < k * m)%nat -> (j < g * (k * m))%nat -> Rabs (nth j H 0 - nth (S i) P 0) <= 7 / 5 ->
  pos_ok (nth i P' (@nz _ (F64 l) 0)) (nth (S i) P' (@nz _ (F64 l) 0)) (nth j H' (@nz _ (F64 l) 0)) (nth i P 0) (nth (S i) P 0) (nth j H 0).
Proof using All.
  intros Hc Hi Hj Q. split; [apply (Forall2_at _ _ _ _ _ _ NP); lia|]. split; [apply (Forall2_at _ _ _ _ _ _ NP); lia|].
  split; [apply (Forall2_at _ _ _ _ _ _ NH); lia|]. split; [|exact Q].
  specialize (Pgap i Hi). rewrite Rabs_minus_sym, Pgap. apply Rabs_R1.
Qed.

Lemma nth_block {A} (d : list A) c i dd : (i < m)%nat -> nth i (firstn m (skipn (c * m) d)) dd = nth (c * m + i) d dd.
Proof.
  intros Hi.
  assert (E : forall (t : list A) i m', (i < m')%nat -> nth i (firstn m' t) dd = nth i t dd).
  { clear. intros t. induction t as [|a t IH]; intros i m' H; [now rewrite firstn_nil|]. destruct m'; [lia|]. destruct i; [reflexivity|]. simpl. apply IH. lia. }
  rewrite E by exact Hi. clear E. generalize (c * m)%nat. intros a. revert d. induction a as [|a IH]; intros d; [reflexivity|].
  destruct d; [now destruct i|]. simpl. apply IH.
Qed.

Lemma filled_near w d : moderate (k * m) w d -> Forall2 (row_ok w efill1 10200000 380000) (@gfilled _ (F64 l) g m k P' H' (doubles64 d)) (@gfilled _ RT g m k P H d).
Proof using All.
  intros Md. pose proof Md as (Ld & Wd & Vd & Rd & Cd). unfold gfilled. apply Forall2_cat. intros c Hc. apply in_seq in Hc.
  assert (c < k)%nat by lia. assert (CM : (c * m + m <= k * m)%nat) by nia.
  assert (RW : forall i, (i < m)%nat -> row_ok w 0 10000000 100000 (nth i (firstn m (skipn (c * m) (doubles64 d))) []) (nth i (firstn m (skipn (c * m) d)) [])).
  { intros i Hi. rewrite !nth_block by exact Hi. apply (moderate_row (k * m)); [exact Md|lia]. }
  assert (RD : forall i j, (S i < m)%nat -> (j < w)%nat ->
    Rabs (nth j (nth i (firstn m (skipn (c * m) d)) []) 0 - nth j (nth (S i) (firstn m (skipn (c * m) d)) []) 0) <= 100000).
  { intros i j Hi Hj. rewrite !nth_block by lia. rewrite Rabs_minus_sym. replace (c * m + S i)%nat with (S (c * m + i)) by lia. apply Rd; lia. }
  unfold gblock. constructor; [|apply Forall2_app; [|constructor; [|constructor]]].
  - apply rows_lin; [| apply RW; lia|apply RW; lia|intros j Hj; apply RD; lia].
    replace (c * m + 1)%nat with (S (c * m)) by lia. apply (rows_pos c); [lia|lia|nia|].
    replace (S (c * m)) with (c * m + 1)%nat by lia. now apply Hin0.
  - apply (Forall2_from_nth _ _ _ [] []).
    + unfold doubles64. rewrite !firstn_length, !skipn_length, map_length. reflexivity.
    + intros i Hi. rewrite firstn_length, skipn_length in Hi. eapply row_weaken; [| | |apply RW]; [unfold efill1; lra|lra|lra|lia].
  - apply rows_lin; [|apply RW; lia|apply RW; lia|].
    + replace (c * m + m - 1)%nat with (S (c * m + m - 2)) by lia. apply (rows_pos c); [lia|lia|nia|].
      replace (S (c * m + m - 2)) with (c * m + m - 1)%nat by lia. now apply Hin1.
    + intros j Hj. replace (m - 1)%nat with (S (m - 2)) by lia. apply RD; lia.
Qed.


Lemma fill_near ties : Forall (moderate (k * m) (length cols)) ties ->
  exists sf sr,
    @fill_borders _ (F64 l) [DimY; DimX] (@gst _ g m P' H' cols' hcols' kx ky (map (fun _ => []) ties) (map doubles64 ties)) = (Ok tt, sf) /\
    @fill_borders _ RT [DimY; DimX] (@gst _ g m P H cols hcols kx ky (map (fun _ => []) ties) ties) = (Ok tt, sr) /\
    Forall2 (Forall2 (Forall2 (fun x t => nd x t efill2))) (tie_data sf) (tie_data sr) /\
    Forall2 (fun x t => nd x t wpos) (row_indices sf) (row_indices sr) /\
    Forall2 (fun x t => nd x t wpos) (col_indices sf) (col_indices sr).
Proof using All.
  intros HT. pose proof CO as (F1 & F2 & Lc & Hne & _).
  pose proof (Forall2_len _ _ _ F1) as LC. pose proof (Forall2_len _ _ _ F2) as LHC.
  pose proof (Forall2_len _ _ _ NP) as LP'. pose proof (Forall2_len _ _ _ NH) as LH'.
  do 2 eexists. split; [|split].
  - apply (gfill g m k); auto; try lia.
    + intros E. rewrite E in LHC. destruct hcols; [congruence|discriminate].
    + apply Forall_map. eapply Forall_impl; [|exact HT]. intros d (Ld & Wd & _). unfold doubles64. rewrite map_length. split; [exact Ld|].
      apply Forall_map. eapply Forall_impl; [|exact Wd]. cbv beta. intros r Hr. rewrite map_length. lia.
  - apply (gfill g m k); auto; try lia. eapply Forall_impl; [|exact HT]. intros d (Ld & Wd & _). auto.
  - cbn [tie_data row_indices col_indices]. split; [|split].
    + rewrite !map_map. apply Forall2_same. intros d Hd. rewrite Forall_forall in HT. specialize (HT d Hd).
      pose proof (filled_near _ d HT) as FN. clear - FN CO. induction FN; simpl; constructor; [now apply grow_near|assumption].
    + apply Forall2_cat. intros c Hc. apply in_seq in Hc. assert (CM : (c * m + m <= k * m)%nat) by nia. unfold gpos.
      constructor; [apply (Forall2_at _ _ _ _ _ _ NH); nia|]. apply Forall2_app; [|constructor; [apply (Forall2_at _ _ _ _ _ _ NH); nia|constructor]].
      apply Forall2_same. intros i Hi. apply in_seq in Hi. apply (Forall2_at _ _ _ _ _ _ NP). lia.
    + now apply gcols_near.
Qed.
End Whole.
End Rows.
