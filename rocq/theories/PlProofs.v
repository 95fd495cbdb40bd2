(** Piecewise linear evaluation (degree-1 spline) over the reals. *)
From Coq Require Import ZArith List Lia Bool Reals Lra.
From Verif Require Import Base Num Splits Interp.
Import ListNotations.
Open Scope R_scope.
#[local] Existing Instance RT.

Ltac rt := cbn [nz nadd nsub nmul ndiv nltb nleb neqb nst RT] in *.

Lemma strict_inc_cons a b l : strict_inc (a :: b :: l) = true <-> a < b /\ strict_inc (b :: l) = true.
Proof. cbn [strict_inc]. rt. rewrite andb_true_iff, Rltb_true. reflexivity. Qed.

Lemma weak_inc_cons a b l : weak_inc (a :: b :: l) = true <-> a <= b /\ weak_inc (b :: l) = true.
Proof. cbn [weak_inc]. rt. rewrite andb_true_iff, Rleb_true. reflexivity. Qed.

Lemma strict_inc_step l : strict_inc l = true <->
  (forall i, (S i < length l)%nat -> nth i l 0 < nth (S i) l 0).
Proof.
  induction l as [|a [|b l] IH].
  - split; [intros _ i Hi; simpl in Hi; lia|reflexivity].
  - split; [intros _ i Hi; simpl in Hi; lia|reflexivity].
  - rewrite strict_inc_cons, IH. split.
    + intros [H1 H2] [|i] Hi; [exact H1|]. cbn [nth]. apply H2. simpl in *. lia.
    + intros H. split; [apply (H 0%nat); simpl; lia|]. intros i Hi. apply (H (S i)). simpl in *. lia.
Qed.

Lemma weak_inc_step l : weak_inc l = true <->
  (forall i, (S i < length l)%nat -> nth i l 0 <= nth (S i) l 0).
Proof.
  induction l as [|a [|b l] IH].
  - split; [intros _ i Hi; simpl in Hi; lia|reflexivity].
  - split; [intros _ i Hi; simpl in Hi; lia|reflexivity].
  - rewrite weak_inc_cons, IH. split.
    + intros [H1 H2] [|i] Hi; [exact H1|]. cbn [nth]. apply H2. simpl in *. lia.
    + intros H. split; [apply (H 0%nat); simpl; lia|]. intros i Hi. apply (H (S i)). simpl in *. lia.
Qed.

Lemma strict_inc_weak l : strict_inc l = true -> weak_inc l = true.
Proof. rewrite strict_inc_step, weak_inc_step. intros H i Hi. left. auto. Qed.

Lemma strict_inc_lt l i j : strict_inc l = true -> (i < j)%nat -> (j < length l)%nat -> nth i l 0 < nth j l 0.
Proof.
  intros H Hij. rewrite strict_inc_step in H. induction Hij as [|j Hij IH]; intros Hj; [auto|].
  apply Rlt_trans with (nth j l 0); [apply IH; lia|apply H; lia].
Qed.

Lemma strict_inc_le l i j : strict_inc l = true -> (i <= j)%nat -> (j < length l)%nat -> nth i l 0 <= nth j l 0.
Proof.
  intros H Hij Hj. destruct (Nat.eq_dec i j) as [->|]; [lra|].
  left. apply strict_inc_lt; auto; lia.
Qed.

Lemma seg_left k0 v0 k1 v1 : k0 < k1 -> seg k0 v0 k1 v1 k0 = v0.
Proof. intros. unfold seg. rt. field. lra. Qed.
Lemma seg_right k0 v0 k1 v1 : k0 < k1 -> seg k0 v0 k1 v1 k1 = v1.
Proof. intros. unfold seg. rt. field. lra. Qed.

Lemma pl_find_first k0 k1 ks v0 v1 vs :
  k0 < k1 -> pl_find (k0 :: k1 :: ks) (v0 :: v1 :: vs) k0 = v0.
Proof.
  intros H. cbn [pl_find]. destruct ks.
  - now apply seg_left.
  - rt. replace (Rltb k0 k1) with true by (symmetry; now apply Rltb_true). now apply seg_left.
Qed.

(** the value on the i-th interval, both ends included *)
Lemma pl_find_seg : forall i ks vs x,
  strict_inc ks = true -> length vs = length ks -> (S i < length ks)%nat ->
  nth i ks 0 <= x <= nth (S i) ks 0 ->
  pl_find ks vs x = seg (nth i ks 0) (nth i vs 0) (nth (S i) ks 0) (nth (S i) vs 0) x.
Proof.
  induction i as [|i IH]; intros ks vs x Hs Hl Hi Hx.
  - destruct ks as [|k0 [|k1 ks]]; [simpl in Hi; lia|simpl in Hi; lia|].
    destruct vs as [|v0 [|v1 vs]]; [discriminate|discriminate|].
    cbn [nth] in *. apply strict_inc_cons in Hs as [H01 Hs].
    destruct ks as [|k2 ks]; [reflexivity|]. cbn [pl_find]. rt.
    destruct (Rltb x k1) eqn:E; [reflexivity|]. apply Rltb_false in E.
    assert (x = k1) by lra. subst x. apply strict_inc_cons in Hs as [H12 Hs].
    rewrite seg_right by exact H01.
    destruct vs as [|v2 vs]; [discriminate|]. now apply pl_find_first.
  - destruct ks as [|k0 [|k1 ks]]; [simpl in Hi; lia|simpl in Hi; lia|].
    destruct vs as [|v0 [|v1 vs]]; [discriminate|discriminate|].
    destruct ks as [|k2 ks]; [simpl in Hi; lia|].
    pose proof Hs as Hs'. apply strict_inc_cons in Hs as [H01 Hs].
    assert (E : Rltb x k1 = false).
    { apply Rltb_false. apply Rle_trans with (nth (S i) (k0 :: k1 :: k2 :: ks) 0); [|lra].
      apply (strict_inc_le (k0 :: k1 :: k2 :: ks) 1 (S i)); auto; lia. }
    cbn [pl_find]. rt. rewrite E.
    change (pl_find (k1 :: k2 :: ks) (v1 :: vs) x =
      seg (nth i (k1 :: k2 :: ks) 0) (nth i (v1 :: vs) 0) (nth (S i) (k1 :: k2 :: ks) 0) (nth (S i) (v1 :: vs) 0) x).
    apply IH; auto; simpl in *; lia.
Qed.

Lemma locate : forall ks x, strict_inc ks = true -> (2 <= length ks)%nat ->
  hd 0 ks <= x <= last ks 0 ->
  exists i, (S i < length ks)%nat /\ nth i ks 0 <= x <= nth (S i) ks 0.
Proof.
  induction ks as [|k0 [|k1 ks] IH]; intros x Hs Hl Hx; [simpl in Hl; lia|simpl in Hl; lia|].
  destruct (Rle_lt_dec x k1) as [H|H].
  - exists 0%nat. simpl in *. split; [lia|lra].
  - destruct ks as [|k2 ks].
    + simpl in *. lra.
    + apply strict_inc_cons in Hs as [H01 Hs].
      destruct (IH x Hs) as (i & Hi & Hx'); [simpl; lia|simpl in *; lra|].
      exists (S i). split; [simpl in *; lia|exact Hx'].
Qed.

Lemma last_nth {A} (l : list A) d : last l d = nth (length l - 1) l d.
Proof.
  induction l as [|a [|b l] IH]; [reflexivity|reflexivity|].
  cbn [length] in *. replace (S (S (length l)) - 1)%nat with (S (S (length l) - 1)) by lia.
  exact IH.
Qed.
Lemma hd_nth {A} (l : list A) d : hd d l = nth 0 l d.
Proof. destruct l; reflexivity. Qed.

Lemma clamp_id lo hi x : lo <= x <= hi -> clamp lo hi x = x.
Proof.
  intros H. unfold clamp. rt.
  destruct (Rltb x lo) eqn:E; [apply Rltb_true in E; lra|].
  destruct (Rltb hi x) eqn:E2; [apply Rltb_true in E2; lra|reflexivity].
Qed.

Lemma pl_eval_seg i ks vs x :
  strict_inc ks = true -> length vs = length ks -> (S i < length ks)%nat ->
  nth i ks 0 <= x <= nth (S i) ks 0 ->
  pl_eval ks vs x = seg (nth i ks 0) (nth i vs 0) (nth (S i) ks 0) (nth (S i) vs 0) x.
Proof.
  intros Hs Hl Hi Hx. unfold pl_eval. rt. rewrite clamp_id.
  - now apply pl_find_seg.
  - rewrite hd_nth, last_nth. split.
    + apply Rle_trans with (nth i ks 0); [|lra]. apply strict_inc_le; auto; lia.
    + apply Rle_trans with (nth (S i) ks 0); [lra|]. apply strict_inc_le; auto; lia.
Qed.

Lemma pl_eval_knot i ks vs :
  strict_inc ks = true -> length vs = length ks -> (2 <= length ks)%nat -> (i < length ks)%nat ->
  pl_eval ks vs (nth i ks 0) = nth i vs 0.
Proof.
  intros Hs Hl H2 Hi. destruct (Nat.eq_dec (S i) (length ks)) as [E|E].
  - destruct i as [|i]; [lia|].
    rewrite (pl_eval_seg i ks vs _ Hs Hl); [apply seg_right; apply strict_inc_lt; auto; lia|lia|].
    split; [apply strict_inc_le; auto; lia|apply Rle_refl].
  - rewrite (pl_eval_seg i ks vs _ Hs Hl); [apply seg_left; apply strict_inc_lt; auto; lia|lia|].
    split; [apply Rle_refl|apply strict_inc_le; auto; lia].
Qed.

(** in the middle of a longer list of knots *)
Lemma pl_eval_middle A B C vA vB vC x :
  strict_inc (A ++ B ++ C) = true ->
  length vA = length A -> length vB = length B -> length vC = length C ->
  strict_inc B = true -> (2 <= length B)%nat -> hd 0 B <= x <= last B 0 ->
  pl_eval (A ++ B ++ C) (vA ++ vB ++ vC) x = pl_eval B vB x.
Proof.
  intros Hs HA HB HC HsB H2 Hx.
  destruct (locate B x HsB H2 Hx) as (i & Hi & Hxi).
  assert (N1 : forall j, (j < length B)%nat -> nth (length A + j) (A ++ B ++ C) 0 = nth j B 0).
  { intros j Hj. rewrite app_nth2_plus, app_nth1 by lia. reflexivity. }
  assert (N2 : forall j, (j < length B)%nat -> nth (length A + j) (vA ++ vB ++ vC) 0 = nth j vB 0).
  { intros j Hj. rewrite <- HA, app_nth2_plus, app_nth1 by lia. reflexivity. }
  rewrite (pl_eval_seg (length A + i) (A ++ B ++ C)); auto.
  - rewrite (pl_eval_seg i B) by auto.
    replace (S (length A + i)) with (length A + S i)%nat by lia.
    rewrite !N1, !N2 by lia. reflexivity.
  - rewrite !app_length. lia.
  - rewrite !app_length. lia.
  - replace (S (length A + i)) with (length A + S i)%nat by lia. rewrite !N1 by lia. exact Hxi.
Qed.

(** translation of knots and argument *)
Lemma Rltb_shift a b t : Rltb (a + t) (b + t) = Rltb a b.
Proof.
  destruct (Rltb a b) eqn:E; [apply Rltb_true in E; apply Rltb_true; lra|
    apply Rltb_false in E; apply Rltb_false; lra].
Qed.

Lemma seg_shift k0 v0 k1 v1 x t : seg (k0 + t) v0 (k1 + t) v1 (x + t) = seg k0 v0 k1 v1 x.
Proof.
  unfold seg. rt.
  replace (k1 + t - (x + t)) with (k1 - x) by ring.
  replace (k1 + t - (k0 + t)) with (k1 - k0) by ring.
  replace (x + t - (k0 + t)) with (x - k0) by ring. reflexivity.
Qed.

Lemma pl_find_shift ks : forall vs x t, pl_find (map (fun k => k + t) ks) vs (x + t) = pl_find ks vs x.
Proof.
  induction ks as [|k0 [|k1 ks] IH]; intros vs x t; [reflexivity|destruct vs; reflexivity|].
  destruct vs as [|v0 [|v1 vs]]; [reflexivity|destruct ks; reflexivity|].
  specialize (IH (v1 :: vs) x t).
  destruct ks as [|k2 ks].
  - cbn [map pl_find]. apply seg_shift.
  - cbn [map pl_find] in *. rt. rewrite Rltb_shift, seg_shift. destruct (Rltb x k1); [reflexivity|exact IH].
Qed.

Lemma pl_eval_shift ks vs x t : ks <> [] ->
  pl_eval (map (fun k => k + t) ks) vs (x + t) = pl_eval ks vs x.
Proof.
  intros Hne. unfold pl_eval. rewrite <- (pl_find_shift ks vs _ t). f_equal.
  assert (E1 : hd (nz 0) (map (fun k => k + t) ks) = hd (nz 0) ks + t).
  { destruct ks; [congruence|reflexivity]. }
  assert (E2 : last (map (fun k => k + t) ks) (nz 0) = last ks (nz 0) + t).
  { clear E1. induction ks as [|a [|b ks] IH]; [congruence|reflexivity|].
    change (last (map (fun k => k + t) (b :: ks)) (nz 0) = last (b :: ks) (nz 0) + t). apply IH. discriminate. }
  rewrite E1, E2. unfold clamp. rt. rewrite !Rltb_shift.
  destruct (Rltb x (hd 0 ks)); [reflexivity|]. destruct (Rltb (last ks 0) x); reflexivity.
Qed.

Lemma strict_inc_shift ks t : strict_inc (map (fun k => k + t) ks) = strict_inc ks.
Proof.
  induction ks as [|k0 [|k1 ks] IH]; [reflexivity|reflexivity|].
  cbn [map strict_inc] in *. rt. rewrite Rltb_shift, IH. reflexivity.
Qed.

Lemma strict_inc_app l1 l2 :
  strict_inc l1 = true -> strict_inc l2 = true ->
  (l1 <> [] -> l2 <> [] -> last l1 0 < hd 0 l2) -> strict_inc (l1 ++ l2) = true.
Proof.
  intros H1 H2 H. induction l1 as [|a [|b l1] IH].
  - exact H2.
  - destruct l2 as [|c l2]; [reflexivity|]. apply strict_inc_cons. split; [|exact H2].
    apply H; discriminate.
  - apply strict_inc_cons in H1 as [Hab H1]. cbn [app]. apply strict_inc_cons. split; [exact Hab|].
    apply IH; auto. intros _ Hl. apply H; [discriminate|exact Hl].
Qed.
