(** Simple MODIS interpolation over the reals: the closed form is the piecewise linear extension in both directions. *)
From Coq Require Import ZArith List Bool Lia Reals Lra.
From Verif Require Import Base Num Geo Mem Modis ModisProofs SimpleModis SimpleModisProofs.
Import ListNotations.
Open Scope Z_scope.

(** Specification: the continuous function that is linear on [c, c+1] for 0 <= c <= n-2, equals v at integers 0..n-1, and is
    continued by the first and the last of these pieces. *)
Definition pwl (n : Z) (v : Z -> R) (x : R) : R :=
  let c := Z.max 0 (Z.min (Rfloor x) (n - 2)) in
  (v c + (x - IZR c) * (v (c + 1)%Z - v c))%R.

Lemma pwl_piece n v x c : 0 <= c <= n - 2 -> (c = 0 \/ (IZR c <= x)%R) -> (c = n - 2 \/ (x <= IZR c + 1)%R) ->
  pwl n v x = (v c + (x - IZR c) * (v (c + 1)%Z - v c))%R.
Proof.
  intros Hc H1 H2. unfold pwl. pose proof (Rfloor_spec x) as F.
  assert (A : c <= Rfloor x \/ c = 0).
  { destruct H1 as [H1|H1]; [auto|left]. assert (IZR c < IZR (Rfloor x + 1))%R by (rewrite plus_IZR; lra). apply lt_IZR in H. lia. }
  assert (B : Rfloor x <= c \/ c = n - 2 \/ x = (IZR c + 1)%R).
  { destruct H2 as [H2|H2]; [auto|]. destruct (Rle_lt_or_eq_dec _ _ H2) as [H3|H3]; [left|auto].
    assert (IZR (Rfloor x) < IZR (c + 1))%R by (rewrite plus_IZR; lra). apply lt_IZR in H. lia. }
  destruct (Z.eq_dec (Z.max 0 (Z.min (Rfloor x) (n - 2))) c) as [-> |Hne]; [reflexivity|].
  destruct B as [B|[B|B]]; [lia|lia|].
  assert (Fx : Rfloor x = c + 1) by (apply Rfloor_unique; rewrite plus_IZR; lra).
  rewrite Fx in *. replace (Z.max 0 (Z.min (c + 1) (n - 2))) with (c + 1) by lia.
  rewrite plus_IZR, B. ring.
Qed.
Lemma pwl_node n v c : 2 <= n -> 0 <= c <= n - 1 -> pwl n v (IZR c) = v c.
Proof.
  intros Hn Hc. destruct (Z.eq_dec c (n - 1)) as [-> |].
  - rewrite (pwl_piece n v _ (n - 2)); [|lia|right; apply IZR_le; lia|auto]. replace (n - 2 + 1) with (n - 1) by ring. rewrite !minus_IZR. lra.
  - rewrite (pwl_piece n v _ c); [ring|lia|right; lra|right; lra].
Qed.
(** a straight line through two points of the same piece *)
Lemma pwl_line n v c x a b : 0 <= c <= n - 2 ->
  (forall t, t = x \/ t = a \/ t = b -> (c = 0 \/ (IZR c <= t)%R) /\ (c = n - 2 \/ (t <= IZR c + 1)%R)) -> (b <> a)%R ->
  ((pwl n v b - pwl n v a) / (b - a) * x + (pwl n v b - (pwl n v b - pwl n v a) / (b - a) * b) = pwl n v x)%R.
Proof.
  intros Hc H Hab. destruct (H x), (H a), (H b); auto.
  rewrite (pwl_piece n v x c), (pwl_piece n v a c), (pwl_piece n v b c) by assumption. field. lra.
Qed.
Lemma pwl_ext n v v' x : 2 <= n -> (forall c, 0 <= c < n -> v c = v' c) -> pwl n v x = pwl n v' x.
Proof. intros Hn H. unfold pwl. cbv zeta. rewrite !H by lia. reflexivity. Qed.
Lemma pwl_lin n v w k x : pwl n (fun c => v c + k * w c)%R x = (pwl n v x + k * pwl n w x)%R.
Proof. unfold pwl. cbv zeta. ring. Qed.

Section Reals.
#[local] Existing Instance RN.

Definition ypos (f j : Z) : R := (IZR j / IZR f - (IZR f / 16 + 1 / 8))%R.
Definition xpos2 (f i : Z) : R := (IZR i / IZR f)%R.
Lemma y_real f j : f <> 0 -> y_coordinate f j = Some (ypos f j).
Proof.
  intros H. assert (F : (IZR f <> 0)%R) by (apply IZR_neq; exact H). unfold y_coordinate, ypos. cbn [nz nmul ndiv nsub nadd nst RN].
  rewrite !RNdiv_some by (lra || exact F). cbn [lift2]. f_equal. field. exact F.
Qed.
Lemma x_real f i : f <> 0 -> x_coordinate f i = Some (xpos2 f i).
Proof.
  intros H. assert (F : (IZR f <> 0)%R) by (apply IZR_neq; exact H). unfold x_coordinate, xpos2. cbn [nz nmul ndiv nst RN].
  rewrite !RNdiv_some by exact F. cbn [lift2]. f_equal. field. exact F.
Qed.

(** nearest: moved into [0, len-1] *)
Definition clip (len : Z) (x : R) : R := Rmax 0 (Rmin x (IZR (len - 1))).
Lemma nearest_real len x : 1 <= len -> nearest len (Some x) = Some (clip len x).
Proof.
  intros Hl. unfold nearest, clip. cbn [nz nltb RN liftb].
  assert (0 <= IZR (len - 1))%R by (apply (IZR_le 0); lia).
  destruct (Rltb x 0) eqn:A; [apply Rltb_true in A|apply Rltb_false in A].
  - f_equal. rewrite Rmin_left, Rmax_left by lra. reflexivity.
  - destruct (Rltb (IZR (len - 1)) x) eqn:B; [apply Rltb_true in B|apply Rltb_false in B]; f_equal.
    + rewrite Rmin_right, Rmax_right by lra. reflexivity.
    + rewrite Rmin_left, Rmax_right by lra. reflexivity.
Qed.
Lemma clip_range len x : 1 <= len -> (0 <= clip len x <= IZR (len - 1))%R.
Proof.
  intros Hl. assert (0 <= IZR (len - 1))%R by (apply (IZR_le 0); lia). unfold clip. split; [apply Rmax_l|].
  apply Rmax_lub; [assumption|apply Rmin_r].
Qed.
Lemma clip_id len x : (0 <= x <= IZR (len - 1))%R -> clip len x = x.
Proof. intros H. unfold clip. rewrite Rmin_left, Rmax_right by lra. reflexivity. Qed.
Lemma clip_right len x : 1 <= len -> (IZR (len - 1) <= x)%R -> clip len x = IZR (len - 1).
Proof. intros Hl H. assert (0 <= IZR (len - 1))%R by (apply (IZR_le 0); lia). unfold clip. rewrite Rmin_right, Rmax_right by lra. reflexivity. Qed.

Lemma mirror_in len i : 0 <= i < len -> mirror len i = i.
Proof.
  intros H. unfold mirror. destruct (Z.leb_spec len 1); [lia|]. cbv zeta. rewrite Z.mod_small by lia. destruct (Z.leb_spec len i); lia.
Qed.

(** weights of one axis *)
Lemma axis len y v : 2 <= len -> (0 <= y <= IZR (len - 1))%R ->
  let r := Rfloor y in (v (mirror len r) * (1 - (y - IZR r)) + v (mirror len (r + 1)) * (y - IZR r) = pwl len v y)%R /\ 0 <= r < len.
Proof.
  intros Hl Hy r. pose proof (Rfloor_spec y) as F. fold r in F.
  assert (A : 0 <= r).
  { assert (IZR (-1) < IZR r)%R by lra. apply lt_IZR in H. lia. }
  assert (B : r <= len - 1) by (apply le_IZR; lra).
  split; [|lia]. destruct (Z.eq_dec r (len - 1)) as [E|E].
  - assert (y = IZR (len - 1)) by (rewrite E in F; lra). rewrite H, pwl_node by lia. rewrite E, mirror_in by lia. ring.
  - rewrite !mirror_in by lia. rewrite (pwl_piece len v y r); [ring|lia|right; lra|right; lra].
Qed.

Lemma map_real rows cols nav (u : Z -> Z -> R) y x : 2 <= rows -> 2 <= cols ->
  (forall a b, 0 <= a < rows -> 0 <= b < cols -> nav a b = Some (u a b)) ->
  map_coordinates rows cols nav (Some y) (Some x) = Some (pwl rows (fun a => pwl cols (u a) (clip cols x)) (clip rows y)).
Proof.
  intros Hr Hc H. unfold map_coordinates. cbv zeta. rewrite !nearest_real by lia.
  pose proof (clip_range rows y ltac:(lia)) as Ry. pose proof (clip_range cols x ltac:(lia)) as Rx.
  set (yy := clip rows y) in *. set (xx := clip cols x) in *.
  rewrite !H by (apply mirror_range; lia). cbn [nfloor nsub nadd nmul nz RN lift2]. f_equal. rewrite !Z.add_0_r.
  destruct (axis rows yy (fun a => pwl cols (u a) xx) Hr Ry) as [Ay _]. rewrite <- Ay.
  destruct (axis cols xx (u (mirror rows (Rfloor yy))) Hc Rx) as [A1 _]. rewrite <- A1.
  destruct (axis cols xx (u (mirror rows (Rfloor yy + 1))) Hc Rx) as [A2 _]. rewrite <- A2.
  ring.
Qed.

(** ** The final value *)
Section Final.
Context (f cols : Z) (Hf : f = 2 \/ f = 4) (Hcols : 2 <= cols).
Context (nav : Z -> Z -> option R) (u : Z -> Z -> R).
Context (Hnav : forall a b, 0 <= a < 10 -> 0 <= b < cols -> nav a b = Some (u a b)).

Lemma f_pos : (IZR f = 2 \/ IZR f = 4)%R.
Proof. destruct Hf as [-> | ->]; auto. Qed.

Lemma mapped_real r i : mapped f 10 cols nav r i = Some (pwl 10 (fun a => pwl cols (u a) (clip cols (xpos2 f i))) (clip 10 (ypos f r))).
Proof. unfold mapped. rewrite y_real, x_real by lia. cbn [nst RN]. apply map_real; try assumption; lia. Qed.

Lemma extended_real r i : 0 <= i < f * cols ->
  extended (f * cols) (if f =? 4 then 3 else 1) (mapped f 10 cols nav) r i =
  Some (pwl 10 (fun a => pwl cols (u a) (xpos2 f i)) (clip 10 (ypos f r))).
Proof.
  intros Hi. replace (if f =? 4 then 3 else 1) with (f - 1) by (destruct Hf as [-> | ->]; reflexivity).
  assert (FP : (0 < IZR f)%R) by (destruct f_pos as [-> | ->]; lra).
  assert (XR : forall j, 0 <= j <= f * (cols - 1) -> clip cols (xpos2 f j) = xpos2 f j).
  { intros j Hj. apply clip_id. unfold xpos2. split.
    - apply Rmult_le_pos; [apply (IZR_le 0); lia|]. left. now apply Rinv_0_lt_compat.
    - apply (Rmult_le_reg_r (IZR f)); [exact FP|]. replace (IZR j / IZR f * IZR f)%R with (IZR j) by (field; lra).
      rewrite <- mult_IZR. apply IZR_le. lia. }
  unfold extended. rewrite !mapped_real. destruct (Z.ltb_spec i (f * cols - (f - 1))) as [Hlt|Hge].
  - rewrite XR by lia. reflexivity.
  - rewrite !(XR (f * cols - (f - 1) - 1)), (XR (f * cols - (f - 1) - 2)) by nia.
    assert (XL : (IZR (cols - 1) <= xpos2 f i)%R).
    { unfold xpos2. apply (Rmult_le_reg_r (IZR f)); [exact FP|]. replace (IZR i / IZR f * IZR f)%R with (IZR i) by (field; lra).
      rewrite <- mult_IZR. apply IZR_le. lia. }
    rewrite clip_right by (lia || exact XL).
    unfold fadd, fmul, fsub. cbn [nst nadd nmul nsub nz RN lift2]. f_equal.
    set (k := IZR (i - (f * cols - (f - 1)) + 1)).
    transitivity (pwl 10 (fun a => pwl cols (u a) (IZR (cols - 1)) +
       k * (pwl cols (u a) (xpos2 f (f * cols - (f - 1) - 1)) + (-1) * pwl cols (u a) (xpos2 f (f * cols - (f - 1) - 2))))%R (clip 10 (ypos f r))).
    { rewrite (pwl_lin 10 (fun a => pwl cols (u a) (IZR (cols - 1)))).
      rewrite (pwl_lin 10 (fun a => pwl cols (u a) (xpos2 f (f * cols - (f - 1) - 1)))). ring. }
    apply pwl_ext; [lia|]. intros a _.
    assert (X1 : xpos2 f (f * cols - (f - 1) - 1) = IZR (cols - 1)).
    { unfold xpos2. replace (f * cols - (f - 1) - 1) with (f * (cols - 1)) by ring. rewrite mult_IZR. field. lra. }
    assert (X2 : xpos2 f (f * cols - (f - 1) - 2) = (IZR (cols - 1) - / IZR f)%R).
    { unfold xpos2. replace (f * cols - (f - 1) - 2) with (f * (cols - 1) - 1) by ring. rewrite minus_IZR, mult_IZR. field. lra. }
    assert (K : (k = xpos2 f i * IZR f - IZR (cols - 1) * IZR f)%R).
    { unfold k, xpos2. replace (i - (f * cols - (f - 1)) + 1) with (i - (cols - 1) * f) by ring. rewrite minus_IZR, mult_IZR. field. lra. }
    rewrite X1, X2. assert (I1 : (IZR (cols - 1) = IZR (cols - 2) + 1)%R) by (rewrite <- plus_IZR; f_equal; ring).
    assert (IV : (0 <= / IZR f <= 1)%R) by (destruct f_pos as [-> | ->]; lra).
    rewrite !(pwl_piece cols (u a) _ (cols - 2)) by (lia || (right; lra) || (left; reflexivity)).
    rewrite K, I1. field. lra.
Qed.

Lemma finished_real r i : 0 <= r < f * 10 -> 0 <= i < f * cols ->
  fine_comp2 f 10 cols nav r i = Some (pwl 10 (fun a => pwl cols (u a) (xpos2 f i)) (ypos f r)).
Proof.
  intros Hr Hi. unfold fine_comp2. set (w := fun a => pwl cols (u a) (xpos2 f i)).
  set (e := extended (f * cols) (if f =? 4 then 3 else 1) (mapped f 10 cols nav)).
  assert (E : forall r, e r i = Some (pwl 10 w (clip 10 (ypos f r)))) by (intros r'; now apply extended_real).
  assert (L : forall d o c t, 0 <= c <= 8 -> (ypos f (o + d) <> ypos f o)%R ->
    (forall t', t' = ypos f t \/ t' = ypos f o \/ t' = ypos f (o + d) -> (c = 0 \/ (IZR c <= t')%R) /\ (c = 10 - 2 \/ (t' <= IZR c + 1)%R)) ->
    (forall t', t' = ypos f o \/ t' = ypos f (o + d) -> (0 <= t' <= 9)%R) ->
    line f d o (fun a => e a i) t = Some (pwl 10 w (ypos f t))).
  { intros d o c t Hc Hne HP HR. unfold line. cbv zeta. rewrite !E, !y_real by lia.
    rewrite !(clip_id 10) by (apply HR; auto).
    unfold fadd, fsub, fmul, fdiv. cbn [nst nadd nmul nsub ndiv RN lift2]. rewrite RNdiv_some by lra. cbn [lift2]. f_equal.
    apply (pwl_line 10 w c); [lia|exact HP|exact Hne]. }
  unfold finished. destruct Hf as [Ef|Ef]; rewrite Ef in *; cbn [Z.eqb Pos.eqb Z.mul Pos.mul Pos.add] in *.
  - assert (Y : forall j, ypos 2 j = (IZR j / 2 - 1 / 4)%R) by (intros; unfold ypos; lra).
    destruct (Z.eqb_spec r 0) as [-> |]; [|destruct (Z.eqb_spec r 19) as [-> |]].
    + apply (L 1 1 0 0); rewrite ?Y; cbn [Z.add Pos.add]; [lia|lra| |]; intros t' Ht; rewrite ?Y in Ht;
        [split; [auto|right; destruct Ht as [-> |[-> | ->]]; lra]|destruct Ht as [-> | ->]; lra].
    + apply (L 1 17 8 19); rewrite ?Y; cbn [Z.add Pos.add Pos.succ]; [lia|lra| |]; intros t' Ht; rewrite ?Y in Ht;
        [split; [right; destruct Ht as [-> |[-> | ->]]; lra|left; reflexivity]|destruct Ht as [-> | ->]; lra].
    + rewrite E, clip_id; [reflexivity|]. rewrite Y. assert (1 <= IZR r <= 18)%R by (split; apply IZR_le; lia). change (10 - 1) with 9. lra.
  - assert (Y : forall j, ypos 4 j = (IZR j / 4 - 3 / 8)%R) by (intros; unfold ypos; lra).
    destruct (Z.ltb_spec r 2); [|destruct (Z.leb_spec 38 r)].
    + assert (RB : (0 <= IZR r <= 1)%R) by (split; apply IZR_le; lia).
      apply (L 3 2 0 r); rewrite ?Y; cbn [Z.add Pos.add Pos.succ]; [lia|lra| |]; intros t' Ht; rewrite ?Y in Ht;
        [split; [auto|right; destruct Ht as [-> |[-> | ->]]; lra]|destruct Ht as [-> | ->]; lra].
    + destruct (Z.ltb_spec r 40); [|lia]. cbn [andb]. assert (RB : (38 <= IZR r <= 39)%R) by (split; apply IZR_le; lia).
      apply (L 3 34 8 r); rewrite ?Y; cbn [Z.add Pos.add Pos.succ]; [lia|lra| |]; intros t' Ht; rewrite ?Y in Ht;
        [split; [right; destruct Ht as [-> |[-> | ->]]; lra|left; reflexivity]|destruct Ht as [-> | ->]; lra].
    + cbn [andb]. rewrite E, clip_id; [reflexivity|]. rewrite Y. assert (2 <= IZR r <= 37)%R by (split; apply IZR_le; lia). change (10 - 1) with 9. lra.
Qed.
End Final.
End Reals.
