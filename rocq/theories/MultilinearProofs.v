(** Proofs about the multilinear interpolation. *)
From Coq Require Import ZArith List Bool Lia Permutation Reals Lra.
From Verif Require Import Base Num Multilinear.
Import ListNotations.
Open Scope Z_scope.

(** * reads and writes *)
Lemma rd1_ok {A} (l : list A) i d : 0 <= i < Z.of_nat (length l) -> rd1 l i = Ok (nth (Z.to_nat i) l d).
Proof.
  intros H. unfold rd1. destruct (Z.ltb_spec i 0); [lia|]. rewrite (nth_error_nth' l d) by lia. reflexivity.
Qed.
Lemma rd1_err {A} (l : list A) i : ~ (0 <= i < Z.of_nat (length l)) -> rd1 l i = Err OutOfBounds.
Proof.
  intros H. unfold rd1. destruct (Z.ltb_spec i 0); [reflexivity|].
  destruct (nth_error l (Z.to_nat i)) eqn:E; [|reflexivity].
  assert (nth_error l (Z.to_nat i) <> None) by congruence. apply nth_error_Some in H1. lia.
Qed.
Lemma rd1_cases {A} (l : list A) i : (exists a, rd1 l i = Ok a) \/ rd1 l i = Err OutOfBounds.
Proof. unfold rd1. destruct (i <? 0); [auto|]. destruct (nth_error l (Z.to_nat i)); eauto. Qed.

Lemma cint_id z : int_min <= z <= int_max -> cint z = z.
Proof. unfold cint, int_min, int_max. intros H. rewrite Z.mod_small; lia. Qed.
Lemma rdi_rd1 {A} (l : list A) i : 0 <= i <= int_max -> rdi l i = rd1 l i.
Proof. intros H. unfold rdi. rewrite cint_id; [reflexivity|]. unfold int_min. lia. Qed.
Lemma rdi_ok {A} (l : list A) i d : 0 <= i < Z.of_nat (length l) -> i <= int_max -> rdi l i = Ok (nth (Z.to_nat i) l d).
Proof. intros H Hm. rewrite rdi_rd1 by lia. now apply rd1_ok. Qed.
Lemma rdi_cases {A} (l : list A) i : (exists a, rdi l i = Ok a) \/ rdi l i = Err OutOfBounds.
Proof. apply rd1_cases. Qed.
Lemma rdo_cases l i : (exists a, rdo l i = Ok a) \/ rdo l i = Err OutOfBounds.
Proof. unfold rdo. destruct (rd1_cases l i) as [[a ->]| ->]; cbn [bind]; eauto. Qed.
Lemma bind_assoc {A B C} (x : res A) (f : A -> res B) (g : B -> res C) :
  bind (bind x f) g = bind x (fun a => bind (f a) g).
Proof. destruct x; reflexivity. Qed.
Lemma bind_ext {A B} (x y : res A) (f g : A -> res B) : x = y -> (forall a, f a = g a) -> bind x f = bind y g.
Proof. intros -> H. destruct y; cbn; auto. Qed.

Lemma Forall2_len {A B} (P : A -> B -> Prop) l1 l2 : Forall2 P l1 l2 -> length l1 = length l2.
Proof. induction 1; cbn; auto. Qed.

Definition prodZ (l : list Z) : Z := fold_right Z.mul 1 l.

(** * the dimension-generic form *)
Section Generic.
Context {T : Type} {N : NumOps T}.

(** one dimension: (lam, q, stride) *)
Fixpoint ml (dims : list (T * Z * Z)) (V : list T) (off : Z) : res T :=
  match dims with
  | [] => rdi V off
  | (lam, q, M) :: dims' =>
      let* a := ml dims' V (off + M * q) in
      let* b := ml dims' V (off + M * (q + 1)) in
      Ok (nadd (nmul (nsub (nz 1) lam) a) (nmul lam b))
  end.

Fixpoint dims_of (smin smax : list T) (orders : list Z) (p : list T) : list (T * Z * Z) :=
  match smin, smax, orders, p with
  | a :: smin', b :: smax', o :: orders', x :: p' =>
      let sn := ndiv (nsub x a) (nsub b a) in
      let q := cell sn o in
      (nsub (nmul sn (nz (o - 1))) (nz q), q, prodZ orders') :: dims_of smin' smax' orders' p'
  | _, _, _, _ => []
  end.

Ltac norm_r := cbv beta;
  repeat (lazymatch goal with
  | |- _ = bind (bind ?x ?f) ?g => refine (eq_trans _ (eq_sym (bind_assoc x f g)))
  | |- _ = bind (Ok ?a) ?g => change (bind (Ok a) g) with (g a)
  end; cbv beta).
Ltac chain := norm_r;
  repeat (refine (bind_ext _ _ _ _ _ _); [f_equal; ring|let v := fresh "v" in intros v]; norm_r); try reflexivity.

Lemma vertices_1d_spec V  q0 l0 : vertices_1d V  q0 l0 =
  ml [(l0, q0, prodZ [])] V 0.
Proof. unfold vertices_1d. cbn [ml prodZ fold_right]. chain. Qed.
Lemma vertices_2d_spec V o1 q0 q1 l0 l1 : vertices_2d V (o1) q0 q1 l0 l1 =
  ml [(l0, q0, prodZ [o1]); (l1, q1, prodZ [])] V 0.
Proof. unfold vertices_2d. cbn [ml prodZ fold_right]. chain. Qed.
Lemma vertices_3d_spec V o1 o2 q0 q1 q2 l0 l1 l2 : vertices_3d V (o1 * o2) (o2) q0 q1 q2 l0 l1 l2 =
  ml [(l0, q0, prodZ [o1; o2]); (l1, q1, prodZ [o2]); (l2, q2, prodZ [])] V 0.
Proof. unfold vertices_3d. cbn [ml prodZ fold_right]. chain. Qed.
Lemma vertices_4d_spec V o1 o2 o3 q0 q1 q2 q3 l0 l1 l2 l3 : vertices_4d V (o1 * o2 * o3) (o2 * o3) (o3) q0 q1 q2 q3 l0 l1 l2 l3 =
  ml [(l0, q0, prodZ [o1; o2; o3]); (l1, q1, prodZ [o2; o3]); (l2, q2, prodZ [o3]); (l3, q3, prodZ [])] V 0.
Proof. unfold vertices_4d. cbn [ml prodZ fold_right]. chain. Qed.
Lemma vertices_5d_spec V o1 o2 o3 o4 q0 q1 q2 q3 q4 l0 l1 l2 l3 l4 : vertices_5d V (o1 * o2 * o3 * o4) (o2 * o3 * o4) (o3 * o4) (o4) q0 q1 q2 q3 q4 l0 l1 l2 l3 l4 =
  ml [(l0, q0, prodZ [o1; o2; o3; o4]); (l1, q1, prodZ [o2; o3; o4]); (l2, q2, prodZ [o3; o4]); (l3, q3, prodZ [o4]); (l4, q4, prodZ [])] V 0.
Proof. unfold vertices_5d. cbn [ml prodZ fold_right]. chain. Qed.

Lemma rd1_0 {A} (a : A) l : rd1 (a :: l) 0 = Ok a. Proof. reflexivity. Qed.
Lemma rd1_1 {A} (a b : A) l : rd1 (a :: b :: l) 1 = Ok b. Proof. reflexivity. Qed.
Lemma rd1_2 {A} (a b c : A) l : rd1 (a :: b :: c :: l) 2 = Ok c. Proof. reflexivity. Qed.
Lemma rd1_3 {A} (a b c d : A) l : rd1 (a :: b :: c :: d :: l) 3 = Ok d. Proof. reflexivity. Qed.
Lemma rd1_4 {A} (a b c d e : A) l : rd1 (a :: b :: c :: d :: e :: l) 4 = Ok e. Proof. reflexivity. Qed.

Lemma rdo_0 a l : rdo (a :: l) 0 = Ok (cint a). Proof. reflexivity. Qed.
Lemma rdo_1 a b l : rdo (a :: b :: l) 1 = Ok (cint b). Proof. reflexivity. Qed.
Lemma rdo_2 a b c l : rdo (a :: b :: c :: l) 2 = Ok (cint c). Proof. reflexivity. Qed.
Lemma rdo_3 a b c d l : rdo (a :: b :: c :: d :: l) 3 = Ok (cint d). Proof. reflexivity. Qed.
Lemma rdo_4 a b c d e l : rdo (a :: b :: c :: d :: e :: l) 4 = Ok (cint e). Proof. reflexivity. Qed.

Lemma ml_1d_spec a0 b0 o0 V r0 i x0 : rd1 r0 i = Ok x0 ->
  ml_1d [a0] [b0] [o0] V [r0] i = ml (dims_of [a0] [b0] [cint o0] [x0]) V 0.
Proof.
  intros H0. unfold ml_1d, rd2. rewrite ?rdo_0, ?rd1_0. cbn [bind]. rewrite H0. cbn [bind].
  apply vertices_1d_spec.
Qed.
Lemma ml_2d_spec a0 a1 b0 b1 o0 o1 V r0 r1 i x0 x1 : rd1 r0 i = Ok x0 -> rd1 r1 i = Ok x1 ->
  ml_2d [a0; a1] [b0; b1] [o0; o1] V [r0; r1] i = ml (dims_of [a0; a1] [b0; b1] [cint o0; cint o1] [x0; x1]) V 0.
Proof.
  intros H0 H1. unfold ml_2d, rd2. rewrite ?rdo_0, ?rdo_1, ?rdo_2, ?rdo_3, ?rdo_4, ?rd1_0, ?rd1_1. cbn [bind]. rewrite H0, H1. cbn [bind].
  apply vertices_2d_spec.
Qed.
Lemma ml_3d_spec a0 a1 a2 b0 b1 b2 o0 o1 o2 V r0 r1 r2 i x0 x1 x2 :
  rd1 r0 i = Ok x0 -> rd1 r1 i = Ok x1 -> rd1 r2 i = Ok x2 ->
  ml_3d [a0; a1; a2] [b0; b1; b2] [o0; o1; o2] V [r0; r1; r2] i =
  ml (dims_of [a0; a1; a2] [b0; b1; b2] [cint o0; cint o1; cint o2] [x0; x1; x2]) V 0.
Proof.
  intros H0 H1 H2. unfold ml_3d, rd2. rewrite ?rdo_0, ?rdo_1, ?rdo_2, ?rdo_3, ?rdo_4, ?rd1_0, ?rd1_1, ?rd1_2. cbn [bind]. rewrite H0, H1, H2. cbn [bind].
  apply vertices_3d_spec.
Qed.
Lemma ml_4d_spec a0 a1 a2 a3 b0 b1 b2 b3 o0 o1 o2 o3 V r0 r1 r2 r3 i x0 x1 x2 x3 :
  rd1 r0 i = Ok x0 -> rd1 r1 i = Ok x1 -> rd1 r2 i = Ok x2 -> rd1 r3 i = Ok x3 ->
  ml_4d [a0; a1; a2; a3] [b0; b1; b2; b3] [o0; o1; o2; o3] V [r0; r1; r2; r3] i =
  ml (dims_of [a0; a1; a2; a3] [b0; b1; b2; b3] [cint o0; cint o1; cint o2; cint o3] [x0; x1; x2; x3]) V 0.
Proof.
  intros H0 H1 H2 H3. unfold ml_4d, rd2. rewrite ?rdo_0, ?rdo_1, ?rdo_2, ?rdo_3, ?rdo_4, ?rd1_0, ?rd1_1, ?rd1_2, ?rd1_3. cbn [bind]. rewrite H0, H1, H2, H3. cbn [bind].
  apply vertices_4d_spec.
Qed.
Lemma ml_5d_spec a0 a1 a2 a3 a4 b0 b1 b2 b3 b4 o0 o1 o2 o3 o4 V r0 r1 r2 r3 r4 i x0 x1 x2 x3 x4 :
  rd1 r0 i = Ok x0 -> rd1 r1 i = Ok x1 -> rd1 r2 i = Ok x2 -> rd1 r3 i = Ok x3 -> rd1 r4 i = Ok x4 ->
  ml_5d [a0; a1; a2; a3; a4] [b0; b1; b2; b3; b4] [o0; o1; o2; o3; o4] V [r0; r1; r2; r3; r4] i =
  ml (dims_of [a0; a1; a2; a3; a4] [b0; b1; b2; b3; b4] [cint o0; cint o1; cint o2; cint o3; cint o4] [x0; x1; x2; x3; x4]) V 0.
Proof.
  intros H0 H1 H2 H3 H4. unfold ml_5d, rd2. rewrite ?rdo_0, ?rdo_1, ?rdo_2, ?rdo_3, ?rdo_4, ?rd1_0, ?rd1_1, ?rd1_2, ?rd1_3, ?rd1_4. cbn [bind]. rewrite H0, H1, H2, H3, H4. cbn [bind].
  apply vertices_5d_spec.
Qed.

(** all four routines at once *)
Definition ml_body (d : nat) : list T -> list T -> list Z -> list T -> list (list T) -> Z -> res T :=
  match d with 1%nat => ml_1d | 2%nat => ml_2d | 3%nat => ml_3d | _ => ml_4d end.

Lemma ml_body_spec d smin smax orders V s i p :
  (1 <= d <= 4)%nat -> length smin = d -> length smax = d -> length orders = d ->
  length s = d -> Forall2 (fun r x => rd1 r i = Ok x) s p ->
  ml_body d smin smax orders V s i = ml (dims_of smin smax (map cint orders) p) V 0.
Proof.
  intros Hd H1 H2 H3 H4 H5.
  assert (Hp : length p = d) by (rewrite <- H4; symmetry; eapply Forall2_len; eauto).
  destruct d as [|[|[|[|[|d]]]]]; try lia;
  repeat (match goal with H : length ?l = _ |- _ =>
     is_var l; destruct l as [|? l]; cbn [length] in H; try discriminate H; try apply Nat.succ_inj in H end);
  try (exfalso; lia);
  repeat match goal with H : length ?l = 0%nat |- _ => apply length_zero_iff_nil in H; subst l end;
  repeat match goal with H : Forall2 _ (_ :: _) _ |- _ => inversion H; clear H; subst end; cbn [ml_body].
  - now apply ml_1d_spec.
  - now apply ml_2d_spec.
  - now apply ml_3d_spec.
  - now apply ml_4d_spec.
Qed.

(** the routines fail in no other way than by a read outside an array *)
Lemma ml_err dims V off e : ml dims V off = Err e -> e = OutOfBounds.
Proof.
  revert off e; induction dims as [|[[l q] M] dims IH]; intros off e; cbn [ml].
  - destruct (rdi_cases V off) as [[a ->]| ->]; congruence.
  - destruct (ml dims V (off + M * q)) eqn:E1; cbn [bind]; [|intros [= <-]; eauto].
    destruct (ml dims V (off + M * (q + 1))) eqn:E2; cbn [bind]; [discriminate|intros [= <-]; eauto].
Qed.

Ltac errs := repeat match goal with
  | |- context [rd1 ?l ?i] => destruct (rd1_cases l i) as [[? ->]| ->]; cbn [bind]; [|congruence]
  | |- context [rdi ?l ?i] => destruct (rdi_cases l i) as [[? ->]| ->]; cbn [bind]; [|congruence]
  | |- context [rdo ?l ?i] => destruct (rdo_cases l i) as [[? ->]| ->]; cbn [bind]; [|congruence] end.

Lemma vertices_err : forall V e,
  (forall q0 l0, vertices_1d V q0 l0 = Err e -> e = OutOfBounds) /\
  (forall M0 q0 q1 l0 l1, vertices_2d V M0 q0 q1 l0 l1 = Err e -> e = OutOfBounds) /\
  (forall M0 M1 q0 q1 q2 l0 l1 l2, vertices_3d V M0 M1 q0 q1 q2 l0 l1 l2 = Err e -> e = OutOfBounds) /\
  (forall M0 M1 M2 q0 q1 q2 q3 l0 l1 l2 l3, vertices_4d V M0 M1 M2 q0 q1 q2 q3 l0 l1 l2 l3 = Err e -> e = OutOfBounds).
Proof.
  intros V e. repeat split; intros *; unfold vertices_1d, vertices_2d, vertices_3d, vertices_4d; errs; discriminate.
Qed.

Lemma ml_body_err d smin smax orders V s i e : ml_body d smin smax orders V s i = Err e -> e = OutOfBounds.
Proof.
  destruct (vertices_err V e) as (A1 & A2 & A3 & A4).
  destruct d as [|[|[|[|d]]]]; cbn [ml_body]; unfold ml_1d, ml_2d, ml_3d, ml_4d, rd2; errs; eauto.
Qed.

(** * memory safety *)
Lemma cell_range sn o : 2 <= o -> 0 <= cell sn o /\ cell sn o + 1 < o.
Proof. unfold cell. lia. Qed.

Lemma prodZ_pos l : Forall (fun o => 1 <= o) l -> 1 <= prodZ l.
Proof. induction 1; cbn [prodZ fold_right]; [lia|]. fold (prodZ l). nia. Qed.

Lemma ml_safe smin smax orders p V off :
  length smin = length orders -> length smax = length orders -> length p = length orders ->
  Forall (fun o => 2 <= o) orders -> 0 <= off -> off + prodZ orders <= Z.of_nat (length V) ->
  off + prodZ orders <= int_max + 1 -> exists v, ml (dims_of smin smax orders p) V off = Ok v.
Proof.
  revert smin smax p off; induction orders as [|o orders IH]; intros smin smax p off H1 H2 H3 Ho H0 HV HI.
  - destruct smin; [|discriminate]. cbn [prodZ fold_right dims_of ml] in *. destruct V as [|v0 V]; [cbn in HV; lia|].
    rewrite (rdi_ok _ _ v0) by lia. eauto.
  - destruct smin as [|a smin]; [discriminate|]. destruct smax as [|b smax]; [discriminate|].
    destruct p as [|x p]; [discriminate|]. cbn [length] in H1, H2, H3.
    apply Nat.succ_inj in H1. apply Nat.succ_inj in H2. apply Nat.succ_inj in H3.
    pose proof (Forall_inv Ho) as Ho1. pose proof (Forall_inv_tail Ho) as Ho2. cbv beta in Ho1.
    cbn [dims_of ml]. set (sn := ndiv _ _). destruct (cell_range sn o Ho1) as [Q1 Q2].
    set (q := cell sn o) in *. clearbody q.
    assert (HP : 1 <= prodZ orders) by (apply prodZ_pos; eapply Forall_impl; [|exact Ho2]; cbv beta; lia).
    cbn [prodZ fold_right] in HV, HI. fold (prodZ orders) in HV, HI.
    destruct (IH smin smax p (off + prodZ orders * q) H1 H2 H3 Ho2) as [v ->]; [nia|nia|nia|].
    destruct (IH smin smax p (off + prodZ orders * (q + 1)) H1 H2 H3 Ho2) as [w ->]; [nia|nia|nia|].
    cbn [bind]. eauto.
Qed.

(** * the parallel loop *)
Lemma wr1_ok {A} (l : list A) i a : 0 <= i < Z.of_nat (length l) ->
  exists l', wr1 l i a = Ok l' /\ length l' = length l /\
    forall k d, (k < length l)%nat -> nth k l' d = if Z.of_nat k =? i then a else nth k l d.
Proof.
  intros H. unfold wr1. destruct (Z.leb_spec 0 i); [|lia]. destruct (Z.ltb_spec i (Z.of_nat (length l))); [|lia].
  cbn [andb]. eexists; split; [reflexivity|].
  assert (L1 : length (firstn (Z.to_nat i) l) = Z.to_nat i) by (rewrite firstn_length; lia).
  split.
  - rewrite app_length. cbn [length]. rewrite L1, skipn_length. lia.
  - intros k d Hk. destruct (Z.eqb_spec (Z.of_nat k) i) as [E|E].
    + rewrite app_nth2 by lia. replace (k - _)%nat with 0%nat by lia. reflexivity.
    + destruct (Nat.lt_ge_cases k (Z.to_nat i)).
      * rewrite app_nth1 by lia. rewrite <- (firstn_skipn (Z.to_nat i) l) at 2. rewrite app_nth1 by lia. reflexivity.
      * rewrite app_nth2 by lia. rewrite L1.
        replace (k - Z.to_nat i)%nat with (S (k - S (Z.to_nat i))) by lia. cbn [nth].
        rewrite <- (firstn_skipn (S (Z.to_nat i)) l) at 2.
        rewrite app_nth2 by (rewrite firstn_length; lia). rewrite firstn_length. f_equal. lia.
Qed.

Lemma prange_ok sched body (f : Z -> T) out :
  (forall i, In i sched -> 0 <= i < Z.of_nat (length out)) ->
  (forall i, In i sched -> body i = Ok (f i)) ->
  exists out', prange sched body out = Ok out' /\ length out' = length out /\
    forall k d, (k < length out)%nat -> nth k out' d = if in_dec Z.eq_dec (Z.of_nat k) sched then f (Z.of_nat k) else nth k out d.
Proof.
  revert out; induction sched as [|i sched IH]; intros out H1 H2; cbn [prange].
  - exists out. repeat split.
  - rewrite H2 by now left. cbn [bind].
    destruct (wr1_ok out i (f i)) as (out1 & -> & L1 & N1); [apply H1; now left|]. cbn [bind].
    destruct (IH out1) as (out2 & E & L2 & N2).
    { intros j Hj. rewrite L1. apply H1. now right. }
    { intros j Hj. apply H2. now right. }
    exists out2. rewrite L1 in *. split; [exact E|]. split; [exact L2|]. intros k d Hk. rewrite N2, N1 by lia.
    destruct (in_dec Z.eq_dec (Z.of_nat k) (i :: sched)) as [I|I]; cbn [In] in I.
    + destruct (in_dec Z.eq_dec (Z.of_nat k) sched); [reflexivity|].
      destruct (Z.eqb_spec (Z.of_nat k) i) as [->|]; [reflexivity|]. exfalso. destruct I; auto.
    + destruct (in_dec Z.eq_dec (Z.of_nat k) sched); [exfalso; auto|].
      destruct (Z.eqb_spec (Z.of_nat k) i) as [E1|]; [exfalso; apply I; left; auto|reflexivity].
Qed.

Lemma prange_err sched (body : Z -> res T) out :
  (forall i, In i sched -> 0 <= i < Z.of_nat (length out)) ->
  (forall i e, body i = Err e -> e = OutOfBounds) ->
  (exists i e, In i sched /\ body i = Err e) ->
  prange sched body out = Err OutOfBounds.
Proof.
  intros H1 H2. revert out H1; induction sched as [|j sched IH]; intros out H1 (i & e & Hi & He); [contradiction|].
  cbn [prange]. destruct (body j) as [v|e'] eqn:E; cbn [bind]; [|f_equal; eauto].
  destruct (wr1_ok out j v) as (out1 & -> & L1 & _); [apply H1; now left|]. cbn [bind].
  apply IH.
  - intros k Hk. rewrite L1. apply H1. now right.
  - destruct Hi as [->|Hi]; [congruence|eauto].
Qed.

Lemma mapM_oob (body : Z -> res T) l :
  (forall i e, body i = Err e -> e = OutOfBounds) ->
  (exists i e, In i l /\ body i = Err e) -> mapM body l = Err OutOfBounds.
Proof.
  intros H2. induction l as [|j l IH]; intros (i & e & Hi & He); [contradiction|].
  cbn [mapM]. destruct (body j) as [v|e'] eqn:E; cbn [bind]; [|f_equal; eauto].
  rewrite IH; [reflexivity|]. destruct Hi as [->|Hi]; [congruence|eauto].
Qed.

Lemma all_ok_dec {A} (body : A -> res T) l :
  (exists f, forall i, In i l -> body i = Ok (f i)) \/ (exists i e, In i l /\ body i = Err e).
Proof.
  destruct l as [|i0 l0]; [left; exists (fun _ => nz 0); intros ? []|]. set (l := i0 :: l0).
  assert (H : Forall (fun i => exists v, body i = Ok v) l \/ Exists (fun i => exists e, body i = Err e) l).
  { clearbody l. induction l as [|i l IH]; [left; constructor|].
    destruct (body i) as [v|e] eqn:E; [|right; constructor; eauto].
    destruct IH as [IH|IH]; [left; constructor; eauto|right; now apply Exists_cons_tl]. }
  destruct H as [H|H].
  - left. exists (fun i => match body i with Ok v => v | Err _ => nz 0 end). intros i Hi.
    rewrite Forall_forall in H. destruct (H i Hi) as [v ->]. reflexivity.
  - right. apply Exists_exists in H as (i & Hi & e & He). eauto.
Qed.

Lemma prange_mapM n sched (body : Z -> res T) out :
  length out = n -> Permutation sched (zrange 0 n) -> (forall i e, body i = Err e -> e = OutOfBounds) ->
  prange sched body out = mapM body (zrange 0 n).
Proof.
  intros Ho Hp He.
  assert (Hr : forall i, In i sched <-> 0 <= i < Z.of_nat (length out)).
  { intros i. rewrite Ho. split; intros H.
    - apply (Permutation_in _ Hp) in H. apply In_zrange in H. lia.
    - apply (Permutation_in _ (Permutation_sym Hp)). apply In_zrange. lia. }
  destruct (all_ok_dec body (zrange 0 n)) as [[f Hf]|(i & e & Hi & Hie)].
  - destruct (prange_ok sched body f out) as (out' & -> & L & E).
    { intros i Hi. now apply Hr. }
    { intros i Hi. apply Hf. now apply (Permutation_in _ Hp). }
    rewrite (mapM_Ok_map body f) by exact Hf. f_equal.
    apply (list_eq_nth (nz 0)); [now rewrite map_length, zrange_length, L|].
    intros k Hk. rewrite L in Hk. rewrite E by lia. rewrite (nth_map' _ _ _ 0) by (rewrite zrange_length; lia).
    rewrite zrange_nth by lia. replace (0 + Z.of_nat k) with (Z.of_nat k) by lia.
    destruct (in_dec Z.eq_dec (Z.of_nat k) sched) as [|I]; [reflexivity|].
    exfalso. apply I. apply Hr. lia.
  - rewrite prange_err; [| |exact He|].
    + symmetry. apply mapM_oob; eauto.
    + intros j Hj. now apply Hr.
    + exists i, e. split; [|exact Hie]. now apply (Permutation_in _ (Permutation_sym Hp)).
Qed.

(** the whole function for 1 to 4 dimensions *)
Definition sched_ok (n : nat) (sched : list Z) : Prop := Permutation sched (zrange 0 n).

Lemma multilinear_rows d n scheds empty smin smax orders values s :
  (1 <= d <= 4)%nat -> length s = d -> length empty = length values -> length scheds = length values ->
  Forall (fun r => length r = n) empty -> Forall (sched_ok n) scheds ->
  multilinear_interpolation scheds empty smin smax orders values s =
  mapM (fun vals => mapM (ml_body d smin smax orders vals s) (zrange 0 n)) values.
Proof.
  intros Hd Hs He Hc Fe Fs. unfold multilinear_interpolation.
  destruct (Z.ltb_spec 4 (Z.of_nat (length s))); [lia|].
  assert (Eb : forall vr : list T * list T * list Z, (let '(vals, res, sched) := vr in
         if Z.of_nat (length s) =? 1 then prange sched (ml_1d smin smax orders vals s) res
         else if Z.of_nat (length s) =? 2 then prange sched (ml_2d smin smax orders vals s) res
         else if Z.of_nat (length s) =? 3 then prange sched (ml_3d smin smax orders vals s) res
         else if Z.of_nat (length s) =? 4 then prange sched (ml_4d smin smax orders vals s) res
         else Ok res) = let '(vals, res, sched) := vr in prange sched (ml_body d smin smax orders vals s) res).
  { intros [[vals r] sched]. rewrite Hs. destruct d as [|[|[|[|[|d]]]]]; try lia; reflexivity. }
  rewrite (mapM_ext _ _ _ (fun x _ => Eb x)). clear Eb.
  revert empty scheds He Hc Fe Fs. induction values as [|v values IH]; intros empty scheds He Hc Fe Fs; [reflexivity|].
  destruct empty as [|e empty]; [discriminate|]. destruct scheds as [|sc scheds]; [discriminate|].
  cbn [length] in He, Hc. apply Nat.succ_inj in He. apply Nat.succ_inj in Hc.
  cbn [combine mapM]. rewrite (prange_mapM n).
  - apply bind_ext; [reflexivity|]. intros r. rewrite IH; auto.
    + now apply Forall_inv_tail in Fe.
    + now apply Forall_inv_tail in Fs.
  - now apply Forall_inv in Fe.
  - now apply Forall_inv in Fs.
  - apply ml_body_err.
Qed.

(** column i of the points *)
Definition column (s : list (list T)) (i : nat) : list T := map (fun r => nth i r (nz 0)) s.

Lemma column_reads n s i : Forall (fun r => length r = n) s -> (i < n)%nat ->
  Forall2 (fun r x => rd1 r (Z.of_nat i) = Ok x) s (column s i).
Proof.
  intros H Hi. induction H as [|r s Hr H IH]; cbn; constructor; [|exact IH].
  rewrite (rd1_ok _ _ (nz 0)) by lia. now rewrite Nat2Z.id.
Qed.

Lemma zrange_seq a n : zrange (Z.of_nat a) n = map Z.of_nat (seq a n).
Proof.
  revert a; induction n as [|n IH]; intros a; cbn [zrange seq map]; [reflexivity|].
  replace (Z.of_nat a + 1) with (Z.of_nat (S a)) by lia. now rewrite IH.
Qed.
Lemma mapM_map' {A B C} (g : A -> B) (f : B -> res C) l : mapM f (map g l) = mapM (fun a => f (g a)) l.
Proof. induction l as [|a l IH]; cbn [map mapM]; [reflexivity|]. now rewrite IH. Qed.

Lemma multilinear_generic d n scheds empty smin smax orders values s :
  (1 <= d <= 4)%nat -> length smin = d -> length smax = d -> length orders = d -> length s = d ->
  Forall (fun r => length r = n) s ->
  length empty = length values -> length scheds = length values ->
  Forall (fun r => length r = n) empty -> Forall (sched_ok n) scheds ->
  multilinear_interpolation scheds empty smin smax orders values s =
  mapM (fun vals => mapM (fun i => ml (dims_of smin smax (map cint orders) (column s i)) vals 0) (seq 0 n)) values.
Proof.
  intros Hd H1 H2 H3 H4 Hs He Hc Fe Fs. rewrite (multilinear_rows d n) by auto.
  apply mapM_ext. intros vals _. change 0 with (Z.of_nat 0) at 1. rewrite zrange_seq, mapM_map'.
  apply mapM_ext. intros i Hi. apply in_seq in Hi. apply ml_body_spec; auto. apply (column_reads n); auto. lia.
Qed.
End Generic.

(** * real numbers *)
#[local] Existing Instance RT.
Open Scope R_scope.

(** the k-th of n equidistant nodes between a and b *)
Definition node (a b : R) (n k : nat) : R := a + INR k * (b - a) / INR (n - 1).

(** the points of the grid, last coordinate fastest *)
Fixpoint grid_points (smin smax : list R) (ns : list nat) : list (list R) :=
  match smin, smax, ns with
  | a :: smin', b :: smax', n :: ns' =>
      flat_map (fun k => map (cons (node a b n k)) (grid_points smin' smax' ns')) (seq 0 n)
  | _, _, _ => [[]]
  end.

Definition prodn (l : list nat) : nat := fold_right Nat.mul 1%nat l.

Lemma prodZ_n ns : prodZ (map Z.of_nat ns) = Z.of_nat (prodn ns).
Proof. induction ns as [|n ns IH]; cbn [map prodZ prodn fold_right]; [reflexivity|]. fold (prodZ (map Z.of_nat ns)). rewrite IH. unfold prodn. lia. Qed.

Lemma grid_points_length smin smax ns : length smin = length ns -> length smax = length ns ->
  length (grid_points smin smax ns) = prodn ns.
Proof.
  revert smin smax; induction ns as [|n ns IH]; intros smin smax H1 H2.
  - destruct smin; [|discriminate]. reflexivity.
  - destruct smin as [|a smin]; [discriminate|]. destruct smax as [|b smax]; [discriminate|].
    cbn [length] in H1, H2. apply Nat.succ_inj in H1. apply Nat.succ_inj in H2.
    cbn [grid_points prodn fold_right]. rewrite flat_map_concat_map.
    rewrite (concat_length_const _ (prodn ns)).
    + now rewrite map_length, seq_length.
    + apply Forall_forall. intros l Hl. apply in_map_iff in Hl as (k & <- & _). rewrite map_length. now apply IH.
Qed.

Lemma grid_points_nth smin smax a b n ns k j d : length smin = length ns -> length smax = length ns ->
  (k < n)%nat -> (j < prodn ns)%nat ->
  nth (k * prodn ns + j) (grid_points (a :: smin) (b :: smax) (n :: ns)) d =
  node a b n k :: nth j (grid_points smin smax ns) [].
Proof.
  intros H1 H2 Hk Hj. cbn [grid_points]. rewrite flat_map_concat_map.
  rewrite nth_concat_const.
  - rewrite (nth_map' _ _ _ 0%nat) by (now rewrite seq_length). rewrite seq_nth by lia.
    rewrite (nth_map' _ _ _ []) by (now rewrite grid_points_length). reflexivity.
  - apply Forall_forall. intros l Hl. apply in_map_iff in Hl as (i & <- & _). rewrite map_length. now apply grid_points_length.
  - exact Hj.
  - now rewrite map_length, seq_length.
Qed.

(** affine in each coordinate separately *)
Definition multi_affine (f : list R -> R) : Prop :=
  forall pre x post, f (pre ++ x :: post) = (1 - x) * f (pre ++ 0 :: post) + x * f (pre ++ 1 :: post).

Lemma INR_pred n : (2 <= n)%nat -> INR (n - 1) = IZR (Z.of_nat n - 1) /\ 1 <= INR (n - 1).
Proof.
  intros H. split.
  - rewrite INR_IZR_INZ. f_equal. lia.
  - replace 1 with (INR 1) by reflexivity. apply le_INR. lia.
Qed.

Lemma ml_affine smin smax ns p f V off :
  length smin = length ns -> length smax = length ns -> length p = length ns ->
  Forall (fun n => (2 <= n)%nat) ns -> Forall2 (fun a b => a <> b) smin smax -> multi_affine f ->
  (forall j, (j < prodn ns)%nat -> rdi V (off + Z.of_nat j) = Ok (f (nth j (grid_points smin smax ns) []))) ->
  ml (dims_of smin smax (map Z.of_nat ns) p) V off = Ok (f p).
Proof.
  revert smin smax p f off; induction ns as [|n ns IH]; intros smin smax p f off H1 H2 H3 Hn Hab Hf HV.
  - destruct smin; [|discriminate]. destruct p; [|discriminate]. cbn [dims_of ml].
    specialize (HV 0%nat ltac:(cbn; lia)). cbn in HV. now rewrite Z.add_0_r in HV.
  - destruct smin as [|a smin]; [discriminate|]. destruct smax as [|b smax]; [discriminate|].
    destruct p as [|x p]; [discriminate|]. cbn [length] in H1, H2, H3.
    apply Nat.succ_inj in H1. apply Nat.succ_inj in H2. apply Nat.succ_inj in H3.
    pose proof (Forall_inv Hn) as Hn1. pose proof (Forall_inv_tail Hn) as Hn2. cbv beta in Hn1.
    inversion Hab as [|? ? ? ? Hab1 Hab2]; subst.
    cbn [map dims_of ml]. rewrite prodZ_n. set (sn := ndiv (nsub x a) (nsub b a)).
    destruct (cell_range sn (Z.of_nat n)) as [Q1 Q2]; [lia|].
    set (q := cell sn (Z.of_nat n)) in *.
    assert (Hq : q = Z.of_nat (Z.to_nat q)) by lia. set (k := Z.to_nat q) in *. clearbody k. clearbody q. subst q.
    assert (sub : forall k', (k' < n)%nat ->
      ml (dims_of smin smax (map Z.of_nat ns) p) V (off + Z.of_nat (prodn ns) * Z.of_nat k') = Ok (f (node a b n k' :: p))).
    { intros k' Hk'. apply (IH smin smax p (fun l => f (node a b n k' :: l))); auto.
      - intros pre y post. exact (Hf (node a b n k' :: pre) y post).
      - intros j Hj. replace (off + _ + Z.of_nat j)%Z with (off + Z.of_nat (k' * prodn ns + j))%Z by lia.
        rewrite HV.
        + now rewrite grid_points_nth.
        + cbn [prodn fold_right]. fold (prodn ns). nia. }
    rewrite sub by lia. replace (Z.of_nat k + 1)%Z with (Z.of_nat (S k)) by lia. rewrite sub by lia. cbn [bind]. f_equal.
    cbn [nadd nmul nsub nz ndiv RT] in *.
    pose proof (Hf [] (node a b n k) p) as E1. pose proof (Hf [] (node a b n (S k)) p) as E2. pose proof (Hf [] x p) as E3.
    cbn [app] in *. rewrite E1, E2, E3.
    destruct (INR_pred n Hn1) as [P1 P2].
    assert (Ex : x = (1 - (sn * IZR (Z.of_nat n - 1) - IZR (Z.of_nat k))) * node a b n k +
                     (sn * IZR (Z.of_nat n - 1) - IZR (Z.of_nat k)) * node a b n (S k)).
    { unfold node, sn. rewrite <- P1. rewrite <- INR_IZR_INZ. rewrite S_INR. field. split; lra. }
    set (lam := sn * _ - _) in *. clearbody lam. rewrite Ex. ring.
Qed.

(** at a node *)
Fixpoint nodes_of (smin smax : list R) (ns ks : list nat) : list R :=
  match smin, smax, ns, ks with
  | a :: smin', b :: smax', n :: ns', k :: ks' => node a b n k :: nodes_of smin' smax' ns' ks'
  | _, _, _, _ => []
  end.
Fixpoint flat (ns ks : list nat) : nat :=
  match ns, ks with n :: ns', k :: ks' => k * prodn ns' + flat ns' ks' | _, _ => 0 end.

Lemma Rfloor_IZR z : Rfloor (IZR z) = z.
Proof. unfold Rfloor. rewrite <- (tech_up (IZR z) (z + 1)); [lia| |]; rewrite plus_IZR; lra. Qed.

Lemma cell_node a b n k : (2 <= n)%nat -> a <> b -> (k < n)%nat -> (Z.of_nat n <= int_max)%Z ->
  let sn := ((node a b n k - a) / (b - a))%R in
  let q := cell sn (Z.of_nat n) in
  let lam := sn * IZR (Z.of_nat n - 1) - IZR q in
  (q = Z.of_nat k /\ lam = 0 /\ (k + 1 < n)%nat) \/ (q = (Z.of_nat k - 1)%Z /\ lam = 1 /\ (1 <= k)%nat).
Proof.
  intros Hn Hab Hk Hm. cbv zeta. destruct (INR_pred n Hn) as [P1 P2].
  assert (E : (node a b n k - a) / (b - a) * IZR (Z.of_nat n - 1) = IZR (Z.of_nat k)).
  { unfold node. rewrite <- P1, <- INR_IZR_INZ. field. split; lra. }
  unfold cell. cbn [ntrunc nmul nz RT]. rewrite E. unfold Rtrunc.
  destruct (Rlt_dec (IZR (Z.of_nat k)) 0) as [L|_].
  { apply lt_IZR in L. lia. }
  rewrite Rfloor_IZR. unfold to_int, int_min, int_max in *.
  destruct (Z.leb_spec (-2147483648) (Z.of_nat k)); [|lia]. destruct (Z.leb_spec (Z.of_nat k) 2147483647); [|lia]. cbn [andb].
  destruct (Nat.eq_dec k (n - 1)) as [->|Hk2].
  - right. replace (Z.max (Z.min (Z.of_nat (n - 1)) (Z.of_nat n - 2)) 0) with (Z.of_nat (n - 1) - 1)%Z by lia.
    repeat split; [|lia]. rewrite minus_IZR. ring.
  - left. replace (Z.max (Z.min (Z.of_nat k) (Z.of_nat n - 2)) 0) with (Z.of_nat k) by lia. repeat split; [|lia]. ring.
Qed.

Lemma ml_node smin smax ns ks V off :
  length smin = length ns -> length smax = length ns -> Forall2 (fun k n => (k < n)%nat) ks ns ->
  Forall (fun n => (2 <= n)%nat /\ (Z.of_nat n <= int_max)%Z) ns -> Forall2 (fun a b => a <> b) smin smax ->
  (0 <= off)%Z -> (off + Z.of_nat (prodn ns) <= Z.of_nat (length V))%Z -> (off + Z.of_nat (prodn ns) <= int_max + 1)%Z ->
  ml (dims_of smin smax (map Z.of_nat ns) (nodes_of smin smax ns ks)) V off = rdi V (off + Z.of_nat (flat ns ks)).
Proof.
  revert smin smax ks off; induction ns as [|n ns IH]; intros smin smax ks off H1 H2 Hk Hn Hab H0 HV HI.
  - destruct smin; [|discriminate]. inversion Hk; subst. cbn [nodes_of map dims_of ml flat Z.of_nat]. now rewrite Z.add_0_r.
  - destruct smin as [|a smin]; [discriminate|]. destruct smax as [|b smax]; [discriminate|].
    cbn [length] in H1, H2. apply Nat.succ_inj in H1. apply Nat.succ_inj in H2.
    pose proof (Forall_inv Hn) as [Hn1 Hn1']. pose proof (Forall_inv_tail Hn) as Hn2.
    inversion Hab as [|? ? ? ? Hab1 Hab2]; subst. inversion Hk as [|k ? ks' ? Hk1 Hk2]; subst.
    cbn [nodes_of map dims_of ml flat]. rewrite prodZ_n.
    pose proof (cell_node a b n k Hn1 Hab1 Hk1 Hn1') as C. cbv zeta in C.
    cbn [nadd nmul nsub nz ndiv RT] in *.
    set (sn := (node a b n k - a) / (b - a)) in *. set (q := cell sn (Z.of_nat n)) in *.
    set (lam := sn * IZR (Z.of_nat n - 1) - IZR q) in *. clearbody lam q.
    cbn [prodn fold_right] in HV, HI. fold (prodn ns) in HV, HI.
    assert (LP : length (nodes_of smin smax ns ks') = length ns).
    { clear -H1 H2 Hk2. revert smin smax H1 H2; induction Hk2; intros smin smax H1 H2.
      - destruct smin; [reflexivity|discriminate].
      - destruct smin as [|a smin]; [discriminate|]. destruct smax as [|b smax]; [discriminate|]. cbn [length nodes_of] in *.
        f_equal. apply IHHk2; lia. }
    assert (F2 : Forall (fun o => (2 <= o)%Z) (map Z.of_nat ns)).
    { apply Forall_forall. intros o Ho. apply in_map_iff in Ho as (m & <- & Hm). rewrite Forall_forall in Hn2.
      destruct (Hn2 m Hm). lia. }
    assert (S : forall k', (0 <= k' < Z.of_nat n)%Z -> exists v, ml (dims_of smin smax (map Z.of_nat ns) (nodes_of smin smax ns ks')) V (off + Z.of_nat (prodn ns) * k') = Ok v).
    { intros k' Hk'. apply ml_safe; rewrite ?map_length; auto; [nia| |]; rewrite prodZ_n; nia. }
    assert (FL : (flat ns ks' < prodn ns)%nat).
    { clear -Hk2. induction Hk2 as [|k n ks ns Hk Hk2 IH]; cbn [flat prodn fold_right]; [lia|].
      fold (prodn ns). nia. }
    assert (KK : rdi V (off + Z.of_nat (k * prodn ns + flat ns ks')) =
      ml (dims_of smin smax (map Z.of_nat ns) (nodes_of smin smax ns ks')) V (off + Z.of_nat (prodn ns) * Z.of_nat k)).
    { rewrite IH; auto; [f_equal; lia|nia|nia|nia]. }
    rewrite KK. destruct C as [(-> & -> & Hk3)|(-> & -> & Hk3)].
    + destruct (S (Z.of_nat k)) as [v ->]; [lia|]. cbn [bind].
      destruct (S (Z.of_nat k + 1)%Z) as [w ->]; [lia|]. cbn [bind]. f_equal. ring.
    + replace (Z.of_nat k - 1 + 1)%Z with (Z.of_nat k) by lia.
      destruct (S (Z.of_nat k - 1)%Z) as [v ->]; [lia|]. cbn [bind].
      destruct (S (Z.of_nat k)) as [w ->]; [lia|]. cbn [bind]. f_equal. ring.
Qed.

(** * inside the grid *)
Lemma Rfloor_le x : IZR (Rfloor x) <= x < IZR (Rfloor x) + 1.
Proof. unfold Rfloor. destruct (archimed x). rewrite minus_IZR. lra. Qed.

Lemma cell_inside a b n x : (2 <= n)%nat -> a < b -> a <= x <= b -> (Z.of_nat n <= int_max)%Z ->
  let sn := (x - a) / (b - a) in
  0 <= sn * IZR (Z.of_nat n - 1) - IZR (cell sn (Z.of_nat n)) <= 1.
Proof.
  intros Hn Hab Hx Hm. cbv zeta. set (sn := (x - a) / (b - a)).
  assert (Hs : 0 <= sn <= 1).
  { unfold sn. split.
    - apply Rmult_le_pos; [lra|]. apply Rlt_le, Rinv_0_lt_compat. lra.
    - apply (Rmult_le_reg_r (b - a)); [lra|]. unfold Rdiv. rewrite Rmult_assoc, Rinv_l by lra. lra. }
  clearbody sn. assert (H1 : 1 <= IZR (Z.of_nat n - 1)) by (apply IZR_le; lia).
  unfold cell. cbn [ntrunc nmul nz RT]. set (t := sn * IZR (Z.of_nat n - 1)).
  assert (Ht : 0 <= t <= IZR (Z.of_nat n - 1)) by (unfold t; nra). clearbody t.
  unfold Rtrunc. destruct (Rlt_dec t 0) as [L|_]; [lra|].
  pose proof (Rfloor_le t) as [F1 F2]. set (z := Rfloor t) in *. clearbody z.
  assert (Z1 : (0 <= z)%Z). { assert (H : (-1 < z)%Z) by (apply lt_IZR; cbn; lra). lia. }
  assert (Z2 : (z <= Z.of_nat n - 1)%Z) by (apply le_IZR; lra).
  unfold to_int, int_min, int_max in *.
  destruct (Z.leb_spec (-2147483648) z); [|lia]. destruct (Z.leb_spec z 2147483647); [|lia]. cbn [andb].
  destruct (Z.le_gt_cases z (Z.of_nat n - 2)).
  - replace (Z.max (Z.min z (Z.of_nat n - 2)) 0) with z by lia. lra.
  - replace (Z.max (Z.min z (Z.of_nat n - 2)) 0) with (Z.of_nat n - 2)%Z by lia.
    replace z with (Z.of_nat n - 1)%Z in * by lia. rewrite minus_IZR in *. lra.
Qed.

Lemma mix_bounds lo hi l a b : 0 <= l <= 1 -> lo <= a <= hi -> lo <= b <= hi -> lo <= (1 - l) * a + l * b <= hi.
Proof. intros. split; nra. Qed.

Definition inside (smin smax p : list R) : Prop :=
  Forall2 (fun ab x => fst ab <= x <= snd ab) (combine smin smax) p.

Lemma ml_bounds smin smax ns p V off lo hi v :
  length smin = length ns -> length smax = length ns ->
  Forall (fun n => (2 <= n)%nat /\ (Z.of_nat n <= int_max)%Z) ns -> Forall2 (fun a b => a < b) smin smax ->
  inside smin smax p -> Forall (fun w => lo <= w <= hi) V ->
  ml (dims_of smin smax (map Z.of_nat ns) p) V off = Ok v -> lo <= v <= hi.
Proof.
  revert smin smax p off v; induction ns as [|n ns IH]; intros smin smax p off v H1 H2 Hn Hab Hin HV.
  - destruct smin; [|discriminate]. cbn [dims_of ml]. unfold rdi, rd1. destruct (cint off <? 0)%Z; [discriminate|].
    destruct (nth_error V (Z.to_nat (cint off))) eqn:E; [|discriminate]. intros [= <-]. apply nth_error_In in E.
    rewrite Forall_forall in HV. auto.
  - destruct smin as [|a smin]; [discriminate|]. destruct smax as [|b smax]; [discriminate|].
    cbn [length] in H1, H2. apply Nat.succ_inj in H1. apply Nat.succ_inj in H2.
    pose proof (Forall_inv Hn) as [Hn1 Hn1']. pose proof (Forall_inv_tail Hn) as Hn2.
    inversion Hab as [|? ? ? ? Hab1 Hab2]; subst. unfold inside in Hin. cbn [combine] in Hin.
    inversion Hin as [|? x ? p' Hx Hin']; subst. cbn [fst snd] in Hx.
    cbn [map dims_of ml]. cbn [nadd nmul nsub nz ndiv RT].
    pose proof (cell_inside a b n x Hn1 Hab1 Hx Hn1') as C. cbv zeta in C.
    set (sn := (x - a) / (b - a)) in *. set (lam := sn * _ - _) in *. clearbody lam.
    destruct (ml _ V (off + _ * cell _ _)) as [u|] eqn:E1; cbn [bind]; [|discriminate].
    destruct (ml _ V (off + _ * (cell _ _ + 1))) as [w|] eqn:E2; cbn [bind]; [|discriminate].
    intros [= <-]. fold (inside smin smax p') in Hin'. apply mix_bounds; [exact C| |].
    + exact (IH _ _ _ _ _ H1 H2 Hn2 Hab2 Hin' HV E1).
    + exact (IH _ _ _ _ _ H1 H2 Hn2 Hab2 Hin' HV E2).
Qed.

(** * the grid of the class *)
Lemma linspace_nodes a b n : (2 <= n)%nat -> linspace a b n = map (node a b n) (seq 0 n).
Proof.
  intros Hn. destruct n as [|[|m]]; try lia. unfold linspace. cbn [nz nadd nmul nsub ndiv RT].
  change 0%Z with (Z.of_nat 0). rewrite zrange_seq, map_map.
  assert (H : INR (S m) <> 0) by (apply not_0_INR; lia).
  assert (E : seq 0 (S (S m)) = seq 0 (S m) ++ [S m]) by (replace (S (S m)) with (S m + 1)%nat by lia; now rewrite seq_app).
  rewrite E, map_app. apply (f_equal2 (@app R)).
  - apply map_ext_in. intros k _. unfold node. replace (S (S m) - 1)%nat with (S m) by lia.
    rewrite <- !INR_IZR_INZ. field. exact H.
  - cbn [map]. f_equal. unfold node. replace (S (S m) - 1)%nat with (S m) by lia. field. exact H.
Qed.

Definition lin_axes (smin smax : list R) (ns : list nat) : list (list R) :=
  map (fun t => map (node (fst (fst t)) (snd (fst t)) (snd t)) (seq 0 (snd t))) (combine (combine smin smax) ns).

Lemma flat_map_map' {A B C} (f : A -> B) (g : B -> list C) l : flat_map g (map f l) = flat_map (fun a => g (f a)) l.
Proof. induction l as [|a l IH]; cbn; [reflexivity|]. now rewrite IH. Qed.

Lemma cart_axes smin smax ns : length smin = length ns -> length smax = length ns ->
  cart (lin_axes smin smax ns) = grid_points smin smax ns.
Proof.
  revert smin smax; induction ns as [|n ns IH]; intros smin smax H1 H2.
  - destruct smin; [|discriminate]. reflexivity.
  - destruct smin as [|a smin]; [discriminate|]. destruct smax as [|b smax]; [discriminate|].
    cbn [length] in H1, H2. apply Nat.succ_inj in H1. apply Nat.succ_inj in H2.
    unfold lin_axes. cbn [combine map cart grid_points fst snd]. rewrite flat_map_map'.
    fold (lin_axes smin smax ns). now rewrite IH.
Qed.

Lemma mlinspace_axes smin smax ns : length smin = length ns -> length smax = length ns ->
  Forall (fun n => (2 <= n)%nat) ns ->
  mapM (fun i =>
       match nth_error smin i, nth_error smax i, nth_error ns i with
       | Some a, Some b, Some n => Ok (linspace a b n)
       | _, _, _ => Err IndexError
       end) (seq 0 (length ns)) = Ok (lin_axes smin smax ns).
Proof.
  intros H1 H2 Hn.
  assert (G : forall pa pb pn smin smax ns, length pa = length pn -> length pb = length pn ->
    length smin = length ns -> length smax = length ns -> Forall (fun n => (2 <= n)%nat) ns ->
    mapM (fun i =>
       match nth_error (pa ++ smin) i, nth_error (pb ++ smax) i, nth_error (pn ++ ns) i with
       | Some a, Some b, Some n => Ok (linspace a b n)
       | _, _, _ => Err IndexError
       end) (seq (length pn) (length ns)) = Ok (lin_axes smin smax ns)).
  { clear. intros pa pb pn smin smax ns La Lb. revert pa pb pn smin smax La Lb.
    induction ns as [|n ns IH]; intros pa pb pn smin smax La Lb H1 H2 Hn.
    - destruct smin; [reflexivity|discriminate].
    - destruct smin as [|a smin]; [discriminate|]. destruct smax as [|b smax]; [discriminate|].
      cbn [length] in H1, H2. apply Nat.succ_inj in H1. apply Nat.succ_inj in H2.
      cbn [length seq mapM].
      assert (E : forall A (l : list A) x r, nth_error (l ++ x :: r) (length l) = Some x).
      { intros A l x r. rewrite nth_error_app2 by lia. now rewrite Nat.sub_diag. }
      rewrite <- La at 1. rewrite E. rewrite <- Lb at 1. rewrite E. rewrite E. cbn [bind].
      specialize (IH (pa ++ [a]) (pb ++ [b]) (pn ++ [n]) smin smax).
      rewrite !app_length, La, Lb in IH. cbn [length] in IH.
      replace (length pn + 1)%nat with (S (length pn)) in IH by lia.
      specialize (IH eq_refl eq_refl H1 H2 (Forall_inv_tail Hn)).
      rewrite <- !app_assoc in IH. cbn [app] in IH. rewrite IH. cbn [bind].
      rewrite linspace_nodes by (apply Forall_inv in Hn; exact Hn). reflexivity. }
  exact (G [] [] [] smin smax ns eq_refl eq_refl H1 H2 Hn).
Qed.

Lemma grid_point_length smin smax ns p : length smin = length ns -> length smax = length ns ->
  In p (grid_points smin smax ns) -> length p = length ns.
Proof.
  revert smin smax p; induction ns as [|n ns IH]; intros smin smax p H1 H2 Hp.
  - destruct smin; [|discriminate]. destruct Hp as [<-|[]]. reflexivity.
  - destruct smin as [|a smin]; [discriminate|]. destruct smax as [|b smax]; [discriminate|].
    cbn [length] in H1, H2. apply Nat.succ_inj in H1. apply Nat.succ_inj in H2.
    cbn [grid_points] in Hp. apply in_flat_map in Hp as (k & _ & Hp). apply in_map_iff in Hp as (p' & <- & Hp).
    cbn [length]. f_equal. exact (IH _ _ _ H1 H2 Hp).
Qed.

Lemma grid_point_nodes smin smax ns i : length smin = length ns -> length smax = length ns -> (i < prodn ns)%nat ->
  exists ks, Forall2 (fun k n => (k < n)%nat) ks ns /\ flat ns ks = i /\
    nth i (grid_points smin smax ns) [] = nodes_of smin smax ns ks.
Proof.
  revert smin smax i; induction ns as [|n ns IH]; intros smin smax i H1 H2 Hi.
  - destruct smin; [|discriminate]. cbn in Hi. exists []. repeat split; [constructor|cbn; lia|]. replace i with 0%nat by lia. reflexivity.
  - destruct smin as [|a smin]; [discriminate|]. destruct smax as [|b smax]; [discriminate|].
    cbn [length] in H1, H2. apply Nat.succ_inj in H1. apply Nat.succ_inj in H2.
    cbn [prodn fold_right] in Hi. fold (prodn ns) in Hi.
    assert (HP : (0 < prodn ns)%nat) by nia.
    destruct (IH smin smax (i mod prodn ns)%nat H1 H2) as (ks & K1 & K2 & K3); [apply Nat.mod_upper_bound; lia|].
    assert (Hk : (i / prodn ns < n)%nat) by (apply Nat.div_lt_upper_bound; lia).
    assert (Ei : i = (i / prodn ns * prodn ns + i mod prodn ns)%nat) by (rewrite (Nat.div_mod i (prodn ns)) at 1; lia).
    exists (i / prodn ns :: ks)%nat. repeat split.
    + constructor; auto.
    + cbn [flat]. rewrite K2. lia.
    + rewrite Ei at 1. rewrite grid_points_nth; auto; [|apply Nat.mod_upper_bound; lia].
      rewrite K3. reflexivity.
Qed.

(** transposing a list of points and taking a column *)
Lemma column_transpose (points : list (list R)) d i :
  Forall (fun p => length p = d) points -> (i < length points)%nat ->
  column (map (fun k => map (fun p => nth k p 0) points) (seq 0 d)) i = nth i points [].
Proof.
  intros F Hi. unfold column. cbn [nz RT].
  assert (Ld : length (nth i points []) = d) by (rewrite Forall_forall in F; apply F; now apply nth_In).
  rewrite map_map. apply (list_eq_nth 0).
  - now rewrite map_length, seq_length.
  - intros k Hk. rewrite map_length, seq_length in Hk.
    rewrite (nth_map' _ _ _ 0%nat) by (now rewrite seq_length). rewrite seq_nth by lia. cbn [Nat.add].
    rewrite (nth_map' _ _ _ []) by exact Hi. reflexivity.
Qed.
