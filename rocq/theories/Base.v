(** Errors, list helpers and loops shared by all model files.
    Nothing here models code of the repository. *)
From Coq Require Import ZArith List Lia Bool.
Import ListNotations.
Open Scope Z_scope.

(** Python exceptions; [OutOfBounds] = an access outside an array in code
    compiled with [boundscheck=False] (undefined behaviour in the program). *)
Inductive exn :=
| ValueError | IndexError | NameError | ZeroDivisionError | NotImplementedError
| TypeError | AttributeError | KeyError | GenericException | OutOfBounds.

Inductive res (A : Type) :=
| Ok (a : A)
| Err (e : exn).
Arguments Ok {A} a.
Arguments Err {A} e.

Definition bind {A B} (x : res A) (f : A -> res B) : res B :=
  match x with Ok a => f a | Err e => Err e end.

Declare Scope res_scope.
Notation "'let*' x ':=' e 'in' k" := (bind e (fun x => k))
  (at level 200, x pattern, e at level 200, k at level 200, right associativity) : res_scope.
Open Scope res_scope.

Definition rmap {A B} (f : A -> B) (x : res A) : res B :=
  match x with Ok a => Ok (f a) | Err e => Err e end.

Definition is_ok {A} (x : res A) : Prop := exists a, x = Ok a.
Definition is_err {A} (x : res A) : Prop := exists e, x = Err e.

Lemma bind_Ok {A B} (x : res A) (f : A -> res B) b :
  bind x f = Ok b -> exists a, x = Ok a /\ f a = Ok b.
Proof. destruct x; simpl; intros H; [eauto | discriminate]. Qed.

(** Evaluate left to right, stop at the first error (Python list comprehension). *)
Fixpoint mapM {A B} (f : A -> res B) (l : list A) : res (list B) :=
  match l with
  | [] => Ok []
  | a :: l' => let* b := f a in let* bs := mapM f l' in Ok (b :: bs)
  end.

Lemma mapM_app {A B} (f : A -> res B) l1 l2 :
  mapM f (l1 ++ l2) = let* a := mapM f l1 in let* b := mapM f l2 in Ok (a ++ b).
Proof.
  induction l1 as [|x l1 IH]; simpl.
  - destruct (mapM f l2); reflexivity.
  - destruct (f x); simpl; [|reflexivity]. rewrite IH.
    destruct (mapM f l1); simpl; [|reflexivity].
    destruct (mapM f l2); reflexivity.
Qed.

Lemma mapM_Ok_map {A B} (f : A -> res B) (g : A -> B) l :
  (forall a, In a l -> f a = Ok (g a)) -> mapM f l = Ok (map g l).
Proof.
  induction l as [|x l IH]; intros H; simpl; [reflexivity|].
  rewrite H by (left; reflexivity). simpl. rewrite IH; [reflexivity|].
  intros a Ha. apply H. now right.
Qed.

Lemma mapM_length {A B} (f : A -> res B) l bs :
  mapM f l = Ok bs -> length bs = length l.
Proof.
  revert bs; induction l as [|x l IH]; simpl; intros bs H.
  - injection H as <-. reflexivity.
  - apply bind_Ok in H as (b & Hb & H). apply bind_Ok in H as (bs' & Hbs & H).
    injection H as <-. simpl. now rewrite (IH _ Hbs).
Qed.

Lemma mapM_ext {A B} (f g : A -> res B) l :
  (forall a, In a l -> f a = g a) -> mapM f l = mapM g l.
Proof.
  induction l as [|x l IH]; intros H; simpl; [reflexivity|].
  rewrite H by (left; reflexivity). rewrite IH; [reflexivity|].
  intros a Ha. apply H. now right.
Qed.

(** [zrange a n] = [a; a+1; ...; a+n-1]. *)
Fixpoint zrange (a : Z) (n : nat) : list Z :=
  match n with O => [] | S n' => a :: zrange (a + 1) n' end.

Lemma zrange_length a n : length (zrange a n) = n.
Proof. revert a; induction n; simpl; auto. Qed.

Lemma zrange_nth a n k d : (k < n)%nat -> nth k (zrange a n) d = a + Z.of_nat k.
Proof.
  revert a k; induction n as [|n IH]; intros a k Hk; [lia|].
  destruct k as [|k]; simpl zrange; simpl nth; [lia|].
  rewrite IH by lia. lia.
Qed.

Lemma zrange_app a n m : zrange a (n + m) = zrange a n ++ zrange (a + Z.of_nat n) m.
Proof.
  revert a; induction n as [|n IH]; intros a.
  - simpl. f_equal; lia.
  - simpl Nat.add. cbn [zrange]. rewrite IH. cbn [app]. f_equal. f_equal. f_equal. lia.
Qed.

Lemma In_zrange a n x : In x (zrange a n) <-> a <= x < a + Z.of_nat n.
Proof.
  revert a; induction n as [|n IH]; intros a; simpl.
  - lia.
  - rewrite IH. lia.
Qed.

Lemma zrange_map_add a n k : map (fun x => x + k) (zrange a n) = zrange (a + k) n.
Proof.
  revert a; induction n as [|n IH]; intros a; simpl; [reflexivity|].
  rewrite IH. f_equal. f_equal. lia.
Qed.

(** [range(0, n)] for an integer [n] (empty if negative). *)
Definition range0 (n : Z) : list Z := zrange 0 (Z.to_nat n).

Lemma In_range0 n x : In x (range0 n) <-> 0 <= x < n.
Proof. unfold range0. rewrite In_zrange. lia. Qed.

(** [for i in range(n): st = body i st] *)
Fixpoint for_list {St} (l : list Z) (body : Z -> St -> res St) (st : St) : res St :=
  match l with
  | [] => Ok st
  | i :: l' => let* st' := body i st in for_list l' body st'
  end.

Definition for_range {St} (n : Z) (body : Z -> St -> res St) (st : St) : res St :=
  for_list (range0 n) body st.

Lemma for_list_app {St} l1 l2 (body : Z -> St -> res St) st :
  for_list (l1 ++ l2) body st = let* st' := for_list l1 body st in for_list l2 body st'.
Proof.
  revert st; induction l1 as [|i l1 IH]; intros st; simpl; [reflexivity|].
  destruct (body i st); simpl; auto.
Qed.

(** Invariant rule: [P k st] = state after [k] iterations. *)
Lemma for_range_inv {St} (P : Z -> St -> Prop) n (body : Z -> St -> res St) st :
  0 <= n ->
  P 0 st ->
  (forall i st, 0 <= i < n -> P i st -> exists st', body i st = Ok st' /\ P (i + 1) st') ->
  exists st', for_range n body st = Ok st' /\ P n st'.
Proof.
  intros Hn H0 Hstep. unfold for_range, range0.
  assert (G : forall k, (Z.of_nat k <= n) ->
     exists st', for_list (zrange 0 k) body st = Ok st' /\ P (Z.of_nat k) st').
  { induction k as [|k IH]; intros Hk.
    - exists st. split; [reflexivity|exact H0].
    - destruct IH as (st1 & H1 & P1); [lia|].
      destruct (Hstep (Z.of_nat k) st1) as (st2 & H2 & P2); [lia|exact P1|].
      exists st2. split.
      + replace (S k) with (k + 1)%nat by lia. rewrite zrange_app, for_list_app, H1. simpl.
        rewrite H2. reflexivity.
      + replace (Z.of_nat (S k)) with (Z.of_nat k + 1) by lia. exact P2. }
  destruct (G (Z.to_nat n)) as (st' & H & HP); [lia|].
  exists st'. split; [exact H|]. rewrite Z2Nat.id in HP by lia. exact HP.
Qed.

(** Exceptional exit: if iteration [k] raises after [k] good ones, the loop raises. *)
Lemma for_range_err {St} (P : Z -> St -> Prop) n k e (body : Z -> St -> res St) st :
  0 <= k < n ->
  P 0 st ->
  (forall i st, 0 <= i < k -> P i st -> exists st', body i st = Ok st' /\ P (i + 1) st') ->
  (forall st, P k st -> body k st = Err e) ->
  for_range n body st = Err e.
Proof.
  intros Hk H0 Hstep Herr.
  destruct (for_range_inv P k body st) as (st1 & H1 & P1); try lia; auto.
  unfold for_range, range0 in *.
  replace (Z.to_nat n) with (Z.to_nat k + (1 + (Z.to_nat n - Z.to_nat k - 1)))%nat by lia.
  rewrite zrange_app, for_list_app, H1. simpl.
  replace (Z.of_nat (Z.to_nat k)) with k by lia. rewrite (Herr _ P1). reflexivity.
Qed.

(** Python-style list access with [IndexError]. *)
Definition nth_res {A} (l : list A) (i : Z) : res A :=
  if (i <? 0) then Err IndexError
  else match nth_error l (Z.to_nat i) with Some a => Ok a | None => Err IndexError end.

Lemma nth_res_Ok {A} (l : list A) i d :
  0 <= i < Z.of_nat (length l) -> nth_res l i = Ok (nth (Z.to_nat i) l d).
Proof.
  intros H. unfold nth_res. destruct (Z.ltb_spec i 0); [lia|].
  rewrite (nth_error_nth' l d) by lia. reflexivity.
Qed.

Lemma nth_res_Err {A} (l : list A) i :
  ~ (0 <= i < Z.of_nat (length l)) -> nth_res l i = Err IndexError.
Proof.
  intros H. unfold nth_res. destruct (Z.ltb_spec i 0); [reflexivity|].
  destruct (nth_error l (Z.to_nat i)) eqn:E; [|reflexivity].
  assert (nth_error l (Z.to_nat i) <> None) by congruence.
  apply nth_error_Some in H1. lia.
Qed.

(** ** Lists *)
Lemma list_eq_nth {A} (d : A) l1 l2 :
  length l1 = length l2 -> (forall i, (i < length l1)%nat -> nth i l1 d = nth i l2 d) -> l1 = l2.
Proof. intros; eapply nth_ext; eauto. Qed.

Lemma nth_map' {A B} (f : A -> B) l i d d' :
  (i < length l)%nat -> nth i (map f l) d' = f (nth i l d).
Proof.
  intros H. rewrite (nth_indep _ d' (f d)) by (now rewrite map_length). apply map_nth.
Qed.

Lemma concat_length_const {A} (ls : list (list A)) k :
  Forall (fun l => length l = k) ls -> length (concat ls) = (length ls * k)%nat.
Proof.
  induction 1; simpl; [reflexivity|]. rewrite app_length. lia.
Qed.

Lemma nth_concat_const {A} (ls : list (list A)) k b j d :
  Forall (fun l => length l = k) ls -> (j < k)%nat -> (b < length ls)%nat ->
  nth (b * k + j) (concat ls) d = nth j (nth b ls []) d.
Proof.
  intros H; revert b; induction H as [|l ls Hl H IH]; intros b Hj Hb; simpl in *; [lia|].
  destruct b as [|b]; simpl.
  - rewrite app_nth1 by lia. reflexivity.
  - rewrite app_nth2 by lia. replace (k + b * k + j - length l)%nat with (b * k + j)%nat by lia.
    apply IH; lia.
Qed.

Lemma skipn_skipn' {A} (a b : nat) (l : list A) : skipn a (skipn b l) = skipn (a + b) l.
Proof.
  revert l; induction b as [|b IH]; intros l; simpl.
  - now rewrite Nat.add_0_r.
  - rewrite Nat.add_succ_r. destruct l; simpl; [now rewrite skipn_nil|apply IH].
Qed.

Lemma firstn_app_exact {A} (l1 l2 : list A) : firstn (length l1) (l1 ++ l2) = l1.
Proof. rewrite firstn_app, Nat.sub_diag, firstn_all. simpl. apply app_nil_r. Qed.

Lemma skipn_app_exact {A} (l1 l2 : list A) : skipn (length l1) (l1 ++ l2) = l2.
Proof. rewrite skipn_app, Nat.sub_diag, skipn_all. reflexivity. Qed.

(** cut a list into pieces of [k] elements; only meaningful for [k > 0] *)
Fixpoint chunk_fuel {A} (fuel : nat) (k : nat) (l : list A) : list (list A) :=
  match fuel with
  | O => []
  | S fuel' => match l with [] => [] | _ => firstn k l :: chunk_fuel fuel' k (skipn k l) end
  end.
Definition pieces {A} (k : nat) (l : list A) : list (list A) := chunk_fuel (length l) k l.

Lemma chunk_fuel_irrel {A} k n m (l : list A) :
  (0 < k)%nat -> (length l <= n)%nat -> (length l <= m)%nat -> chunk_fuel n k l = chunk_fuel m k l.
Proof.
  intros Hk. revert m l. induction n as [|n IH]; intros m l Hn Hm.
  - destruct l; [|simpl in Hn; lia]. destruct m; reflexivity.
  - destruct l as [|a l]; [destruct m; reflexivity|].
    destruct m as [|m]; [simpl in Hm; lia|]. cbn [chunk_fuel]. f_equal.
    apply IH; rewrite skipn_length; cbn [length] in *; lia.
Qed.

Lemma pieces_fuel_enough {A} k n (l : list A) :
  (0 < k)%nat -> (length l <= n)%nat -> chunk_fuel n k l = pieces k l.
Proof. intros Hk H. unfold pieces. apply chunk_fuel_irrel; lia. Qed.

Lemma pieces_cons {A} k (l : list A) :
  (0 < k)%nat -> l <> [] -> pieces k l = firstn k l :: pieces k (skipn k l).
Proof.
  intros Hk Hl. unfold pieces at 1. destruct l as [|a l]; [congruence|].
  cbn [length chunk_fuel]. f_equal. apply pieces_fuel_enough; [exact Hk|].
  rewrite skipn_length. cbn [length]. lia.
Qed.

Lemma concat_pieces {A} k (l : list A) : (0 < k)%nat -> concat (pieces k l) = l.
Proof.
  intros Hk. remember (length l) as m eqn:Em. revert l Em.
  induction m as [m IH] using lt_wf_ind; intros l Em. destruct l as [|a l]; [reflexivity|].
  rewrite pieces_cons by (auto; discriminate). cbn [concat].
  rewrite (IH (length (skipn k (a :: l)))); [apply firstn_skipn| |reflexivity].
  rewrite skipn_length. cbn [length] in *. lia.
Qed.

Lemma pieces_concat {A} k (ls : list (list A)) :
  (0 < k)%nat -> Forall (fun l => length l = k) ls -> pieces k (concat ls) = ls.
Proof.
  intros Hk. induction 1 as [|l ls Hl H IH]; [reflexivity|].
  cbn [concat]. rewrite pieces_cons; [| exact Hk |].
  - rewrite <- Hl, firstn_app_exact, skipn_app_exact, Hl, IH. reflexivity.
  - destruct l; simpl in *; [lia|discriminate].
Qed.

Lemma pieces_whole {A} k n (l : list A) :
  (0 < k)%nat -> length l = (n * k)%nat ->
  Forall (fun p => length p = k) (pieces k l) /\ length (pieces k l) = n.
Proof.
  intros Hk. revert l. induction n as [|n IH]; intros l Hl.
  - destruct l; [|discriminate]. split; [constructor|reflexivity].
  - rewrite pieces_cons; [| exact Hk |].
    + destruct (IH (skipn k l)) as [H1 H2]; [rewrite skipn_length; lia|].
      split; [constructor; [rewrite firstn_length; lia|exact H1]|simpl; lia].
    + intros ->. simpl in Hl. lia.
Qed.

(** ** option *)
Definition obind {A B} (x : option A) (f : A -> option B) : option B :=
  match x with Some a => f a | None => None end.
