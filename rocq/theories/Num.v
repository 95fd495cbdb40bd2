(** Arithmetic interface. [NumOps T] lists the operations the code performs on
    numbers; nothing is assumed about them. *)
From Coq Require Import ZArith List Lia Bool Reals QArith Qround Lra.
From Verif Require Import Base.
Import ListNotations.
Open Scope Z_scope.

Class NumOps (T : Type) := {
  nz : Z -> T;              (* integer literal / conversion from an integer *)
  nadd : T -> T -> T;
  nsub : T -> T -> T;
  nmul : T -> T -> T;
  ndiv : T -> T -> T;
  nsqrt : T -> T;
  ncos : T -> T;
  nsin : T -> T;
  nacos : T -> T;
  nasin : T -> T;
  npi : T;
  nltb : T -> T -> bool;
  nleb : T -> T -> bool;
  neqb : T -> T -> bool;
  ntrunc : T -> Z;          (* C cast (int)x; some int when x does not fit *)
  nfloor : T -> Z;          (* floor, as an integer index *)
  nst : T -> T              (* rounding when stored in the working precision *)
}.

Declare Scope num_scope.
Delimit Scope num_scope with num.
Infix "+" := nadd : num_scope.
Infix "-" := nsub : num_scope.
Infix "*" := nmul : num_scope.
Infix "/" := ndiv : num_scope.
Infix "<?" := nltb : num_scope.
Infix "<=?" := nleb : num_scope.
Infix "=?" := neqb : num_scope.

(** C [int] is 32 bits; out-of-range casts give INT_MIN on x86. *)
Definition int_min : Z := -2147483648.
Definition int_max : Z := 2147483647.
Definition to_int (z : Z) : Z := if (int_min <=? z) && (z <=? int_max) then z else int_min.

(** ** Real numbers *)
Definition Rltb (x y : R) : bool := if Rlt_dec x y then true else false.
Definition Rleb (x y : R) : bool := if Rle_dec x y then true else false.
Definition Reqb (x y : R) : bool := if Req_EM_T x y then true else false.

(** floor and truncation to an integer *)
Definition Rfloor (x : R) : Z := up x - 1.
Definition Rtrunc (x : R) : Z := if Rlt_dec x 0 then - Rfloor (- x) else Rfloor x.

Definition RT : NumOps R := {|
  nz := IZR; nadd := Rplus; nsub := Rminus; nmul := Rmult; ndiv := Rdiv;
  nsqrt := sqrt; ncos := cos; nsin := sin; nacos := acos; nasin := asin; npi := PI;
  nltb := Rltb; nleb := Rleb; neqb := Reqb;
  ntrunc := fun x => to_int (Rtrunc x); nfloor := Rfloor; nst := fun x => x |}.

(** ** Reals with "not a finite number" *)
Definition lift1 {A B} (f : A -> B) (x : option A) : option B :=
  match x with Some a => Some (f a) | None => None end.
Definition lift2 {A B C} (f : A -> B -> C) (x : option A) (y : option B) : option C :=
  match x, y with Some a, Some b => Some (f a b) | _, _ => None end.
Definition liftb {A} (f : A -> A -> bool) (x y : option A) : bool :=
  match x, y with Some a, Some b => f a b | _, _ => false end.

Definition RNdiv (x y : option R) : option R :=
  match x, y with
  | Some a, Some b => if Req_EM_T b 0 then None else Some (a / b)%R
  | _, _ => None
  end.
Definition RNsqrt (x : option R) : option R :=
  match x with Some a => if Rlt_dec a 0 then None else Some (sqrt a) | None => None end.
Definition RNdom (f : R -> R) (x : option R) : option R :=
  match x with
  | Some a => if Rle_dec (-1) a then (if Rle_dec a 1 then Some (f a) else None) else None
  | None => None
  end.

Definition RN : NumOps (option R) := {|
  nz := fun z => Some (IZR z);
  nadd := lift2 Rplus; nsub := lift2 Rminus; nmul := lift2 Rmult; ndiv := RNdiv;
  nsqrt := RNsqrt; ncos := lift1 cos; nsin := lift1 sin;
  nacos := RNdom acos; nasin := RNdom asin; npi := Some PI;
  nltb := liftb Rltb; nleb := liftb Rleb; neqb := liftb Reqb;
  ntrunc := fun x => match x with Some a => to_int (Rtrunc a) | None => int_min end;
  nfloor := fun x => match x with Some a => Rfloor a | None => 0 end;
  nst := fun x => x |}.

(** ** Rationals with "not a finite number": only used to run the model. *)
Definition Qltb (x y : Q) : bool := negb (Qle_bool y x).
Definition QNdiv (x y : option Q) : option Q :=
  match x, y with
  | Some a, Some b => if Qeq_bool b 0 then None else Some (Qred (a / b))
  | _, _ => None
  end.
Definition Qtrunc (x : Q) : Z := Z.quot (Qnum x) (Zpos (Qden x)).

Definition QN : NumOps (option Q) := {|
  nz := fun z => Some (inject_Z z);
  nadd := lift2 (fun a b => Qred (a + b)); nsub := lift2 (fun a b => Qred (a - b));
  nmul := lift2 (fun a b => Qred (a * b)); ndiv := QNdiv;
  nsqrt := fun _ => None; ncos := fun _ => None; nsin := fun _ => None;
  nacos := fun _ => None; nasin := fun _ => None; npi := None;
  nltb := liftb Qltb; nleb := liftb Qle_bool; neqb := liftb Qeq_bool;
  ntrunc := fun x => match x with Some a => to_int (Qtrunc a) | None => int_min end;
  nfloor := fun x => match x with Some a => Qfloor a | None => 0 end;
  nst := fun x => x |}.

(** total rationals, to run the legacy model *)
Definition QT : NumOps Q := {|
  nz := inject_Z;
  nadd := fun a b => Qred (a + b); nsub := fun a b => Qred (a - b);
  nmul := fun a b => Qred (a * b); ndiv := fun a b => Qred (a / b);
  nsqrt := fun x => x; ncos := fun x => x; nsin := fun x => x;
  nacos := fun x => x; nasin := fun x => x; npi := 3 # 1;
  nltb := Qltb; nleb := Qle_bool; neqb := Qeq_bool;
  ntrunc := fun x => to_int (Qtrunc x); nfloor := Qfloor; nst := fun x => x |}.

(** ** Lemmas *)
Lemma Rltb_true x y : Rltb x y = true <-> (x < y)%R.
Proof. unfold Rltb; destruct (Rlt_dec x y); split; intros; try discriminate; auto; contradiction. Qed.
Lemma Rltb_false x y : Rltb x y = false <-> (y <= x)%R.
Proof. unfold Rltb; destruct (Rlt_dec x y); split; intros; try discriminate; auto; lra. Qed.
Lemma Rleb_true x y : Rleb x y = true <-> (x <= y)%R.
Proof. unfold Rleb; destruct (Rle_dec x y); split; intros; try discriminate; auto; contradiction. Qed.
Lemma Rleb_false x y : Rleb x y = false <-> (y < x)%R.
Proof. unfold Rleb; destruct (Rle_dec x y); split; intros; try discriminate; auto; lra. Qed.
Lemma Reqb_true x y : Reqb x y = true <-> x = y.
Proof. unfold Reqb; destruct (Req_EM_T x y); split; intros; try discriminate; auto; contradiction. Qed.
Lemma Reqb_false x y : Reqb x y = false <-> x <> y.
Proof. unfold Reqb; destruct (Req_EM_T x y); split; intros; try discriminate; auto; contradiction. Qed.
Lemma Reqb_refl x : Reqb x x = true.
Proof. now apply Reqb_true. Qed.

Lemma Rfloor_spec x : (IZR (Rfloor x) <= x < IZR (Rfloor x) + 1)%R.
Proof.
  unfold Rfloor. destruct (archimed x) as [H1 H2].
  rewrite minus_IZR. lra.
Qed.
Lemma Rfloor_unique x z : (IZR z <= x < IZR z + 1)%R -> Rfloor x = z.
Proof.
  intros H. pose proof (Rfloor_spec x) as G.
  assert (A : (IZR (Rfloor x) < IZR z + 1)%R) by lra.
  assert (B : (IZR z < IZR (Rfloor x) + 1)%R) by lra.
  rewrite <- plus_IZR in A, B. apply lt_IZR in A, B. lia.
Qed.
Lemma Rfloor_IZR z : Rfloor (IZR z) = z.
Proof. apply Rfloor_unique; lra. Qed.
Lemma Rtrunc_nonneg x : (0 <= x)%R -> Rtrunc x = Rfloor x.
Proof. intros; unfold Rtrunc; destruct (Rlt_dec x 0); [lra|reflexivity]. Qed.
Lemma Rtrunc_neg x : (x <= 0)%R -> Rtrunc x <= 0.
Proof.
  intros H; unfold Rtrunc. destruct (Rlt_dec x 0).
  - pose proof (Rfloor_spec (- x)).
    assert (0 <= Rfloor (- x)); [|lia].
    destruct (Z.le_gt_cases 0 (Rfloor (- x))); auto.
    exfalso. assert (IZR (Rfloor (- x)) + 1 <= 0)%R; [|lra].
    rewrite <- plus_IZR. apply IZR_le. lia.
  - assert (x = 0%R) by lra. subst. replace 0%R with (IZR 0) by reflexivity. rewrite Rfloor_IZR. lia.
Qed.

Lemma RNdiv_some a b : b <> 0%R -> RNdiv (Some a) (Some b) = Some (a / b)%R.
Proof. intros; unfold RNdiv; destruct (Req_EM_T b 0); [contradiction|reflexivity]. Qed.
Lemma RNsqrt_some a : (0 <= a)%R -> RNsqrt (Some a) = Some (sqrt a).
Proof. intros; unfold RNsqrt; destruct (Rlt_dec a 0); [lra|reflexivity]. Qed.
Lemma RNdom_some f a : (-1 <= a <= 1)%R -> RNdom f (Some a) = Some (f a).
Proof.
  intros; unfold RNdom. destruct (Rle_dec (-1) a); [|lra]. destruct (Rle_dec a 1); [|lra]. reflexivity.
Qed.
