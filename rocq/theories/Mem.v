(** Memory of compiled (Cython) code: buffers, views of them, loops that write them.
    Nothing here models code of the repository. *)
From Coq Require Import ZArith List Lia Bool.
From Verif Require Import Base.
Import ListNotations.
Open Scope Z_scope.

(** A contiguous piece of memory of [bsize] elements. *)
Record buf (E : Type) := { bsize : Z; bat : Z -> E }.
Arguments bsize {E}. Arguments bat {E}.

(** A two-dimensional memoryview: element (i, j) is at offset voff + i * vs0 + j of the buffer. *)
Record vw := { voff : Z; vs0 : Z; vrows : Z; vcols : Z }.
Definition addr (v : vw) (i j : Z) : Z := voff v + i * vs0 v + j.

(** view of a whole C-contiguous array *)
Definition full (r c : Z) : vw := {| voff := 0; vs0 := c; vrows := r; vcols := c |}.

(** slice bounds: negative values count from the end, then clamped *)
Definition bound (n i : Z) : Z := Z.max 0 (Z.min (if i <? 0 then i + n else i) n).
(** v[r0:r1, c0:c1] *)
Definition slice (v : vw) (r0 r1 c0 c1 : Z) : vw :=
  let r0 := bound (vrows v) r0 in
  let r1 := bound (vrows v) r1 in
  let c0 := bound (vcols v) c0 in
  let c1 := bound (vcols v) c1 in
  {| voff := voff v + r0 * vs0 v + c0; vs0 := vs0 v; vrows := Z.max 0 (r1 - r0); vcols := Z.max 0 (c1 - c0) |}.
(** v[r0:r1] *)
Definition slice_rows (v : vw) (r0 r1 : Z) : vw := slice v r0 r1 0 (vcols v).

(** Accesses compiled without bounds check: an offset outside the buffer is undefined behaviour ([OutOfBounds]);
    an index outside the view but inside the buffer accesses another element, as in C. *)
Definition rdo {E} (b : buf E) (a : Z) : res E :=
  if (0 <=? a) && (a <? bsize b) then Ok (bat b a) else Err OutOfBounds.
Definition wro {E} (b : buf E) (a : Z) (x : E) : res (buf E) :=
  if (0 <=? a) && (a <? bsize b)
  then Ok {| bsize := bsize b; bat := fun a' => if a' =? a then x else bat b a' |}
  else Err OutOfBounds.
Definition rd {E} (b : buf E) (v : vw) (i j : Z) : res E := rdo b (addr v i j).
Definition wr {E} (b : buf E) (v : vw) (i j : Z) (x : E) : res (buf E) := wro b (addr v i j) x.

Lemma rdo_ok {E} (b : buf E) a : 0 <= a < bsize b -> rdo b a = Ok (bat b a).
Proof.
  intros H. unfold rdo. destruct (Z.leb_spec 0 a); [|lia]. destruct (Z.ltb_spec a (bsize b)); [|lia]. reflexivity.
Qed.
Lemma rdo_oob {E} (b : buf E) a : ~ 0 <= a < bsize b -> rdo b a = Err OutOfBounds.
Proof.
  intros H. unfold rdo. destruct (Z.leb_spec 0 a); [|reflexivity]. destruct (Z.ltb_spec a (bsize b)); [lia|]. reflexivity.
Qed.
Lemma wro_oob {E} (b : buf E) a x : ~ 0 <= a < bsize b -> wro b a x = Err OutOfBounds.
Proof.
  intros H. unfold wro. destruct (Z.leb_spec 0 a); [|reflexivity]. destruct (Z.ltb_spec a (bsize b)); [lia|]. reflexivity.
Qed.

(** ** Steps
    [step F S b b']: b' is b after writes that put [F a] at offsets [a], at all offsets of [S] at least. *)
Definition step {E} (F : Z -> E) (S : Z -> Prop) (b b' : buf E) : Prop :=
  bsize b' = bsize b /\ forall a, bat b' a = F a \/ (bat b' a = bat b a /\ ~ S a).

Lemma wro_step {E} (F : Z -> E) (b : buf E) a x : 0 <= a < bsize b -> x = F a ->
  exists b', wro b a x = Ok b' /\ step F (eq a) b b'.
Proof.
  intros H ->. unfold wro. destruct (Z.leb_spec 0 a); [|lia]. destruct (Z.ltb_spec a (bsize b)); [|lia]. cbn [andb].
  eexists. split; [reflexivity|]. split; [reflexivity|]. intros a'. cbn [bat].
  destruct (Z.eqb_spec a' a) as [->|]; [now left|right]. split; [reflexivity|congruence].
Qed.

Lemma step_refl {E} (F : Z -> E) b : step F (fun _ => False) b b.
Proof. split; [reflexivity|]. intros a. right. tauto. Qed.
Lemma step_seq {E} (F : Z -> E) S1 S2 b b1 b2 : step F S1 b b1 -> step F S2 b1 b2 -> step F (fun a => S1 a \/ S2 a) b b2.
Proof.
  intros [A1 B1] [A2 B2]. split; [congruence|]. intros a. destruct (B2 a) as [|[E2 N2]]; [now left|].
  destruct (B1 a) as [E1|[E1 N1]]; [left; congruence|right]. split; [congruence|tauto].
Qed.
Lemma step_weaken {E} (F : Z -> E) (S S' : Z -> Prop) b b' : (forall a, S' a -> S a) -> step F S b b' -> step F S' b b'.
Proof. intros H [A B]. split; [exact A|]. intros a. destruct (B a) as [|[]]; [now left|right; split; auto]. Qed.
(** only the values of F on the buffer matter *)
Lemma step_at {E} (F : Z -> E) (S : Z -> Prop) b b' a : step F S b b' -> S a -> bat b' a = F a.
Proof. intros [_ B] H. destruct (B a) as [|[]]; [assumption|contradiction]. Qed.
Lemma step_keep {E} (F : Z -> E) (S : Z -> Prop) b b' a : step F S b b' -> bat b a = F a -> bat b' a = F a.
Proof. intros [_ B] H. destruct (B a) as [|[-> _]]; assumption. Qed.

(** ** Loops over a relation indexed by sets, e.g. [step F] *)
Lemma for_rel {St} (R : (Z -> Prop) -> St -> St -> Prop) (Inv : St -> Prop) (S : Z -> Z -> Prop) n body st :
  (forall (P Q : Z -> Prop) s s', (forall a, Q a -> P a) -> R P s s' -> R Q s s') ->
  R (fun _ => False) st st ->
  (forall (P Q : Z -> Prop) s s1 s2, R P s s1 -> R Q s1 s2 -> R (fun a => P a \/ Q a) s s2) ->
  Inv st ->
  (forall t s, 0 <= t < n -> Inv s -> exists s', body t s = Ok s' /\ R (S t) s s' /\ Inv s') ->
  exists st', for_range n body st = Ok st' /\ R (fun a => exists t, 0 <= t < n /\ S t a) st st' /\ Inv st'.
Proof.
  intros W R0 Rs HI Hb. destruct (Z.le_gt_cases 0 n) as [Hn|Hn].
  - destruct (for_range_inv (fun k s => R (fun a => exists t, 0 <= t < k /\ S t a) st s /\ Inv s) n body st) as (s' & E & A & B).
    + lia.
    + split; [|exact HI]. eapply W; [|exact R0]. intros a (t & Ht & _). lia.
    + intros i s Hi [A B]. destruct (Hb i s Hi B) as (s' & E & C & D). exists s'. split; [exact E|]. split; [|exact D].
      eapply W; [|exact (Rs _ _ _ _ _ A C)]. intros a (t & Ht & Hs).
      destruct (Z.eq_dec t i) as [->|]; [right; exact Hs|left; exists t; split; [lia|exact Hs]].
    + exists s'. auto.
  - exists st. unfold for_range, range0. replace (Z.to_nat n) with 0%nat by lia. split; [reflexivity|]. split; [|exact HI].
    eapply W; [|exact R0]. intros a (t & Ht & _). lia.
Qed.

Lemma for_step {E} (F : Z -> E) (S : Z -> Z -> Prop) n body b :
  (forall t s, 0 <= t < n -> bsize s = bsize b -> exists s', body t s = Ok s' /\ step F (S t) s s') ->
  exists b', for_range n body b = Ok b' /\ step F (fun a => exists t, 0 <= t < n /\ S t a) b b'.
Proof.
  intros Hb. destruct (for_rel (step F) (fun s => bsize s = bsize b) S n body b) as (b' & H & A & _).
  - intros; eapply step_weaken; eauto.
  - apply step_refl.
  - intros; eapply step_seq; eauto.
  - reflexivity.
  - intros t s Ht Hs. destruct (Hb t s Ht Hs) as (s' & H1 & H2). exists s'. split; [exact H1|]. split; [exact H2|].
    destruct H2. congruence.
  - eauto.
Qed.

(** two buffers written together *)
Definition step2 {E1 E2} (F : Z -> E1) (G : Z -> E2) (S1 S2 : Z -> Prop) (p p' : buf E1 * buf E2) : Prop :=
  step F S1 (fst p) (fst p') /\ step G S2 (snd p) (snd p').
(** sets of pairs of sets are indexed by offsets of the first (even) and the second buffer (odd) *)
Lemma for_step2 {E1 E2} (F : Z -> E1) (G : Z -> E2) (S1 S2 : Z -> Z -> Prop) n body p :
  (forall t s, 0 <= t < n -> bsize (fst s) = bsize (fst p) -> bsize (snd s) = bsize (snd p) ->
     exists s', body t s = Ok s' /\ step2 F G (S1 t) (S2 t) s s') ->
  exists p', for_range n body p = Ok p' /\
    step2 F G (fun a => exists t, 0 <= t < n /\ S1 t a) (fun a => exists t, 0 <= t < n /\ S2 t a) p p'.
Proof.
  intros Hb.
  destruct (for_rel (fun S s s' => step F (fun a => S (2 * a)) (fst s) (fst s') /\ step G (fun a => S (2 * a + 1)) (snd s) (snd s'))
    (fun s => bsize (fst s) = bsize (fst p) /\ bsize (snd s) = bsize (snd p))
    (fun t a => if Z.even a then S1 t (a / 2) else S2 t (a / 2)) n body p) as (p' & H & [A B] & _).
  - intros P Q s s' W [A B]. split; eapply step_weaken; try eassumption; auto; cbn; auto.
  - split; apply step_refl.
  - intros P Q s s1 s2 [A1 B1] [A2 B2]. split; eapply step_seq; eauto.
  - auto.
  - intros t s Ht [H1 H2]. destruct (Hb t s Ht H1 H2) as (s' & E & A & B). exists s'. split; [exact E|].
    destruct A as [A1 A2], B as [B1 B2]. split; [split|split; congruence].
    + split; [exact A1|]. intros a. destruct (A2 a) as [|[X Y]]; [now left|right]. split; [exact X|].
      rewrite Z.even_mul. cbn [Z.even orb]. replace (2 * a / 2) with a by (symmetry; rewrite Z.mul_comm; apply Z.div_mul; lia). exact Y.
    + split; [exact B1|]. intros a. destruct (B2 a) as [|[X Y]]; [now left|right]. split; [exact X|].
      rewrite Z.even_add, Z.even_mul. cbn [Z.even orb xorb Bool.eqb].
      replace ((2 * a + 1) / 2) with a by (rewrite Z.mul_comm, Z.div_add_l by lia; cbn; lia). exact Y.
  - exists p'. split; [exact H|]. split.
    + eapply step_weaken; [|exact A]. intros a (t & Ht & Hs). exists t. split; [exact Ht|].
      rewrite Z.even_mul. cbn [Z.even orb]. replace (2 * a / 2) with a by (symmetry; rewrite Z.mul_comm; apply Z.div_mul; lia). exact Hs.
    + eapply step_weaken; [|exact B]. intros a (t & Ht & Hs). exists t. split; [exact Ht|].
      rewrite Z.even_add, Z.even_mul. cbn [Z.even orb xorb Bool.eqb].
      replace ((2 * a + 1) / 2) with a by (rewrite Z.mul_comm, Z.div_add_l by lia; cbn; lia). exact Hs.
Qed.

(** ** Offsets of a row-major array of [w] columns *)
Definition flat2 {A} (w : Z) (F : Z -> Z -> A) (a : Z) : A := F (a / w) (a mod w).
Lemma flat2_at {A} w (F : Z -> Z -> A) i j : 0 <= j < w -> flat2 w F (i * w + j) = F i j.
Proof.
  intros H. unfold flat2. rewrite Z.add_comm, Z_div_plus_full, Z_mod_plus_full by lia.
  rewrite Z.div_small, Z.mod_small by lia. reflexivity.
Qed.
Lemma off_split w a : 0 < w -> a = a / w * w + a mod w /\ 0 <= a mod w < w.
Proof. intros H. pose proof (Z.div_mod a w ltac:(lia)). pose proof (Z.mod_pos_bound a w H). lia. Qed.
Lemma off_range r w i j : 0 <= i < r -> 0 <= j < w -> 0 <= i * w + j < r * w.
Proof. intros; nia. Qed.
