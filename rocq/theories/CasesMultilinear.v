(** Concrete cases of the theorems about the multilinear interpolation: C29, C64, C79, C80. *)
From Coq Require Import ZArith List Bool Lia Permutation Reals Lra.
From Flocq.Core Require Import Core.
From Verif Require Import Base Num Float FloatGeo FloatAcc FloatTrip FloatNear Multilinear MultilinearProofs FloatMultilinear PropsMultilinear PropsFloatMultilinear.
Import ListNotations.
Open Scope R_scope.

Lemma run_21 {T} (a b : T) (V : list T) : run_ok 2 [[1; 0]%Z] [[a; b]] [V].
Proof.
  split; [reflexivity|]. split; [reflexivity|]. split; [repeat constructor|]. constructor; [|constructor]. cbn. apply perm_swap.
Qed.
(** a 2 x 3 grid with values between -7 and 4, two points inside, the second one computed first *)
Example C29_case : forall out, @multilinear_interpolation R RT [[1; 0]%Z] [[9; 9]] [0; -1] [1; 3] [2; 3]%Z [[1; 4; -7; 0; 2; 3]] [[1 / 2; 1]; [0; 3]] = Ok out ->
  Forall (Forall (fun v => -7 <= v <= 4)) out.
Proof.
  intros out. apply (C29_between _ _ [0; -1] [1; 3] [2; 3]%nat [[1; 4; -7; 0; 2; 3]] [[1 / 2; 1]; [0; 3]] 2).
  - cbn; lia.
  - apply C27_case.
  - repeat constructor.
  - unfold few, int_max. lia.
  - apply run_21.
  - intros i Hi. assert (i = 0%nat \/ i = 1%nat) as [-> | ->] by lia; cbn; repeat constructor; cbn; lra.
  - constructor; [|constructor]. repeat (constructor; [lra|]). constructor.
Qed.
Example C64_case : forall {T} {N : NumOps T} (a b c d : T), exists g1 g2, mlinspace [a; b] [c; d] [2; 3]%nat = Ok [g1; g2] /\ length g1 = 6%nat /\ length g2 = 6%nat.
Proof.
  intros T N a b c d. destruct (C64_grid_partial [a; b] [c; d] [2; 3]%nat) as (g & E & L & F); [discriminate|reflexivity..|].
  destruct g as [|g1 [|g2 [|? ?]]]; try discriminate. inversion F as [|? ? F1 F']; subst. inversion F' as [|? ? F2 _]; subst. eauto.
Qed.
Lemma fls z : (Z.abs z < 2 ^ 24)%Z -> fl b32 (IZR z). Proof. apply fl32_Z. Qed.
(** on float arrays: the corners (2, -1) and (0, 1) of the 3 x 2 grid *)
Lemma corners_ok : input_ok b32 (Z.to_nat 10000) [0; -1] [2; 1] [3; 2]%nat 2 [[2; 0]; [-1; 1]].
Proof.
  assert (F0 : fl b32 0) by (apply (fls 0); lia). assert (F1 : fl b32 1) by (apply (fls 1); lia).
  assert (F2 : fl b32 2) by (apply (fls 2); lia). assert (F3 : fl b32 (-1)) by (apply (fls (-1)); lia).
  unfold input_ok. cbn [length]. split; [unfold few, int_max; lia|]. split; [cbn [prodn fold_right]; unfold int_max; lia|]. split; [lia|]. split; [reflexivity|]. split; [reflexivity|].
  split; [constructor; [lia|constructor; [lia|constructor]]|].
  split; [constructor; [split; [|split]; [auto|auto|lra]|constructor; [split; [|split]; [auto|auto|lra]|constructor]]|].
  split; [split; repeat constructor|]. split.
  - constructor; [|constructor; [|constructor]]; (constructor; [auto|constructor; [auto|constructor]]).
  - intros i Hi. assert (i = 0%nat \/ i = 1%nat) as [-> | ->] by lia; cbn; (constructor; [cbn; lra|constructor; [cbn; lra|constructor]]).
Qed.
Notation vals := [10; 20; 30; 40; 50; 70].
Lemma vals_fl : Forall (Forall (fl b32)) [vals].
Proof. constructor; [|constructor]. repeat (constructor; [apply (fls _); lia|]). constructor. Qed.
Example C79_case : forall c m, @multilinear_interpolation _ (FN b32 b32 c m) [[1; 0]%Z] [[None; None]] [Some 0; Some (-1)] [Some 2; Some 1] [3; 2]%Z
  (some2 [vals]) (some2 [[2; 0]; [-1; 1]]) = Ok [[Some 50; Some 20]].
Proof.
  intros c m.
  pose proof (C79_corners_partial b32 (Z.to_nat 10000) c m [[1; 0]%Z] [[None; None]] [0; -1] [2; 1] [3; 2]%nat [vals] [[2; 0]; [-1; 1]] 2) as H.
  eapply eq_trans; [apply H|]; clear H.
  - right. split; [reflexivity|lia].
  - exact corners_ok.
  - apply run_21.
  - repeat constructor.
  - exact vals_fl.
  - intros i Hi. assert (i = 0%nat \/ i = 1%nat) as [-> | ->] by lia; cbn; (constructor; [cbn; auto|constructor; [cbn; auto|constructor]]).
  - cbn [seq map nth]. unfold corner. repeat (destruct Req_EM_T; try lra). reflexivity.
Qed.
Example C80_case : forall c m out, @multilinear_interpolation _ (FN b32 b32 c m) [[1; 0]%Z] [[None; None]] [Some 0; Some (-1)] [Some 2; Some 1] [3; 2]%Z
  (some2 [vals]) (some2 [[2; 0]; [-1; 1]]) = Ok out -> Forall (Forall (fun x => exists v, x = Some v /\ 10 - 0.001 <= v <= 70 + 0.001)) out.
Proof.
  intros c m out O.
  pose proof (C80_between_partial b32 (Z.to_nat 10000) c m [[1; 0]%Z] [[None; None]] [0; -1] [2; 1] [3; 2]%nat [vals] [[2; 0]; [-1; 1]] 2 100 10 70 out
    ltac:(right; split; [reflexivity|lia]) corners_ok (run_21 _ _ _) ltac:(repeat constructor) ltac:(lra) ltac:(lra) ltac:(lra)) as H.
  assert (V : Forall (Forall (fun v => fl b32 v /\ 10 <= v <= 70)) [vals]).
  { constructor; [|constructor]. repeat (constructor; [split; [apply (fls _); lia|lra]|]). constructor. }
  specialize (H V O). cbv zeta in H. eapply Forall_impl; [|exact H]. intros l. apply Forall_impl. intros x (v & E & B). exists v. split; [exact E|].
  cbn [fprec b32 fold_right Nat.sub INR] in B. rewrite bpow_Zn in B by lia. change (2 ^ (- - (24)))%Z with 16777216%Z in B. lra.
Qed.
