(** C01, C02: scene splits. *)
From Coq Require Import ZArith List Lia Bool.
From Verif Require Import Spec Base Splits SplitsProofs.
Import ListNotations.
Open Scope Z_scope.

Lemma splits_tile_aux {A} (l : list A) (s c : Z) :
  1 <= s -> 1 <= c ->
  exists splits, get_scene_splits (Z.of_nat (length l)) s c = Ok splits /\
    concat (vsplit l splits) = l /\
    (l <> [] -> Forall (fun p => p <> []) (vsplit l splits)) /\
    exists k front last, 1 <= k /\ vsplit l splits = front ++ [last] /\
      Forall (fun p => Z.of_nat (length p) = k * s) front /\ Z.of_nat (length last) <= k * s.
Proof.
  intros Hs Hc. destruct l as [|a l'].
  - destruct (@vsplit_empty A s c Hs Hc) as [E1 E2]. exists []. cbn [length]. change (Z.of_nat 0) with 0.
    rewrite E1, E2. repeat split; try congruence. exists 1, [], []. repeat split; auto; cbn [length]; lia.
  - set (l := a :: l') in *. assert (Hl : l <> []) by discriminate.
    destruct (vsplit_pieces l s c Hl Hs Hc) as (splits & E1 & E2). exists splits. rewrite E2.
    set (L := Z.of_nat (length l)) in *.
    pose proof (part_lines_pos L s c ltac:(lia) Hs Hc) as Hp.
    pose proof (part_scans_pos L s c ltac:(lia) Hs Hc) as Hk.
    assert (Hp' : (0 < Z.to_nat (part_lines L s c))%nat) by lia.
    destruct (pieces_shape _ l Hp' Hl) as (front & lst & E3 & F & Hlast).
    repeat split; auto.
    + now apply concat_pieces.
    + intros _. rewrite E3. apply Forall_app. split.
      * eapply Forall_impl; [|exact F]. intros p Hpl ->. simpl in Hpl. lia.
      * constructor; [|constructor]. intros ->. simpl in Hlast. lia.
    + exists (part_scans L s c), front, lst. repeat split; auto.
      * eapply Forall_impl; [|exact F]. intros p Hpl. cbv beta. unfold part_lines in Hpl. lia.
      * unfold part_lines in Hlast. lia.
Qed.

Lemma splits_count_aux {A} (l : list A) (s c : Z) splits :
  1 <= s -> 1 <= c -> get_scene_splits (Z.of_nat (length l)) s c = Ok splits ->
  (c <= Z.of_nat (length l) / s -> c <= Z.of_nat (length (vsplit l splits)) <= 2 * c) /\
  (Z.of_nat (length l) / s < c -> exists front last, vsplit l splits = front ++ [last] /\
      Forall (fun p => Z.of_nat (length p) = s) front).
Proof.
  intros Hs Hc E. destruct l as [|a l'].
  - destruct (@vsplit_empty A s c Hs Hc) as [E1 E2]. cbn [length] in *. change (Z.of_nat 0) with 0 in *.
    rewrite E1 in E. injection E as <-. rewrite E2. rewrite Zdiv_0_l. split; [lia|].
    intros _. exists [], []. split; [reflexivity|constructor].
  - set (l := a :: l') in *. assert (Hl : l <> []) by discriminate.
    destruct (vsplit_pieces l s c Hl Hs Hc) as (splits' & E1 & E2).
    assert (splits' = splits) by congruence. subst splits'. rewrite E2.
    set (L := Z.of_nat (length l)) in *.
    assert (HL : 0 <= L) by lia.
    pose proof (part_lines_pos L s c HL Hs Hc) as Hp.
    pose proof (part_scans_pos L s c HL Hs Hc) as Hk.
    assert (Hp' : (0 < Z.to_nat (part_lines L s c))%nat) by lia.
    split.
    + intros Hq. rewrite pieces_length by exact Hp'. rewrite Z2Nat.id by lia. fold L.
      assert (Ek : part_scans L s c = L / s / c).
      { unfold part_scans. destruct (Z.ltb_spec (L / s) c); lia. }
      set (q := L / s) in *. set (k := part_scans L s c) in *.
      assert (Epl : part_lines L s c = k * s) by reflexivity. rewrite Epl.
      pose proof (Z.div_mod L s ltac:(lia)) as D1. pose proof (Z.mod_pos_bound L s ltac:(lia)) as B1. fold q in D1.
      pose proof (Z.div_mod q c ltac:(lia)) as D2. pose proof (Z.mod_pos_bound q c ltac:(lia)) as B2. rewrite <- Ek in D2.
      assert (KS : 0 < k * s) by nia.
      split.
      * apply Z.div_le_lower_bound; [exact KS|]. nia.
      * assert ((L + k * s - 1) / (k * s) < 2 * c + 1); [|lia].
        apply Z.div_lt_upper_bound; [exact KS|]. nia.
    + intros Hq. destruct (pieces_shape _ l Hp' Hl) as (front & lst & E3 & F & _).
      exists front, lst. split; [exact E3|]. eapply Forall_impl; [|exact F]. intros p Hpl. cbv beta.
      unfold part_lines, part_scans in Hpl. destruct (Z.ltb_spec (L / s) c); lia.
Qed.

(** C01 *)
Theorem C01_splits_tile : forall {A} (l : list A) (s c : Z),
  1 <= s -> 1 <= c ->
  exists splits, get_scene_splits (Z.of_nat (length l)) s c = Ok splits /\
    concat (vsplit l splits) = l /\
    (l <> [] -> Forall (fun p => p <> []) (vsplit l splits)) /\
    exists k front last, 1 <= k /\ vsplit l splits = front ++ [last] /\
      Forall (fun p => Z.of_nat (length p) = k * s) front /\ Z.of_nat (length last) <= k * s.
Proof. exact @splits_tile_aux. Qed.
Print Assumptions C01_splits_tile.

Example C01_nonvacuous :
  get_scene_splits (Z.of_nat (length (seq 0 53))) 10 2 = Ok [20; 40] /\
  vsplit (seq 0 53) [20; 40] = [seq 0 20; seq 20 20; seq 40 13].
Proof. split; reflexivity. Qed.

(** C02 *)
Theorem C02_splits_count : forall {A} (l : list A) (s c : Z) splits,
  1 <= s -> 1 <= c -> get_scene_splits (Z.of_nat (length l)) s c = Ok splits ->
  (c <= Z.of_nat (length l) / s -> c <= Z.of_nat (length (vsplit l splits)) <= 2 * c) /\
  (Z.of_nat (length l) / s < c -> exists front last, vsplit l splits = front ++ [last] /\
      Forall (fun p => Z.of_nat (length p) = s) front).
Proof. exact @splits_count_aux. Qed.
Print Assumptions C02_splits_count.

(** both cases occur, and the bounds are reached *)
Example C02_nonvacuous_many : get_scene_splits 30 10 2 = Ok [10; 20] /\ (2 <= 30 / 10) /\
  length (vsplit (seq 0 30) [10; 20]) = 3%nat.
Proof. repeat split; try reflexivity; try (compute; congruence). Qed.
Example C02_upper_reached : get_scene_splits 19 10 1 = Ok [10] /\ length (vsplit (seq 0 19) [10]) = 2%nat.
Proof. split; reflexivity. Qed.
Example C02_nonvacuous_few : get_scene_splits 25 10 4 = Ok [10; 20] /\ (25 / 10 < 4).
Proof. split; reflexivity. Qed.
