(** Proofs about the functions of geotiepoints/__init__.py. *)
From Coq Require Import ZArith List Lia Bool Reals Lra Permutation.
From Verif Require Import Spec Base Num Splits SplitsProofs Geo Interp PlProofs InterpProofs Legacy.
Import ListNotations.
#[local] Existing Instance RT.
Open Scope R_scope.

Lemma Forall2_map_same {A B C} (P : B -> C -> Prop) (f : A -> B) (g : A -> C) l :
  (forall a, In a l -> P (f a) (g a)) -> Forall2 P (map f l) (map g l).
Proof.
  induction l as [|a l IH]; intros H; cbn [map]; constructor.
  - apply H. now left.
  - apply IH. intros b Hb. apply H. now right.
Qed.

Lemma mapM_err_at' {A B} (f : A -> res B) l1 x l2 e :
  (forall a, In a l1 -> is_ok (f a)) -> f x = Err e -> mapM f (l1 ++ x :: l2) = Err e.
Proof.
  intros H Hx. induction l1 as [|a l1 IH]; cbn [app mapM].
  - now rewrite Hx.
  - destruct (H a) as [b Hb]; [now left|]. rewrite Hb. cbn [bind]. rewrite IH; [reflexivity|].
    intros c Hc. apply H. now right.
Qed.

Lemma mat2_concat {S A B C} (h : A -> B -> C) (f : S -> list (list A)) (g : S -> list (list B)) l :
  (forall s, In s l -> length (f s) = length (g s)) ->
  mat2 h (concat (map f l)) (concat (map g l)) = concat (map (fun s => mat2 h (f s) (g s)) l).
Proof.
  induction l as [|s l IH]; intros H; [reflexivity|]. cbn [map concat].
  unfold mat2. rewrite map2_app by (apply H; now left). f_equal. apply IH. intros t Ht. apply H. now right.
Qed.

Lemma mat1_concat {S A B} (h : A -> B) (f : S -> list (list A)) l :
  mat1 h (concat (map f l)) = concat (map (fun s => mat1 h (f s)) l).
Proof. unfold mat1. now rewrite concat_map, map_map. Qed.

Lemma mat2_shaped {A B C} (h : A -> B -> C) n w a b : shaped n w a -> shaped n w b -> shaped n w (mat2 h a b).
Proof.
  intros [La Ha] [Lb Hb]. split.
  - unfold mat2. rewrite map2_length, La, Lb. apply Nat.min_id.
  - unfold mat2. clear La Lb. revert b Hb. induction Ha as [|r a Hr Ha IH]; intros b Hb; [constructor|].
    destruct Hb as [|s b Hs Hb]; constructor.
    + rewrite map2_length, Hr, Hs. apply Nat.min_id.
    + now apply IH.
Qed.
Lemma mat1_shaped {A B} (h : A -> B) n w a : shaped n w a -> shaped n w (mat1 h a).
Proof.
  intros [L H]. split; [unfold mat1; now rewrite map_length|].
  apply Forall_map. eapply Forall_impl; [|exact H]. intros r Hr. now rewrite map_length.
Qed.

Lemma pieces_mul {A} q m (ds : list (list A)) :
  (0 < q)%nat -> (0 < m)%nat -> Forall (fun d => length d = m) ds ->
  pieces (q * m) (concat ds) = map (@concat A) (pieces q ds).
Proof.
  intros Hq Hm. remember (length ds) as n eqn:En. revert ds En.
  induction n as [n IH] using lt_wf_ind; intros ds En H.
  destruct ds as [|d ds'] eqn:Eds; [reflexivity|]. rewrite <- Eds in *.
  assert (Hne : ds <> []) by (rewrite Eds; discriminate).
  assert (Hlen : length (concat ds) = (length ds * m)%nat) by (now apply concat_length_const).
  assert (Hne' : concat ds <> []).
  { intros E. rewrite E in Hlen. simpl in Hlen. destruct ds; [congruence|]. cbn [length] in Hlen. nia. }
  rewrite (pieces_cons (q * m)) by (auto; nia). rewrite (pieces_cons q ds) by auto. cbn [map].
  assert (E : concat ds = concat (firstn q ds) ++ concat (skipn q ds)) by (now rewrite <- concat_app, firstn_skipn).
  assert (F1 : Forall (fun d => length d = m) (firstn q ds)).
  { rewrite Forall_forall in *. intros x Hx. apply H. rewrite <- (firstn_skipn q ds). apply in_or_app; now left. }
  assert (F2 : Forall (fun d => length d = m) (skipn q ds)).
  { rewrite Forall_forall in *. intros x Hx. apply H. rewrite <- (firstn_skipn q ds). apply in_or_app; now right. }
  assert (L1 : length (concat (firstn q ds)) = (Nat.min q (length ds) * m)%nat).
  { rewrite (concat_length_const _ m F1). now rewrite firstn_length. }
  destruct (Nat.le_gt_cases q (length ds)) as [Hle|Hgt].
  - rewrite Nat.min_l in L1 by exact Hle. f_equal.
    + rewrite E, <- L1. apply firstn_app_exact.
    + rewrite <- (IH (length (skipn q ds))); [| rewrite skipn_length; subst n; rewrite Eds; cbn [length]; lia |reflexivity|exact F2].
      f_equal. rewrite E, <- L1. apply skipn_app_exact.
  - rewrite (firstn_all2 (n := q) ds), (skipn_all2 (n := q) ds) by lia.
    rewrite firstn_all2, skipn_all2 by (rewrite Hlen; nia). reflexivity.
Qed.

Lemma combine_map {A B C} (f : A -> B) (g : A -> C) l : combine (map f l) (map g l) = map (fun a => (f a, g a)) l.
Proof. induction l; simpl; [reflexivity|]. now rewrite IHl. Qed.

Lemma pieces_nonempty {A} k (l : list A) p : (0 < k)%nat -> In p (pieces k l) -> p <> [].
Proof.
  intros Hk Hp E. subst p. destruct l as [|a l]; [destruct Hp|].
  destruct (pieces_shape k (a :: l) Hk) as (front & last & Ep & F & B); [discriminate|].
  rewrite Ep in Hp. apply in_app_or in Hp. destruct Hp as [Hp|[Hp|[]]].
  - rewrite Forall_forall in F. specialize (F _ Hp). simpl in F. lia.
  - subst last. simpl in B. lia.
Qed.

Lemma pieces_incl {A} k (l : list A) p a : (0 < k)%nat -> In p (pieces k l) -> In a p -> In a l.
Proof. intros Hk Hp Ha. rewrite <- (concat_pieces k l Hk). apply in_concat. eauto. Qed.

Lemma vstack_ok {A} w (l : list (list (list A))) :
  l <> [] -> Forall (Forall (fun r => length r = w)) l -> vstack l = Ok (concat l).
Proof.
  intros Hne H. unfold vstack. destruct l as [|a l']; [congruence|].
  destruct (concat (a :: l')) as [|r rs] eqn:E; [reflexivity|].
  assert (G : forall x, In x (r :: rs) -> length x = w).
  { intros x Hx. rewrite <- E in Hx. apply in_concat in Hx. destruct Hx as [b [Hb Hx]].
    rewrite Forall_forall in H. specialize (H b Hb). rewrite Forall_forall in H. auto. }
  replace (forallb _ rs) with true; [reflexivity|].
  symmetry. apply forallb_forall. intros x Hx. apply Nat.eqb_eq.
  rewrite (G x) by now right. rewrite (G r) by now left. reflexivity.
Qed.

(** ** to_geo without the error case *)
Definition geo3 (x y z : mat R) : list (list (option R)) * list (list (option R)) :=
  let ll := mat1 (fun p : R * R * R => let '(a, b, c) := p in @xyz2lonlat _ RN (Some a, Some b, Some c)) (zip3 x y z) in
  (mat1 fst ll, mat1 snd ll).

Lemma to_geo_eq x y z : to_geo [x; y; z] = Ok (geo3 x y z).
Proof. reflexivity. Qed.

Lemma geo3_concat {S} (fx fy fz : S -> mat R) l n :
  (forall s, In s l -> length (fx s) = n /\ length (fy s) = n /\ length (fz s) = n) ->
  geo3 (concat (map fx l)) (concat (map fy l)) (concat (map fz l)) =
  (concat (map (fun s => fst (geo3 (fx s) (fy s) (fz s))) l), concat (map (fun s => snd (geo3 (fx s) (fy s) (fz s))) l)).
Proof.
  intros H. unfold geo3, zip3. cbv zeta. cbn [fst snd].
  rewrite mat2_concat by (intros s Hs; destruct (H s Hs) as (? & ? & ?); congruence).
  rewrite mat2_concat.
  2:{ intros s Hs; destruct (H s Hs) as (? & ? & ?). unfold mat2. rewrite map2_length. rewrite H0, H1, H2. lia. }
  rewrite mat1_concat, !mat1_concat. reflexivity.
Qed.

Lemma geo3_shaped n w x y z : shaped n w x -> shaped n w y -> shaped n w z ->
  shaped n w (fst (geo3 x y z)) /\ shaped n w (snd (geo3 x y z)).
Proof.
  intros Hx Hy Hz. unfold geo3, zip3. cbn [fst snd].
  split; repeat apply mat1_shaped; apply mat2_shaped; auto; now apply mat2_shaped.
Qed.

(** the component arrays of the tie points *)
Definition cx (s : mat R * mat R) : mat R := mat1 (fun t => fst (fst t)) (mat2 lonlat2xyz (fst s) (snd s)).
Definition cy (s : mat R * mat R) : mat R := mat1 (fun t => snd (fst t)) (mat2 lonlat2xyz (fst s) (snd s)).
Definition cz (s : mat R * mat R) : mat R := mat1 snd (mat2 lonlat2xyz (fst s) (snd s)).

Lemma tie_xyz_eq lons lats : tie_xyz lons lats = [cx (lons, lats); cy (lons, lats); cz (lons, lats)].
Proof. reflexivity. Qed.

Lemma c_shaped n w lons lats : shaped n w lons -> shaped n w lats ->
  shaped n w (cx (lons, lats)) /\ shaped n w (cy (lons, lats)) /\ shaped n w (cz (lons, lats)).
Proof.
  intros H1 H2. unfold cx, cy, cz. cbn [fst snd].
  split; [|split]; repeat apply mat1_shaped; apply mat2_shaped; auto.
Qed.

Lemma c_concat (scans : list (mat R * mat R)) :
  (forall s, In s scans -> length (fst s) = length (snd s)) ->
  let all := (concat (map fst scans), concat (map snd scans)) in
  cx all = concat (map cx scans) /\ cy all = concat (map cy scans) /\ cz all = concat (map cz scans).
Proof.
  intros H all. unfold all, cx, cy, cz. cbn [fst snd].
  rewrite mat2_concat by exact H. rewrite !mat1_concat. auto.
Qed.

Section Layout.
Variables (g m : nat) (delta o : R) (cols hcols : list R).
Hypothesis (Hg : (1 <= g)%nat) (Hm : (2 <= m)%nat) (Hdelta : 0 <= delta < 1).
Hypothesis Hfirst : hposn g o 0 < posn delta 0.
Hypothesis Hlast : posn delta (m - 1) < hposn g o (g * m - 1).
Hypothesis Hgm : (g * m <> m + 2)%nat.
Hypothesis Hcols2 : (4 <= length cols)%nat.
Hypothesis Hhcols : hcols <> [].
Hypothesis Hcinc : strict_inc (ext_cols cols hcols) = true.
Hypothesis Hhinc : weak_inc hcols = true.
Variables spl1 spl2 : list R -> list R -> Z -> R -> R.

Definition layout_state (lons lats : mat R) : istate R :=
  st0 g m delta o cols hcols 3 [[]; []; []] (length lons) (tie_xyz lons lats).
Definition layout_run (lons lats : mat R) := geo_fill_interpolate spl1 spl2 (layout_state lons lats).

Definition sr := scan_result g m delta o cols hcols 3 spl2.
Definition geo_scan (s : mat R * mat R) := geo3 (sr (cx s)) (sr (cy s)) (sr (cz s)).

Definition scan_shaped (s : mat R * mat R) : Prop :=
  shaped m (length cols) (fst s) /\ shaped m (length cols) (snd s).

Lemma Hky3 : (1 <= 3 <= 5)%Z /\ (3 < Z.of_nat (length (ext_cols cols hcols)))%Z.
Proof.
  split; [lia|]. unfold ext_cols. rewrite !app_length. lia.
Qed.

Lemma concat_scans_shaped (f : mat R * mat R -> mat R) scans :
  (forall s, In s scans -> shaped m (length cols) (f s)) ->
  shaped (length scans * m) (length cols) (concat (map f scans)).
Proof.
  intros H. split.
  - rewrite (concat_length_const _ m); [now rewrite map_length|].
    apply Forall_map, Forall_forall. intros s Hs. apply (H s Hs).
  - apply Forall_forall. intros r Hr. apply in_concat in Hr. destruct Hr as [b [Hb Hr]].
    apply in_map_iff in Hb. destruct Hb as [s [<- Hs]]. destruct (H s Hs) as [_ F].
    rewrite Forall_forall in F. auto.
Qed.

Lemma sr_shaped b : shaped (g * m) (length hcols) (sr b).
Proof. apply scan_result_shape. Qed.

Lemma geo_scan_shaped s :
  shaped (g * m) (length hcols) (fst (geo_scan s)) /\ shaped (g * m) (length hcols) (snd (geo_scan s)).
Proof. apply geo3_shaped; apply sr_shaped. Qed.

Theorem layout_whole (scans : list (mat R * mat R)) :
  scans <> [] -> Forall scan_shaped scans ->
  layout_run (concat (map fst scans)) (concat (map snd scans)) =
  Ok (concat (map (fun s => fst (geo_scan s)) scans), concat (map (fun s => snd (geo_scan s)) scans)).
Proof.
  intros Hne Hs. rewrite Forall_forall in Hs.
  set (lons := concat (map fst scans)). set (lats := concat (map snd scans)).
  assert (Sl : shaped (length scans * m) (length cols) lons).
  { apply concat_scans_shaped. intros s H. apply (Hs s H). }
  assert (Sa : shaped (length scans * m) (length cols) lats).
  { apply concat_scans_shaped. intros s H. apply (Hs s H). }
  destruct (c_shaped _ _ lons lats Sl Sa) as (Cx & Cy & Cz).
  destruct (c_concat scans) as (Ex & Ey & Ez).
  { intros s H. destruct (Hs s H) as [[? _] [? _]]. congruence. }
  cbv zeta in Ex, Ey, Ez. fold lons lats in Ex, Ey, Ez.
  assert (Hk : (1 <= length scans)%nat) by (destruct scans; [congruence|simpl; lia]).
  unfold layout_run, geo_fill_interpolate, fill_then_interpolate, layout_state.
  rewrite (proj1 Sl).
  rewrite (fill_then_interpolate_blocks g m delta o Hg Hm Hdelta cols hcols 3 [[]; []; []] Hfirst Hlast spl1 spl2 Hgm);
    [| lia | exact Hhcols | exact Hcinc | exact Hhinc | exact Hky3 | exact Hk | reflexivity | |].
  - rewrite tie_xyz_eq. cbn [map bind]. rewrite to_geo_eq. f_equal.
    assert (B : forall f : mat R * mat R -> mat R, (forall s, In s scans -> length (f s) = m) ->
              blocks_of m (length scans) (concat (map f scans)) = map f scans).
    { intros f Hf. unfold blocks_of. rewrite <- (map_length f scans). apply blocks_of_concat.
      apply Forall_map, Forall_forall. exact Hf. }
    assert (S3 : forall s, In s scans -> shaped m (length cols) (cx s) /\ shaped m (length cols) (cy s) /\ shaped m (length cols) (cz s)).
    { intros [a b] H. destruct (Hs _ H). now apply c_shaped. }
    rewrite Ex, Ey, Ez, !B by (intros s H; apply S3, H).
    rewrite !map_map.
    apply (geo3_concat (fun s => sr (cx s)) (fun s => sr (cy s)) (fun s => sr (cz s)) scans (g * m)).
    intros s _. repeat split; apply sr_shaped.
  - rewrite tie_xyz_eq. repeat constructor; [apply Cx|apply Cy|apply Cz].
  - rewrite tie_xyz_eq. repeat constructor; [apply Cx|apply Cy|apply Cz].
Qed.

Corollary layout_one s : scan_shaped s -> layout_run (fst s) (snd s) = Ok (geo_scan s).
Proof.
  intros H. pose proof (layout_whole [s]) as G. cbn [map concat] in G. rewrite !app_nil_r in G.
  rewrite G by (try discriminate; auto). now rewrite <- surjective_pairing.
Qed.

(** scan by scan *)
Theorem layout_scanwise (scans : list (mat R * mat R)) :
  scans <> [] -> Forall scan_shaped scans ->
  exists rs, Forall2 (fun s r => layout_run (fst s) (snd s) = Ok r) scans rs /\
    layout_run (concat (map fst scans)) (concat (map snd scans)) = Ok (concat (map fst rs), concat (map snd rs)).
Proof.
  intros Hne Hs. exists (map geo_scan scans). split.
  - rewrite <- (map_id scans) at 1. apply Forall2_map_same. rewrite Forall_forall in Hs.
    intros s H. apply layout_one. auto.
  - rewrite layout_whole by assumption. now rewrite !map_map.
Qed.

(** every array of whole scans is a list of scans *)
Lemma as_scans k lons lats :
  shaped (k * m) (length cols) lons -> shaped (k * m) (length cols) lats ->
  exists scans, length scans = k /\ Forall scan_shaped scans /\
    lons = concat (map fst scans) /\ lats = concat (map snd scans).
Proof.
  intros [L1 W1] [L2 W2]. assert (Hm0 : (0 < m)%nat) by lia.
  destruct (pieces_whole m k lons Hm0 L1) as [F1 K1]. destruct (pieces_whole m k lats Hm0 L2) as [F2 K2].
  exists (combine (pieces m lons) (pieces m lats)).
  assert (E1 : map fst (combine (pieces m lons) (pieces m lats)) = pieces m lons).
  { rewrite <- K2 in K1. revert K1. generalize (pieces m lons), (pieces m lats).
    induction l as [|a l IH]; intros [|b l'] H; simpl in *; try discriminate; [reflexivity|]. f_equal. apply IH. lia. }
  assert (E2 : map snd (combine (pieces m lons) (pieces m lats)) = pieces m lats).
  { rewrite <- K2 in K1. revert K1. generalize (pieces m lons), (pieces m lats).
    induction l as [|a l IH]; intros [|b l'] H; simpl in *; try discriminate; [reflexivity|]. f_equal. apply IH. lia. }
  rewrite E1, E2, !concat_pieces by exact Hm0. split; [rewrite combine_length; lia|]. split; [|auto].
  rewrite Forall_forall in *. intros [a b] Hab. unfold scan_shaped, shaped. cbn [fst snd].
  pose proof (in_combine_l _ _ _ _ Hab) as Ha. pose proof (in_combine_r _ _ _ _ Hab) as Hb.
  repeat split; auto; apply Forall_forall; intros r Hr; [apply W1|apply W2];
    eapply pieces_incl; eauto.
Qed.

Theorem layout_ok k lons lats :
  (1 <= k)%nat -> shaped (k * m) (length cols) lons -> shaped (k * m) (length cols) lats ->
  exists lo la, layout_run lons lats = Ok (lo, la) /\
    shaped (g * (k * m)) (length hcols) lo /\ shaped (g * (k * m)) (length hcols) la.
Proof.
  intros Hk Sl Sa. destruct (as_scans k lons lats Sl Sa) as (scans & L & F & -> & ->).
  do 2 eexists. split; [apply layout_whole; [destruct scans; simpl in L; [lia|discriminate]|exact F]|].
  assert (G : forall f : mat R * mat R -> list (list (option R)),
     (forall s, shaped (g * m) (length hcols) (f s)) -> shaped (g * (k * m)) (length hcols) (concat (map f scans))).
  { intros f Hf. split.
    - rewrite (concat_length_const _ (g * m)); [rewrite map_length; nia|].
      apply Forall_map, Forall_forall. intros s _. apply Hf.
    - apply Forall_forall. intros r Hr. apply in_concat in Hr. destruct Hr as [b [Hb Hr]].
      apply in_map_iff in Hb. destruct Hb as [s [<- Hs]]. destruct (Hf s) as [_ F']. rewrite Forall_forall in F'. auto. }
  split; apply G; intros s; apply geo_scan_shaped.
Qed.

Theorem layout_not_whole n lons lats :
  (n mod m <> 0)%nat -> shaped n (length cols) lons -> shaped n (length cols) lats ->
  layout_run lons lats = Err IndexError.
Proof.
  intros Hn Sl Sa. destruct (c_shaped _ _ lons lats Sl Sa) as (Cx & Cy & Cz).
  unfold layout_run, geo_fill_interpolate, fill_then_interpolate, layout_state. rewrite (proj1 Sl).
  assert (Ht : Forall (fun d => length d = n) (tie_xyz lons lats)).
  { rewrite tie_xyz_eq. repeat constructor; [apply Cx|apply Cy|apply Cz]. }
  rewrite (fill_then_interpolate_not_whole g m delta o); auto.
  lia.
Qed.

Theorem layout_empty : layout_run [] [] = Err ZeroDivisionError.
Proof. reflexivity. Qed.

(** several workers *)
Theorem layout_multi lons lats cores order n :
  (1 <= cores)%Z -> shaped n (length cols) lons -> shaped n (length cols) lats ->
  (forall splits, get_scene_splits (Z.of_nat n) (Z.of_nat m) cores = Ok splits ->
     Permutation order (seq 0 (S (length splits)))) ->
  multi (fun p => layout_run (fst p) (snd p)) lons lats (Z.of_nat m) cores order = layout_run lons lats.
Proof.
  intros Hc Sl Sa Hord. unfold multi. rewrite (proj1 Sl).
  assert (Hm0 : (0 < m)%nat) by lia.
  destruct n as [|n'].
  { (* no rows *)
    destruct (proj1 (vsplit_empty (A := list R) (Z.of_nat m) cores ltac:(lia) Hc)).
    destruct (vsplit_empty (A := list R) (Z.of_nat m) cores ltac:(lia) Hc) as [E1 E2].
    destruct Sl as [Ll _], Sa as [La _]. destruct lons; [|discriminate]. destruct lats; [|discriminate].
    change (Z.of_nat 0) with 0%Z in *. rewrite E1 in *. cbn [bind].
    specialize (Hord [] eq_refl).
    rewrite pool_any_order by exact Hord.
    change (vsplit [] []) with [@nil (list R)]. cbn [combine mapM fst snd]. rewrite layout_empty. reflexivity. }
  set (n := S n') in *.
  assert (Hlo : lons <> []) by (intros ->; destruct Sl as [L _]; discriminate).
  assert (Hla : lats <> []) by (intros ->; destruct Sa as [L _]; discriminate).
  destruct (vsplit_pieces lons (Z.of_nat m) cores Hlo ltac:(lia) Hc) as (splits & E & V1).
  destruct (vsplit_pieces lats (Z.of_nat m) cores Hla ltac:(lia) Hc) as (splits' & E' & V2).
  rewrite (proj1 Sl) in *. rewrite (proj1 Sa) in *. rewrite E in E'. injection E' as <-.
  rewrite E. cbn [bind]. specialize (Hord splits E).
  assert (LV : forall l : list (list R), length (vsplit l splits) = S (length splits)).
  { intros l. unfold vsplit. generalize 0%Z. clear.
    induction splits as [|e s IH]; intros z; simpl; [reflexivity|]. now rewrite IH. }
  assert (LT : length (combine (vsplit lons splits) (vsplit lats splits)) = S (length splits)).
  { rewrite combine_length, !LV. lia. }
  rewrite pool_any_order by (now rewrite LT).
  rewrite V1, V2. clear LT LV.
  set (q := Z.to_nat (part_scans (Z.of_nat n) (Z.of_nat m) cores)).
  pose proof (part_scans_pos (Z.of_nat n) (Z.of_nat m) cores ltac:(lia) ltac:(lia) Hc) as Hq.
  assert (Ek : Z.to_nat (part_lines (Z.of_nat n) (Z.of_nat m) cores) = (q * m)%nat).
  { unfold part_lines, q. rewrite Z2Nat.inj_mul by lia. now rewrite Nat2Z.id. }
  rewrite Ek. assert (Hq0 : (0 < q)%nat) by (unfold q; lia).
  destruct (Nat.eq_dec (n mod m) 0) as [Hmod|Hmod].
  - assert (En : n = ((n / m) * m)%nat) by (pose proof (Nat.div_mod n m ltac:(lia)); nia).
    rewrite En in Sl, Sa. destruct (as_scans (n / m) lons lats Sl Sa) as (scans & L & F & El & Ea).
    assert (Hne : scans <> []).
    { intros ->. simpl in L. rewrite <- L in En. simpl in En. discriminate. }
    rewrite El at 2. rewrite Ea at 2. rewrite layout_whole by assumption.
    rewrite El, Ea. rewrite Forall_forall in F.
    rewrite !pieces_mul; [|exact Hq0|exact Hm0|apply Forall_map, Forall_forall; intros s Hs; apply (F s Hs)
                          |exact Hq0|exact Hm0|apply Forall_map, Forall_forall; intros s Hs; apply (F s Hs)].
    assert (PM : forall f : mat R * mat R -> mat R, pieces q (map f scans) = map (map f) (pieces q scans)).
    { intros f. clear - Hq0. remember (length scans) as k eqn:Ek. revert scans Ek.
      induction k as [k IH] using lt_wf_ind; intros l El. destruct l as [|a l'] eqn:Eq; [reflexivity|].
      rewrite <- Eq in *. assert (l <> []) by (rewrite Eq; discriminate).
      rewrite (pieces_cons q l) by auto. rewrite pieces_cons; [|exact Hq0|destruct l; [congruence|discriminate]].
      rewrite firstn_map, skipn_map. cbn [map]. f_equal. apply (IH (length (skipn q l))); [|reflexivity].
      rewrite skipn_length. subst k. rewrite Eq. cbn [length]. lia. }
    rewrite !PM, !map_map, combine_map.
    rewrite mapM_map.
    rewrite (mapM_Ok_map _ (fun grp => (concat (map (fun s => fst (geo_scan s)) grp), concat (map (fun s => snd (geo_scan s)) grp)))).
    2:{ intros grp Hg'. cbn [fst snd]. apply layout_whole; [now apply (pieces_nonempty q scans)|].
        apply Forall_forall. intros s Hs. apply F. eapply pieces_incl; eauto. }
    cbn [bind]. rewrite !map_map. cbn [fst snd].
    assert (Wok : forall f : mat R * mat R -> list (list (option R)),
       (forall s, shaped (g * m) (length hcols) (f s)) ->
       vstack (map (fun grp => concat (map f grp)) (pieces q scans)) = Ok (concat (map f scans))).
    { intros f Hf. rewrite (vstack_ok (length hcols)).
      - f_equal. rewrite <- (concat_pieces q scans Hq0) at 2. rewrite concat_map.
        rewrite <- (map_map (map f) (@concat _)).
        generalize (map (map f) (pieces q scans)). clear. induction l as [|a l IH]; [reflexivity|].
        cbn [map concat]. rewrite IH. now rewrite concat_app.
      - rewrite pieces_cons by auto. discriminate.
      - apply Forall_map, Forall_forall. intros grp _. apply Forall_forall. intros r Hr.
        apply in_concat in Hr. destruct Hr as [b [Hb Hr]]. apply in_map_iff in Hb. destruct Hb as [s [<- Hs]].
        destruct (Hf s) as [_ F']. rewrite Forall_forall in F'. auto. }
    rewrite (Wok (fun s => fst (geo_scan s))) by (intros s; apply geo_scan_shaped). cbn [bind].
    rewrite (Wok (fun s => snd (geo_scan s))) by (intros s; apply geo_scan_shaped). reflexivity.
  - rewrite (layout_not_whole n lons lats) by assumption.
    assert (Hk0 : (0 < q * m)%nat) by nia.
    destruct (pieces_shape (q * m) lons Hk0 Hlo) as (fl & ll & Pl & Fl & Bl).
    destruct (pieces_shape (q * m) lats Hk0 Hla) as (fa & la & Pa & Fa & Ba).
    assert (Cl : n = (length fl * (q * m) + length ll)%nat).
    { rewrite <- (proj1 Sl), <- (concat_pieces (q * m) lons Hk0), Pl, concat_app, app_length. simpl.
      rewrite app_nil_r. now rewrite (concat_length_const fl (q * m) Fl). }
    assert (Ca : n = (length fa * (q * m) + length la)%nat).
    { rewrite <- (proj1 Sa), <- (concat_pieces (q * m) lats Hk0), Pa, concat_app, app_length. simpl.
      rewrite app_nil_r. now rewrite (concat_length_const fa (q * m) Fa). }
    assert (Efl : length fl = length fa).
    { assert (length (pieces (q * m) lons) = length (pieces (q * m) lats)).
      { apply Nat2Z.inj. rewrite !pieces_length by exact Hk0. now rewrite (proj1 Sl), (proj1 Sa). }
      rewrite Pl, Pa, !app_length in H. simpl in H. lia. }
    assert (Ell : length ll = length la) by (rewrite Efl in Cl; lia).
    assert (Wl : forall p, In p (pieces (q * m) lons) -> Forall (fun r => length r = length cols) p).
    { intros p Hp. apply Forall_forall. intros r Hr. destruct Sl as [_ W]. rewrite Forall_forall in W.
      apply W. eapply pieces_incl; eauto. }
    assert (Wa : forall p, In p (pieces (q * m) lats) -> Forall (fun r => length r = length cols) p).
    { intros p Hp. apply Forall_forall. intros r Hr. destruct Sa as [_ W]. rewrite Forall_forall in W.
      apply W. eapply pieces_incl; eauto. }
    rewrite Pl in Wl |- *. rewrite Pa in Wa |- *.
    assert (CC : combine (fl ++ [ll]) (fa ++ [la]) = combine fl fa ++ [(ll, la)]).
    { clear - Efl. revert fa Efl. induction fl as [|a fl IH]; intros [|b fa] H; simpl in *; try discriminate; [reflexivity|].
      f_equal. apply IH. lia. }
    rewrite CC.
    rewrite (mapM_err_at' _ (combine fl fa) (ll, la) [] IndexError); [reflexivity| |].
    + intros [a b] Hab. cbn [fst snd].
      pose proof (in_combine_l _ _ _ _ Hab) as Ia. pose proof (in_combine_r _ _ _ _ Hab) as Ib.
      rewrite Forall_forall in Fl, Fa.
      destruct (layout_ok q a b Hq0) as (x & y & E0 & _).
      * split; [apply Fl, Ia|apply Wl, in_or_app; now left].
      * split; [apply Fa, Ib|apply Wa, in_or_app; now left].
      * eexists; exact E0.
    + cbn [fst snd]. apply (layout_not_whole (length ll)).
      * intros E0. apply Hmod. rewrite Cl.
        replace (length fl * (q * m) + length ll)%nat with (length ll + (length fl * q) * m)%nat by nia.
        rewrite Nat.mod_add by lia. exact E0.
      * split; [reflexivity|apply Wl, in_or_app; right; now left].
      * split; [now symmetry|apply Wa, in_or_app; right; now left].
Qed.

End Layout.
