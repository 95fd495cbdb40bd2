(** The MODIS model can only fail by leaving a buffer; sizes of its work arrays do not change. *)
From Coq Require Import ZArith List Bool Lia.
From Verif Require Import Base Num Geo Mem Modis.
Import ListNotations.
Open Scope Z_scope.

(** a result that satisfies P, or an access outside a buffer *)
Definition okb {A} (P : A -> Prop) (r : res A) : Prop :=
  match r with Ok a => P a | Err e => e = OutOfBounds end.

Lemma okb_bind {A B} (P : A -> Prop) (Q : B -> Prop) (r : res A) (k : A -> res B) :
  okb P r -> (forall a, P a -> okb Q (k a)) -> okb Q (let* a := r in k a).
Proof. destruct r; cbn; auto. Qed.
Lemma okb_weaken {A} (P Q : A -> Prop) (r : res A) : okb P r -> (forall a, P a -> Q a) -> okb Q r.
Proof. destruct r; cbn; auto. Qed.
Lemma okb_for_list {St} (P : St -> Prop) l (body : Z -> St -> res St) :
  (forall i s, P s -> okb P (body i s)) -> forall st, P st -> okb P (for_list l body st).
Proof.
  intros H. induction l as [|i l IH]; intros st Hst; [exact Hst|]. cbn [for_list].
  apply (okb_bind P); [now apply H|exact IH].
Qed.
Lemma okb_for {St} (P : St -> Prop) n (body : Z -> St -> res St) st :
  P st -> (forall i s, P s -> okb P (body i s)) -> okb P (for_range n body st).
Proof. intros H1 H2. now apply okb_for_list. Qed.
(** an iteration that always leaves a buffer makes the loop fail *)
Lemma for_must {St} (P : St -> Prop) n k (body : Z -> St -> res St) st :
  P st -> (forall i s, P s -> okb P (body i s)) -> 0 <= k < n -> (forall s, P s -> body k s = Err OutOfBounds) ->
  for_range n body st = Err OutOfBounds.
Proof.
  intros H1 H2 Hk H3. unfold for_range, range0.
  replace (Z.to_nat n) with (Z.to_nat k + (1 + (Z.to_nat n - Z.to_nat k - 1)))%nat by lia.
  rewrite zrange_app, for_list_app.
  pose proof (okb_for_list P (zrange 0 (Z.to_nat k)) body H2 st H1) as H.
  destruct (for_list (zrange 0 (Z.to_nat k)) body st) as [s|e]; cbn in H |- *; [|congruence].
  replace (Z.of_nat (Z.to_nat k)) with k by lia. rewrite (H3 s H). reflexivity.
Qed.
Lemma okb_rdo {E} (b : buf E) a : okb (fun _ => True) (rdo b a).
Proof. unfold rdo. destruct (_ && _); cbn; auto. Qed.
Lemma okb_wro {E} (b : buf E) a x : okb (fun b' => bsize b' = bsize b) (wro b a x).
Proof. unfold wro. destruct (_ && _); cbn; auto. Qed.

Section Any.
Context {T : Type} {N : NumOps T}.
Ltac free := repeat first
  [ exact I
  | progress cbv zeta
  | match goal with
    | |- okb _ (rd _ _ _ _) => apply okb_rdo
    | |- okb _ (rdo _ _) => apply okb_rdo
    | |- okb _ (wr _ _ _ _ _) => eapply okb_weaken; [apply okb_wro|auto]
    | |- okb _ (wro _ _ _) => eapply okb_weaken; [apply okb_wro|auto]
    | |- okb (fun _ => True) (for_range _ _ _) => apply okb_for; [exact I|intros]
    | |- okb (fun _ => True) (bind _ _) => apply (okb_bind (fun _ => True)); [|intros]
    | |- okb (fun _ => True) (let '(_, _) := ?st in _) => destruct st
    | |- okb _ (if ?b then _ else _) => destruct b
    | |- okb _ (Ok _) => exact I
    end ].

Lemma okb_expansion satz va vb sw vo (st : buf T * buf T) : okb (fun _ => True) (compute_expansion_alignment satz va vb sw vo st).
Proof. unfold compute_expansion_alignment. free. Qed.
Definition iok (inp : @input T) : Prop := forall i j, okb (fun _ => True) (ird inp i j).
Lemma okb_repeat L W v vo r0 c0 (b : buf T) : okb (fun _ => True) (with_repeat L W v vo r0 c0 b).
Proof. unfold with_repeat. free. Qed.
Lemma okb_expand c (inp : @input T) vo b : iok inp -> okb (fun _ => True) (expand c inp vo b).
Proof.
  intros H.
  assert (R : forall L W r0 c0 i j (b : buf T), okb (fun _ => True) (let* v := ird inp i j in with_repeat L W v vo r0 c0 b)).
  { intros. apply (okb_bind (fun _ => True)); [apply H|intros; apply okb_repeat]. }
  unfold expand, expand_1km, expand_1km_main, expand_1km_right_column, expand_5km, expand_5km_main, expand_5km_edges, expand_5km_270.
  repeat first [progress cbv zeta | match goal with
    | |- okb _ (let* v := ird _ _ _ in with_repeat _ _ v _ _ _ _) => apply R
    | |- okb _ (ird _ _ _) => apply H
    | |- okb _ (with_repeat _ _ _ _ _ _ _) => apply okb_repeat
    | |- okb (fun _ => True) (for_range _ _ _) => apply okb_for; [exact I|intros]
    | |- okb (fun _ => True) (bind _ _) => apply (okb_bind (fun _ => True)); [|intros]
    | |- okb _ (if ?b then _ else _) => destruct b
    | |- okb _ (Ok _) => exact I
    end].
Qed.
Lemma iok_view (b : buf T) v : iok (view_input b v).
Proof. intros i j. apply okb_rdo. Qed.
Lemma iok_comp (b : buf (T * T * T)) v k : iok (comp_input b v k).
Proof. intros i j. cbn [comp_input ird]. apply (okb_bind (fun _ => True)); [apply okb_rdo|intros; exact I]. Qed.

Lemma okb_calc c (x y ce ca : buf T) vo st : okb (fun _ => True) (calculate_atrack_ascan c x y ce ca vo st).
Proof. unfold calculate_atrack_ascan. free. Qed.

Lemma okb_atrack c x y satz vs (q : @work T) : okb (fun q' => w_cxyz q' = w_cxyz q) (get_atrack_ascan c x y satz vs q).
Proof.
  unfold get_atrack_ascan. cbv zeta. apply (okb_bind (fun _ => True)); [apply okb_expansion|]. intros [ta tb] _.
  apply (okb_bind (fun _ => True)); [apply okb_expand, iok_view|]. intros tc _.
  apply (okb_bind (fun _ => True)); [apply okb_expand, iok_view|]. intros td _.
  apply (okb_bind (fun _ => True)); [apply okb_calc|]. intros [a b] _. reflexivity.
Qed.
Lemma okb_lonlat lons vlons lats vlats vo (b : buf (T * T * T)) :
  okb (fun b' => bsize b' = bsize b) (lonlat2xyz_v lons vlons lats vlats vo b).
Proof.
  unfold lonlat2xyz_v. apply okb_for; [reflexivity|]. intros i s Hs. apply okb_for; [exact Hs|]. intros j s' Hs'.
  apply (okb_bind (fun _ => True)); [apply okb_rdo|]. intros lon _. apply (okb_bind (fun _ => True)); [apply okb_rdo|]. intros lat _.
  eapply okb_weaken; [apply okb_wro|]. cbn beta. congruence.
Qed.
Lemma okb_fine_xyz c (q : @work T) : okb (fun q' => w_cxyz q' = w_cxyz q) (compute_fine_xyz c q).
Proof.
  unfold compute_fine_xyz. apply okb_for; [reflexivity|]. intros k s Hs. unfold fine_xyz_body. cbv zeta.
  do 4 (apply (okb_bind (fun _ => True)); [apply okb_expand, iok_comp|intros ? _]).
  apply (okb_bind (fun _ => True)); [unfold compute_fine_xyz_component; free|intros ? _]. exact Hs.
Qed.
Lemma okb_xyz2lonlat (fx : buf (T * T * T)) v vo st : okb (fun _ => True) (xyz2lonlat_v fx v vo st).
Proof. unfold xyz2lonlat_v. free. Qed.

Lemma okb_scan c nrows (lon lat satz : ndarray T) x y s q :
  okb (fun q' => bsize (w_cxyz q') = bsize (w_cxyz q)) (scan_body c nrows lon lat satz x y s q).
Proof.
  unfold scan_body. cbv zeta. apply (okb_bind (fun q' => w_cxyz q' = w_cxyz q)); [apply okb_atrack|]. intros q1 H1.
  apply (okb_bind (fun b' => bsize b' = bsize (w_cxyz q1))); [apply okb_lonlat|]. intros cx Hcx.
  eapply okb_bind; [apply okb_fine_xyz|]. cbn beta. intros q2 H2. cbn [w_cxyz] in H2.
  apply (okb_bind (fun _ => True)); [apply okb_xyz2lonlat|]. intros [lons lats] _. cbn [okb w_cxyz]. congruence.
Qed.
(** a scan fails when the conversion of its tie points does *)
Lemma scan_must c nrows (lon lat satz : ndarray T) x y s q :
  (forall b, bsize b = bsize (w_cxyz q) ->
     lonlat2xyz_v (contiguous lon) (slice_rows (full (arows lon) (acols lon)) (s * scl c) ((s + 1) * scl c))
       (contiguous lat) (slice_rows (full (arows lat) (acols lat)) (s * scl c) ((s + 1) * scl c)) (coarse_vw c) b = Err OutOfBounds) ->
  scan_body c nrows lon lat satz x y s q = Err OutOfBounds.
Proof.
  intros H. unfold scan_body. cbv zeta.
  match goal with |- context [get_atrack_ascan ?c ?x ?y ?b ?v ?q] => pose proof (okb_atrack c x y b v q) as A; destruct (get_atrack_ascan c x y b v q) as [q1|e] end;
    cbn [okb bind] in *; [|congruence].
  rewrite H by congruence. reflexivity.
Qed.
Lemma lonlat_must lons vlons lats vlats vo (b : buf (T * T * T)) i j :
  0 <= i < vrows vlons -> 0 <= j < vcols vlons ->
  ~ (0 <= addr vlats i j < bsize lats) \/ ~ (0 <= addr vo i j < bsize b) ->
  lonlat2xyz_v lons vlons lats vlats vo b = Err OutOfBounds.
Proof.
  intros Hi Hj H. unfold lonlat2xyz_v.
  set (P := fun s : buf (T * T * T) => bsize s = bsize b).
  assert (B : forall i j s, P s -> okb P (let* lon := rd lons vlons i j in let* lat := rd lats vlats i j in wr s vo i j (cy_lonlat2xyz lon lat))).
  { intros i' j' s Hs. apply (okb_bind (fun _ => True)); [apply okb_rdo|]. intros lon _. apply (okb_bind (fun _ => True)); [apply okb_rdo|]. intros lat _.
    eapply okb_weaken; [apply okb_wro|]. unfold P in *. cbn beta. congruence. }
  apply (for_must P _ i); [reflexivity| |exact Hi|].
  - intros i' s Hs. apply okb_for; [exact Hs|]. intros; now apply B.
  - intros s Hs. apply (for_must P _ j); [exact Hs|intros; now apply B|exact Hj|].
    intros s' Hs'. unfold rd. pose proof (okb_rdo lons (addr vlons i j)) as O. destruct (rdo lons (addr vlons i j)) as [l|e]; cbn [okb bind] in *; [|congruence].
    destruct H as [H|H]; [rewrite (rdo_oob lats) by exact H; reflexivity|].
    pose proof (okb_rdo lats (addr vlats i j)) as O'. destruct (rdo lats (addr vlats i j)) as [m|e]; cbn [okb bind] in *; [|congruence].
    apply wro_oob. unfold P in Hs'. congruence.
Qed.
End Any.
