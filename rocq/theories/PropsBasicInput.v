(** C151: BasicSatelliteInterpolator on indices that do not fit the tie points. *)
From Coq Require Import ZArith List Bool Lia QArith.
From Verif Require Import Base Num Basic PropsBasic.
Import ListNotations.
Open Scope Z_scope.

(** ** Specification *)
(** what is wrong with n indices l of n tie rows (or columns): none at all, another number, one of them twice *)
Inductive misfit (l : list Z) (n : Z) : exn -> Prop :=
  | NoIndex : l = [] -> misfit l n IndexError
  | OtherNumber : l <> [] -> lenz l <> n -> misfit l n ValueError
  | Repeated : l <> [] -> ~ NoDup l -> misfit l n ValueError.

Lemma distinct_spec l : distinct l = true <-> NoDup l.
Proof.
  induction l as [|x l IH]; cbn [distinct]; [split; [constructor|reflexivity]|]. rewrite andb_true_iff, IH, negb_true_iff.
  assert (E : existsb (Z.eqb x) l = false <-> ~ In x l).
  { rewrite <- not_true_iff_false, existsb_exists. split; intros H C; apply H; [exists x; split; [exact C|apply Z.eqb_refl]|].
    destruct C as (y & Hy & Exy). apply Z.eqb_eq in Exy. now subst y. }
  rewrite E. split; [intros (A & B); now constructor|intros H; inversion H; auto].
Qed.
Section Any.
Context {T : Type} {N : NumOps T}.
Lemma pandas_misfit l (data : frame T) e : misfit l (f_rows data) e -> pandas_interp data l = Err e.
Proof.
  intros M. unfold pandas_interp. destruct M as [-> |Hl Hn|Hl Hd]; [reflexivity| |]; destruct (rev l) as [|z t] eqn:E.
  - exfalso. apply Hl. rewrite <- (rev_involutive l), E. reflexivity.
  - unfold reindex. fold (lenz l). destruct (Z.eqb_spec (lenz l) (f_rows data)); [contradiction|reflexivity].
  - exfalso. apply Hl. rewrite <- (rev_involutive l), E. reflexivity.
  - unfold reindex. destruct (Z.of_nat (length l) =? f_rows data); [|reflexivity]. cbn [negb].
    destruct (distinct l) eqn:D; [|reflexivity]. apply distinct_spec in D. contradiction.
Qed.
Lemma pandas_fits l (data : frame T) : l <> [] -> lenz l = f_rows data -> NoDup l -> exists d, pandas_interp data l = Ok d /\ f_cols d = f_cols data.
Proof.
  intros Hl Hn Hd. unfold pandas_interp. destruct (rev l) as [|z t] eqn:E; [exfalso; apply Hl; rewrite <- (rev_involutive l), E; reflexivity|].
  unfold reindex. fold (lenz l). rewrite Hn, Z.eqb_refl, (proj2 (distinct_spec l) Hd). cbn. eauto.
Qed.
End Any.

(** in any arithmetic and with any pandas: row indices that do not fit the latitudes *)
Theorem C151_rows_partial : forall {T} {N : NumOps T} m cols rows (lat lon : frame T) e, misfit rows (f_rows lat) e ->
  basic_interpolate m cols rows lat lon = Err e.
Proof.
  intros T N m cols rows lat lon e M. unfold basic_interpolate, interp, interp_rows. rewrite (pandas_misfit _ _ _ M). reflexivity.
Qed.
Print Assumptions C151_rows_partial.
(** column indices that do not fit the latitudes, with a pandas that has as_matrix *)
Theorem C151_cols_partial : forall {T} {N : NumOps T} cols rows (lat lon : frame T) e,
  rows <> [] -> lenz rows = f_rows lat -> NoDup rows -> misfit cols (f_cols lat) e ->
  basic_interpolate true cols rows lat lon = Err e.
Proof.
  intros T N cols rows lat lon e H1 H2 H3 M. destruct (pandas_fits rows lat H1 H2 H3) as (d & E & C).
  unfold basic_interpolate, interp, interp_rows. rewrite E. cbn [bind]. unfold interp_cols, call_as_matrix. cbn [bind].
  rewrite (pandas_misfit cols (transpose d) e); [reflexivity|]. cbn [transpose f_rows]. now rewrite C.
Qed.
Print Assumptions C151_cols_partial.
(** longitudes of another shape than the latitudes *)
Theorem C151_longitudes_partial : forall {T} {N : NumOps T} cols rows (lat lon : frame T),
  rows <> [] -> NoDup rows -> cols <> [] -> NoDup cols -> lenz rows = f_rows lat -> lenz cols = f_cols lat ->
  f_rows lon <> f_rows lat \/ f_cols lon <> f_cols lat -> basic_interpolate true cols rows lat lon = Err ValueError.
Proof.
  intros T N cols rows lat lon R1 R2 C1 C2 R3 C3 H.
  destruct (pandas_fits rows lat R1 R3 R2) as (d & E & C). destruct (pandas_fits cols (transpose d) C1 ltac:(cbn; congruence) C2) as (d2 & E2 & _).
  unfold basic_interpolate, interp, interp_rows. rewrite E. cbn [bind]. unfold interp_cols, call_as_matrix. cbn [bind]. rewrite E2. cbn [bind].
  destruct (Z.eq_dec (f_rows lon) (f_rows lat)) as [Er|Er].
  - destruct (pandas_fits rows lon R1 ltac:(congruence) R2) as (d3 & E3 & C4). rewrite E3. cbn [bind].
    rewrite (pandas_misfit cols (transpose d3) ValueError); [reflexivity|]. apply OtherNumber; [exact C1|]. cbn [transpose f_rows]. rewrite C4. destruct H; [contradiction|congruence].
  - rewrite (pandas_misfit rows lon ValueError); [reflexivity|]. apply OtherNumber; [exact R1|congruence].
Qed.
Print Assumptions C151_longitudes_partial.

(** everything else is accepted: indices that are not increasing lose tie points without a word.
    Rows 0, 4, 2: three pixel rows, row 1 between tie rows 0 and 2; the second tie row is not used. *)
Theorem C151_accepted : forall {T} {N : NumOps T} cols rows (lat lon : frame T),
  rows <> [] -> NoDup rows -> cols <> [] -> NoDup cols -> lenz rows = f_rows lat -> lenz cols = f_cols lat -> f_rows lon = f_rows lat -> f_cols lon = f_cols lat ->
  exists olat olon, basic_interpolate true cols rows lat lon = Ok (olat, olon) /\
    f_rows olat = Z.max 0 (last rows 0 + 1) /\ f_cols olat = Z.max 0 (last cols 0 + 1) /\ f_rows olon = f_rows olat /\ f_cols olon = f_cols olat.
Proof.
  assert (P : forall {T} {N : NumOps T} l (data : frame T), l <> [] -> NoDup l -> lenz l = f_rows data ->
    exists d, pandas_interp data l = Ok d /\ f_rows d = Z.max 0 (last l 0 + 1) /\ f_cols d = f_cols data).
  { intros T N l data H1 H2 H3. destruct (exists_last H1) as (t & z & ->). unfold pandas_interp. rewrite rev_app_distr, last_last. cbn [rev app].
    unfold reindex. fold (lenz (t ++ [z])). rewrite H3, Z.eqb_refl, (proj2 (distinct_spec _) H2). cbn. eauto. }
  intros T N cols rows lat lon R1 R2 C1 C2 R3 C3 Er Ec.
  assert (I : forall d, f_rows d = f_rows lat -> f_cols d = f_cols lat -> exists o, interp true cols rows d = Ok o /\ f_rows o = Z.max 0 (last rows 0 + 1) /\ f_cols o = Z.max 0 (last cols 0 + 1)).
  { intros d D1 D2. destruct (P T N rows d R1 R2 ltac:(congruence)) as (d1 & E1 & A1 & B1). destruct (P T N cols (transpose d1) C1 C2 ltac:(cbn; congruence)) as (d2 & E2 & A2 & B2).
    exists (transpose d2). unfold interp, interp_rows. rewrite E1. cbn [bind]. unfold interp_cols, call_as_matrix. cbn [bind]. rewrite E2. cbn [bind].
    split; [reflexivity|]. cbn in *. split; congruence. }
  destruct (I lat eq_refl eq_refl) as (olat & E1 & A1 & B1). destruct (I lon Er Ec) as (olon & E2 & A2 & B2).
  exists olat, olon. unfold basic_interpolate. rewrite E1, E2. cbn [bind]. repeat split; congruence.
Qed.
Print Assumptions C151_accepted.
Theorem C151_refuted : exists cols rows (lat lon : frame Q) olat olon, ~ indices rows /\
  @basic_interpolate Q QT true cols rows lat lon = Ok (olat, olon) /\ f_rows olat = 3 /\
  (forall q i j x, f_at lat 1 q = Some 1000%Q /\ (0 <= i < 3 -> 0 <= j <= 1 -> f_at olat i j = Some x -> (x <= 2)%Q)).
Proof.
  exists [0; 1], [0; 4; 2], {| f_rows := 3; f_cols := 2; f_at := fun p q => Some (if p =? 1 then 1000 else inject_Z p)%Q |},
    {| f_rows := 3; f_cols := 2; f_at := fun p q => Some (inject_Z p) |}.
  eexists. eexists. split; [|split; [reflexivity|split; [reflexivity|]]].
  - intros (_ & _ & H). specialize (H 1 2 ltac:(lia) ltac:(reflexivity)). vm_compute in H. discriminate.
  - intros q i j x. split; [reflexivity|]. intros Hi Hj E.
    assert (i = 0 \/ i = 1 \/ i = 2) as [-> |[-> | ->]] by lia; assert (j = 0 \/ j = 1) as [-> | ->] by lia; vm_compute in E; injection E as <-; discriminate.
Qed.
Print Assumptions C151_refuted.
Example C151_case : misfit [0; 2; 2] 3 ValueError /\ misfit [0; 2] 3 ValueError /\ misfit [] 3 IndexError.
Proof.
  split; [|split]; [apply Repeated|apply OtherNumber|apply NoIndex]; try discriminate; try reflexivity.
  intros H. inversion H as [|? ? _ H2]; subst. inversion H2 as [|? ? H3]; subst. apply H3. now left.
Qed.
