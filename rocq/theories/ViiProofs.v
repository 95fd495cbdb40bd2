(** Proofs about the VII interpolation. *)
From Coq Require Import ZArith List Bool Arith Lia Reals Lra.
From Verif Require Import Base Num Geo GeoProofs GeoAgree Vii.
Import ListNotations.
Open Scope Z_scope.

(** * grids *)
Lemma arange_tie n f : (1 <= f)%nat ->
  arange 0 ((Z.of_nat n - 1) * Z.of_nat f + 1) (Z.of_nat f) = map (fun k => k * Z.of_nat f) (zrange 0 n).
Proof.
  intros Hf. unfold arange, range0.
  replace (_ / Z.of_nat f) with (Z.of_nat n).
  - rewrite Nat2Z.id. apply map_ext. intros; lia.
  - replace ((Z.of_nat n - 1) * Z.of_nat f + 1 - 0 + Z.of_nat f - 1) with (Z.of_nat n * Z.of_nat f) by ring.
    now rewrite Z.div_mul by lia.
Qed.

Lemma arange_pixel a m : 0 <= m -> arange a (a + m) 1 = zrange a (Z.to_nat m).
Proof.
  intros Hm. unfold arange, range0. replace ((a + m - a + 1 - 1) / 1) with m by (rewrite Z.div_1_r; lia).
  transitivity (map (fun x => x + a) (zrange 0 (Z.to_nat m))); [apply map_ext; intros; lia|].
  rewrite zrange_map_add. f_equal.
Qed.

(** the index of the left neighbour used for position c*f + b *)
Definition lo_of (c b : nat) : nat := if (b =? 0)%nat && (1 <=? c)%nat then (c - 1)%nat else c.

Lemma searchsorted_tie n f c b : (b < f)%nat ->
  searchsorted (map (fun k => k * Z.of_nat f) (zrange 0 n)) (Z.of_nat (c * f + b)) =
  Nat.min n (if (b =? 0)%nat then c else (c + 1)%nat).
Proof.
  intros Hb. unfold searchsorted. induction n as [|n IH]; [reflexivity|].
  replace (S n) with (n + 1)%nat by lia. rewrite zrange_app, map_app, filter_app, app_length, IH.
  cbn [zrange map filter]. replace (0 + Z.of_nat n) with (Z.of_nat n) by lia.
  destruct (Z.ltb_spec (Z.of_nat n * Z.of_nat f) (Z.of_nat (c * f + b))); cbn [length].
  - destruct (Nat.eqb_spec b 0).
    + assert (n < c)%nat by nia. lia.
    + assert (n < c + 1)%nat by nia. lia.
  - destruct (Nat.eqb_spec b 0).
    + assert (c <= n)%nat by nia. lia.
    + assert (c < n)%nat by nia. lia.
Qed.

Section Any.
Context {T : Type} {N : NumOps T}.
Variable nan : T.

(** linear interpolation between the neighbours lo and lo + 1, at position c + b / f *)
Definition gen1 (f c b : nat) (y : nat -> T) : T :=
  let lo := lo_of c b in
  nadd (nmul (ndiv (nsub (y (lo + 1)%nat) (y lo)) (nz (Z.of_nat f))) (nz (Z.of_nat (c * f + b) - Z.of_nat (lo * f)))) (y lo).

Lemma interp1d_gen1 n f c b y : (1 <= f)%nat -> (c + 2 <= n)%nat -> (b < f)%nat ->
  interp1d nan (map (fun k => k * Z.of_nat f) (zrange 0 n)) y (Z.of_nat (c * f + b)) = gen1 f c b y.
Proof.
  intros Hf Hc Hb. unfold interp1d. rewrite searchsorted_tie by exact Hb. rewrite map_length, zrange_length.
  assert (G : forall k, (k < n)%nat -> nth k (map (fun k => k * Z.of_nat f) (zrange 0 n)) 0 = Z.of_nat (k * f)).
  { intros k Hk. rewrite (nth_map' _ _ _ 0) by (now rewrite zrange_length). rewrite zrange_nth by exact Hk. lia. }
  rewrite (G 0%nat), (G (n - 1)%nat) by lia.
  destruct (Z.ltb_spec (Z.of_nat (c * f + b)) (Z.of_nat (0 * f))); [lia|].
  destruct (Z.ltb_spec (Z.of_nat ((n - 1) * f)) (Z.of_nat (c * f + b))); [nia|]. cbn [orb].
  cbv zeta. set (hi := Nat.min _ _).
  assert (Eh : hi = (lo_of c b + 1)%nat).
  { unfold hi, lo_of. destruct (Nat.eqb_spec b 0); destruct (Nat.leb_spec 1 c); cbn [andb]; lia. }
  assert (Hl : (lo_of c b + 1 < n)%nat).
  { unfold lo_of. destruct (_ && _); lia. }
  clearbody hi. subst hi. replace (lo_of c b + 1 - 1)%nat with (lo_of c b) by lia. rewrite !G by lia.
  unfold gen1. cbv zeta. do 4 f_equal. lia.
Qed.

Lemma gen1_ext f c b y y' : (forall k, y k = y' k) -> gen1 f c b y = gen1 f c b y'.
Proof. intros H. unfold gen1. cbv zeta. now rewrite !H. Qed.

(** value of the pixel: tie row R and a pixels further, tie column C and b pixels further *)
Definition pixel (f : nat) (y : nat -> nat -> T) (R a C b : nat) : T :=
  gen1 f C b (fun k => gen1 f R a (fun i => y i k)).

Lemma pixel_grid_alt_nth s f n_scans j p : (1 <= s)%nat -> (j < n_scans)%nat -> (p < (s - 1) * f)%nat ->
  let grids := map (fun j_scan => arange (j_scan * Z.of_nat s * Z.of_nat f) (j_scan * Z.of_nat s * Z.of_nat f + (Z.of_nat s - 1) * Z.of_nat f) 1)
    (range0 (Z.of_nat n_scans)) in
  nth (j * ((s - 1) * f) + p) (concat grids) 0 = Z.of_nat (j * s * f + p).
Proof.
  intros Hs Hj Hp grids. rewrite (nth_concat_const _ ((s - 1) * f)).
  - unfold grids, range0. rewrite Nat2Z.id. rewrite (nth_map' _ _ _ 0) by (now rewrite zrange_length).
    rewrite zrange_nth by exact Hj. rewrite arange_pixel by nia.
    replace (Z.to_nat ((Z.of_nat s - 1) * Z.of_nat f)) with ((s - 1) * f)%nat by nia.
    rewrite zrange_nth by exact Hp. lia.
  - apply Forall_forall. intros l Hl. unfold grids in Hl. apply in_map_iff in Hl as (k & <- & _).
    rewrite arange_pixel by nia. rewrite zrange_length. nia.
  - exact Hp.
  - unfold grids, range0. rewrite map_length, zrange_length. lia.
Qed.

Lemma pixel_grid_alt_length s f n_scans : (1 <= s)%nat ->
  let grids := map (fun j_scan => arange (j_scan * Z.of_nat s * Z.of_nat f) (j_scan * Z.of_nat s * Z.of_nat f + (Z.of_nat s - 1) * Z.of_nat f) 1)
    (range0 (Z.of_nat n_scans)) in
  length (concat grids) = (n_scans * ((s - 1) * f))%nat.
Proof.
  intros Hs grids. rewrite (concat_length_const _ ((s - 1) * f)).
  - unfold grids, range0. rewrite map_length, zrange_length. lia.
  - apply Forall_forall. intros l Hl. unfold grids in Hl. apply in_map_iff in Hl as (k & <- & _).
    rewrite arange_pixel by nia. rewrite zrange_length. nia.
Qed.

(** the result for one array *)
Definition pixels_of (s f n_scans : nat) (data out : darray T) : Prop :=
  dims out = dims data /\ nrows out = (n_scans * (s - 1) * f)%nat /\ ncols out = ((ncols data - 1) * f)%nat /\
  forall j r a c b, (j < n_scans)%nat -> (r < s - 1)%nat -> (a < f)%nat -> (c < ncols data - 1)%nat -> (b < f)%nat ->
    at_ out (j * (s - 1) * f + r * f + a)%nat (c * f + b)%nat = pixel f (at_ data) (j * s + r) a c b.

(** arguments that are processed *)
Definition args_ok (datas : list (darray T)) (s f n_scans : nat) : Prop :=
  exists first rest, datas = first :: rest /\ (2 <= s)%nat /\ (1 <= f)%nat /\ (1 <= n_scans)%nat /\
    nrows first = (n_scans * s)%nat /\ (2 <= ncols first)%nat /\
    Forall (fun d => shape_eqb d first = true /\ dims_eqb d first = true) datas.

Lemma shape_eqb_eq {A B} (a : darray A) (b : darray B) : shape_eqb a b = true <-> nrows a = nrows b /\ ncols a = ncols b.
Proof. unfold shape_eqb. rewrite andb_true_iff, !Nat.eqb_eq. tauto. Qed.
Lemma dims_eqb_eq {A B} (a : darray A) (b : darray B) : dims_eqb a b = true <-> dims a = dims b.
Proof.
  unfold dims_eqb. rewrite andb_true_iff, !Nat.eqb_eq. destruct (dims a), (dims b); cbn. split; [intros [-> ->]; reflexivity|intros [= -> ->]; auto].
Qed.

Lemma one_array s f n_scans (data : darray T) : (2 <= s)%nat -> (1 <= f)%nat -> (1 <= n_scans)%nat ->
  nrows data = (n_scans * s)%nat -> (2 <= ncols data)%nat ->
  exists out,
    (let* d1 := interp_rows nan (arange 0 ((Z.of_nat (nrows data) - 1) * Z.of_nat f + 1) (Z.of_nat f))
        (concat (map (fun j_scan => arange (j_scan * Z.of_nat s * Z.of_nat f) (j_scan * Z.of_nat s * Z.of_nat f + (Z.of_nat s - 1) * Z.of_nat f) 1)
         (range0 (Z.of_nat n_scans)))) data in
     interp_cols nan (arange 0 ((Z.of_nat (ncols data) - 1) * Z.of_nat f + 1) (Z.of_nat f))
        (arange 0 ((Z.of_nat (ncols data) - 1) * Z.of_nat f) 1) d1) = Ok out /\ pixels_of s f n_scans data out.
Proof.
  intros Hs Hf Hn Hr Hc. rewrite !arange_tie by exact Hf.
  replace ((Z.of_nat (ncols data) - 1) * Z.of_nat f) with (0 + Z.of_nat ((ncols data - 1) * f)) by nia.
  rewrite (arange_pixel 0 (Z.of_nat ((ncols data - 1) * f))) by apply Nat2Z.is_nonneg. rewrite Nat2Z.id.
  set (alt := concat _). assert (La : length alt = (n_scans * ((s - 1) * f))%nat) by (apply pixel_grid_alt_length; lia).
  assert (P1 : (1 <= s - 1)%nat) by lia. assert (P2 : (1 <= ncols data - 1)%nat) by lia.
  assert (P3 : (1 <= (s - 1) * f)%nat) by nia. assert (P4 : (1 <= (ncols data - 1) * f)%nat) by nia.
  unfold interp_rows, interp_cols. rewrite La, zrange_length.
  destruct (Nat.eqb_spec (n_scans * ((s - 1) * f)) 0); [nia|].
  destruct (Nat.eqb_spec ((ncols data - 1) * f) 0); [nia|]. cbn [bind].
  eexists; split; [reflexivity|]. unfold pixels_of. cbn [dims nrows ncols at_].
  split; [reflexivity|]. split; [lia|]. split; [reflexivity|].
  intros j r a c b Hj Hrr Ha Hcc Hb.
  rewrite zrange_nth by nia. replace (0 + Z.of_nat (c * f + b)) with (Z.of_nat (c * f + b)) by lia.
  rewrite interp1d_gen1 by lia. unfold pixel.
  replace (nth (j * (s - 1) * f + r * f + a) alt 0) with (Z.of_nat ((j * s + r) * f + a)).
  - apply gen1_ext; intros k; apply interp1d_gen1; nia.
  - replace (j * (s - 1) * f + r * f + a)%nat with (j * ((s - 1) * f) + (r * f + a))%nat by lia.
    unfold alt. rewrite pixel_grid_alt_nth by nia. lia.
Qed.

(** [gives s f n_scans rows cols P]: each array of the right shape becomes one that satisfies [P] *)
Definition gives (s f n_scans : nat) (rows cols : list Z -> list Z -> darray T -> res (darray T)) (P : darray T -> darray T -> Prop) : Prop :=
  forall data, (2 <= s)%nat -> (1 <= f)%nat -> (1 <= n_scans)%nat -> nrows data = (n_scans * s)%nat -> (2 <= ncols data)%nat ->
  exists out,
    (let* d1 := rows (arange 0 ((Z.of_nat (nrows data) - 1) * Z.of_nat f + 1) (Z.of_nat f))
        (concat (map (fun j_scan => arange (j_scan * Z.of_nat s * Z.of_nat f) (j_scan * Z.of_nat s * Z.of_nat f + (Z.of_nat s - 1) * Z.of_nat f) 1)
         (range0 (Z.of_nat n_scans)))) data in
     cols (arange 0 ((Z.of_nat (ncols data) - 1) * Z.of_nat f + 1) (Z.of_nat f))
        (arange 0 ((Z.of_nat (ncols data) - 1) * Z.of_nat f) 1) d1) = Ok out /\ P data out.

Lemma with_ok rows cols P datas s f n_scans : gives s f n_scans rows cols P -> args_ok datas s f n_scans ->
  exists outs, tie_points_with rows cols datas s f = Ok outs /\ Forall2 P datas outs.
Proof.
  intros HG.
  intros (first & rest & -> & Hs & Hf & Hn & Hr & Hc & Hd). set (datas := first :: rest) in *.
  unfold tie_points_with. unfold datas at 1.
  destruct (Nat.eqb_spec s 0); [lia|]. destruct (Nat.eqb_spec f 0); [lia|].
  assert (Em : Z.of_nat (nrows first) mod Z.of_nat s = 0) by (rewrite Hr, Nat2Z.inj_mul; apply Z.mod_mul; lia).
  rewrite Em. cbn [Z.eqb negb].
  assert (Ed : Z.of_nat (nrows first) / Z.of_nat s = Z.of_nat n_scans) by (rewrite Hr, Nat2Z.inj_mul; apply Z.div_mul; lia).
  rewrite Ed. destruct (Z.eqb_spec (Z.of_nat n_scans) 0); [lia|].
  clearbody datas. induction Hd as [|d datas [D1 D2] Hd IH]; cbn [mapM].
  - exists []. split; [reflexivity|constructor].
  - rewrite D1, D2. cbn [negb orb].
    pose proof (proj1 (shape_eqb_eq _ _) D1) as [S1 S2].
    destruct (HG d) as (out & E & Po); [lia|lia|lia|lia|lia|].
    rewrite S1, S2 in E. rewrite E. cbn [bind]. destruct IH as (outs & -> & Hp). cbn [bind].
    exists (out :: outs). split; [reflexivity|]. constructor; auto.
Qed.

Theorem interpolation_ok datas s f n_scans : args_ok datas s f n_scans ->
  exists outs, tie_points_interpolation nan datas s f = Ok outs /\ Forall2 (pixels_of s f n_scans) datas outs.
Proof. apply with_ok. intros data H1 H2 H3 H4 H5. now apply one_array. Qed.

(** refused arguments *)
Theorem interpolation_refused datas s f : (1 <= s)%nat -> (1 <= f)%nat -> datas <> [] ->
  (forall n_scans, ~ args_ok datas s f n_scans) -> tie_points_interpolation nan datas s f = Err ValueError.
Proof.
  intros Hs Hf Hne Hbad. destruct datas as [|first rest]; [contradiction|].
  unfold tie_points_interpolation, tie_points_with. set (datas := first :: rest) in *.
  destruct (Nat.eqb_spec s 0); [lia|]. destruct (Nat.eqb_spec f 0); [lia|].
  destruct (Z.eqb_spec (Z.of_nat (nrows first) mod Z.of_nat s) 0) as [E|E]; cbn [negb]; [|reflexivity].
  destruct (Z.eqb_spec (Z.of_nat (nrows first) / Z.of_nat s) 0) as [E2|E2]; [reflexivity|].
  set (n_scans := Z.to_nat (Z.of_nat (nrows first) / Z.of_nat s)).
  assert (P : 0 <= Z.of_nat (nrows first) / Z.of_nat s) by (apply Z.div_pos; lia).
  assert (En : Z.of_nat (nrows first) / Z.of_nat s = Z.of_nat n_scans) by (unfold n_scans; lia).
  rewrite En. assert (Hr : nrows first = (n_scans * s)%nat).
  { pose proof (Z.div_mod (Z.of_nat (nrows first)) (Z.of_nat s) ltac:(lia)) as D. rewrite En in D. nia. }
  assert (Hn : (1 <= n_scans)%nat) by lia. clearbody n_scans.
  match goal with |- mapM ?g datas = _ => set (step := g) end.
  assert (Sd : forall d, (exists o, step d = Ok o) \/ step d = Err ValueError).
  { intros d. unfold step. destruct (_ || _); [auto|]. unfold interp_rows, interp_cols.
    destruct (length (concat _) =? 0)%nat; cbn [bind]; [auto|].
    destruct (length (arange 0 _ 1) =? 0)%nat; eauto. }
  assert (X : exists d, In d datas /\ step d = Err ValueError).
  { destruct (le_lt_dec s 1) as [S1|S1]; [|destruct (le_lt_dec (ncols first) 1) as [C1|C1]].
    - exists first. split; [now left|]. unfold step. rewrite (proj2 (shape_eqb_eq first first)), (proj2 (dims_eqb_eq first first)) by auto.
      cbn [negb orb]. unfold interp_rows. rewrite pixel_grid_alt_length by lia.
      replace (n_scans * ((s - 1) * f))%nat with 0%nat by nia. reflexivity.
    - exists first. split; [now left|]. unfold step. rewrite (proj2 (shape_eqb_eq first first)), (proj2 (dims_eqb_eq first first)) by auto.
      cbn [negb orb]. unfold interp_rows, interp_cols. destruct (length (concat _) =? 0)%nat; cbn [bind]; [reflexivity|].
      assert (L : length (arange 0 ((Z.of_nat (ncols first) - 1) * Z.of_nat f) 1) = 0%nat).
      { unfold arange, range0. rewrite map_length, zrange_length, Z.div_1_r. nia. }
      rewrite L. reflexivity.
    - destruct (Forall_dec (fun d : darray T => shape_eqb d first = true /\ dims_eqb d first = true)) with (l := datas) as [F|F].
      { intros d. destruct (shape_eqb d first), (dims_eqb d first); [left; auto|right|right|right]; intros [? ?]; discriminate. }
      + exfalso. apply (Hbad n_scans). exists first, rest. repeat split; auto; lia.
      + apply Exists_Forall_neg in F.
        * apply Exists_exists in F as (d & Hd & Fd). exists d. split; [exact Hd|]. unfold step.
          destruct (shape_eqb d first), (dims_eqb d first); cbn [negb orb]; auto. exfalso; auto.
        * intros d. destruct (shape_eqb d first), (dims_eqb d first); [left; auto|right|right|right]; intros [? ?]; discriminate. }
  clearbody step datas. clear -X Sd. induction datas as [|d datas IH]; destruct X as (e & He & Ee); [contradiction|].
  cbn [mapM]. destruct (Sd d) as [[o Eo]|Eo]; rewrite Eo; cbn [bind]; [|reflexivity].
  destruct He as [->|He]; [congruence|]. rewrite IH by eauto. reflexivity.
Qed.
End Any.

(** * finite numbers *)
Open Scope R_scope.
Definition lin (u v t : R) : R := (1 - t) * u + t * v.
Definition frac (b f : nat) : R := INR b / INR f.

Lemma frac_bounds b f : (b < f)%nat -> 0 <= frac b f < 1.
Proof.
  intros H. unfold frac. assert (0 < INR f) by (apply lt_0_INR; lia). assert (INR b < INR f) by now apply lt_INR.
  pose proof (pos_INR b). split.
  - apply Rmult_le_pos; [lra|]. apply Rlt_le, Rinv_0_lt_compat. lra.
  - apply (Rmult_lt_reg_r (INR f)); [lra|]. unfold Rdiv. rewrite Rmult_assoc, Rinv_l by lra. lra.
Qed.

Lemma gen1_RN f c b (y : nat -> option R) (v : nat -> R) : (1 <= f)%nat -> (b < f)%nat ->
  y (lo_of c b) = Some (v (lo_of c b)) -> y (lo_of c b + 1)%nat = Some (v (lo_of c b + 1)%nat) ->
  @gen1 _ RN f c b y = Some (lin (v c) (v (c + 1)%nat) (frac b f)).
Proof.
  intros Hf Hb H0 H1. unfold gen1. cbv zeta. rewrite H0, H1. cbn [nadd nmul ndiv nsub nz RN lift2 RNdiv].
  assert (F0 : IZR (Z.of_nat f) <> 0) by (apply not_0_IZR; lia).
  destruct (Req_EM_T (IZR (Z.of_nat f)) 0); [contradiction|]. cbn [lift2]. f_equal.
  unfold lo_of, lin, frac. rewrite !INR_IZR_INZ. destruct (Nat.eqb_spec b 0); destruct (Nat.leb_spec 1 c); cbn [andb].
  - subst b. replace (Z.of_nat (c * f + 0) - Z.of_nat ((c - 1) * f))%Z with (Z.of_nat f) by nia.
    replace (c - 1 + 1)%nat with c by lia. cbn [Z.of_nat]. field. exact F0.
  - subst b. assert (c = 0)%nat by lia. subst c. cbn. field. exact F0.
  - replace (Z.of_nat (c * f + b) - Z.of_nat (c * f))%Z with (Z.of_nat b) by lia. field. exact F0.
  - replace (Z.of_nat (c * f + b) - Z.of_nat (c * f))%Z with (Z.of_nat b) by lia. field. exact F0.
Qed.

Definition bilin (v : nat -> nat -> R) (r c : nat) (t u : R) : R :=
  lin (lin (v r c) (v (r + 1)%nat c) t) (lin (v r (c + 1)%nat) (v (r + 1)%nat (c + 1)%nat) t) u.

Lemma pixel_RN f (y : nat -> nat -> option R) (v : nat -> nat -> R) R a C b :
  (1 <= f)%nat -> (a < f)%nat -> (b < f)%nat ->
  (forall i k, (i = lo_of R a \/ i = lo_of R a + 1)%nat -> (k = lo_of C b \/ k = lo_of C b + 1)%nat -> y i k = Some (v i k)) ->
  @pixel _ RN f y R a C b = Some (bilin v R C (frac a f) (frac b f)).
Proof.
  intros Hf Ha Hb Hy. unfold pixel.
  assert (E : forall k, (k = lo_of C b \/ k = lo_of C b + 1)%nat ->
     @gen1 _ RN f R a (fun i => y i k) = Some (lin (v R k) (v (R + 1)%nat k) (frac a f))).
  { intros k Hk. apply (gen1_RN f R a (fun i => y i k) (fun i => v i k)); auto. }
  rewrite (gen1_RN f C b _ (fun k => lin (v R k) (v (R + 1)%nat k) (frac a f))); auto.
Qed.

(** lo and lo + 1 stay inside *)
Lemma lo_range c b n : (c + 1 < n)%nat -> (lo_of c b < n)%nat /\ (lo_of c b + 1 < n)%nat.
Proof. unfold lo_of. destruct (_ && _); lia. Qed.

(** * the choice of the mode *)
Lemma fold_max_R l : exists m, @da_max _ RN (map Some l) = m /\
  match m with Some (Some x) => In x l /\ (forall z, In z l -> z <= x) | Some None => False | None => l = [] end.
Proof.
  eexists; split; [reflexivity|]. unfold da_max, da_fold.
  assert (G : forall l acc, (match acc with Some (Some x) => True | Some None => False | None => True end) ->
     match fold_left (fun acc x => if @neqb _ RN x x then match acc with None => Some x | Some m => if @nltb _ RN m x then Some x else acc end else acc)
        (map Some l) acc with
     | Some (Some x) => (In x l \/ acc = Some (Some x)) /\ (forall z, In z l \/ acc = Some (Some z) -> z <= x)
     | Some None => False
     | None => l = [] /\ acc = None end).
  { clear. induction l as [|a l IH]; intros acc Hacc; cbn [map fold_left].
    - destruct acc as [[x|]|]; [|contradiction|auto]. split; [auto|]. intros z [[]|[= ->]]. lra.
    - cbn [neqb RN liftb]. unfold Reqb at 2. destruct (Req_EM_T a a); [|contradiction].
      destruct acc as [[m|]|]; [|contradiction|].
      + cbn [nltb RN liftb]. destruct (Rltb m a) eqn:E.
        * apply Rltb_true in E. specialize (IH (Some (Some a)) I).
          destruct (fold_left _ _ _) as [[x|]|]; [|exact IH|destruct IH; discriminate]. destruct IH as [I1 I2]. split.
          { destruct I1 as [I1|[= ->]]; [left; now right|left; now left]. }
          intros z [[->|Hz]|[= ->]]; [apply I2; now right|apply I2; now left|]. specialize (I2 a (or_intror eq_refl)). lra.
        * assert (En : ~ m < a) by (intros H; apply Rltb_true in H; congruence). specialize (IH (Some (Some m)) I).
          destruct (fold_left _ _ _) as [[x|]|]; [|exact IH|destruct IH; discriminate]. destruct IH as [I1 I2]. split.
          { destruct I1 as [I1|I1]; [left; now right|now right]. }
          intros z [[->|Hz]|[= ->]]; [|apply I2; now left|apply I2; now right]. specialize (I2 m (or_intror eq_refl)). lra.
      + specialize (IH (Some (Some a)) I).
        destruct (fold_left _ _ _) as [[x|]|]; [|exact IH|destruct IH; discriminate]. destruct IH as [I1 I2]. split.
        { destruct I1 as [I1|[= ->]]; [left; now right|left; now left]. }
        intros z [[->|Hz]|Hz]; [apply I2; now right|apply I2; now left|discriminate]. }
  specialize (G l None I). destruct (fold_left _ _ _) as [[x|]|]; [|exact G|tauto].
  destruct G as [[G|G] G2]; [|discriminate]. split; auto.
Qed.

Lemma da_min_opp l : @da_min _ RN (map Some l) = option_map (option_map Ropp) (@da_max _ RN (map Some (map Ropp l))).
Proof.
  unfold da_min, da_max, da_fold. change (@None (option R)) with (option_map (option_map Ropp) (@None (option R))) at 1.
  generalize (@None (option R)). induction l as [|a l IH]; intros acc; [reflexivity|]. cbn [map fold_left].
  rewrite <- IH. f_equal. cbn [neqb RN liftb]. unfold Reqb. destruct (Req_EM_T a a), (Req_EM_T (- a) (- a)); try contradiction.
  destruct acc as [[m|]|]; cbn [option_map]; [|reflexivity|cbn; now rewrite Ropp_involutive].
  cbn [nltb RN liftb]. unfold Rltb. destruct (Rlt_dec a (- m)), (Rlt_dec m (- a)); try lra; cbn; now rewrite ?Ropp_involutive.
Qed.

Lemma fold_min_R l : exists m, @da_min _ RN (map Some l) = m /\
  match m with Some (Some x) => In x l /\ (forall z, In z l -> x <= z) | Some None => False | None => l = [] end.
Proof.
  rewrite da_min_opp. destruct (fold_max_R (map Ropp l)) as (m & -> & H). eexists; split; [reflexivity|].
  destruct m as [[x|]|]; cbn; [|contradiction|].
  - destruct H as [H1 H2]. apply in_map_iff in H1 as (z & <- & Hz). split; [now rewrite Ropp_involutive|].
    intros w Hw. specialize (H2 (- w) (in_map Ropp _ _ Hw)). lra.
  - destruct l; [reflexivity|discriminate].
Qed.

(** finite contents *)
Definition finite_da (a : darray (option R)) (v : nat -> nat -> R) : Prop :=
  forall i j, (i < nrows a)%nat -> (j < ncols a)%nat -> at_ a i j = Some (v i j).

Definition real_elements (nr nc : nat) (v : nat -> nat -> R) : list R :=
  concat (map (fun i => map (v i) (seq 0 nc)) (seq 0 nr)).

Lemma In_real_elements nr nc v x : In x (real_elements nr nc v) <-> exists i j, (i < nr)%nat /\ (j < nc)%nat /\ v i j = x.
Proof.
  unfold real_elements. rewrite in_concat. split.
  - intros (l & Hl & Hx). apply in_map_iff in Hl as (i & <- & Hi). apply in_map_iff in Hx as (j & <- & Hj).
    apply in_seq in Hi. apply in_seq in Hj. exists i, j. repeat split; lia.
  - intros (i & j & Hi & Hj & <-). eexists; split; [apply in_map_iff; exists i; split; [reflexivity|apply in_seq; lia]|].
    apply in_map_iff. exists j. split; [reflexivity|]. apply in_seq; lia.
Qed.

Lemma elements_finite a v : finite_da a v -> elements a = map Some (real_elements (nrows a) (ncols a) v).
Proof.
  intros H. unfold elements, real_elements. rewrite concat_map, map_map. f_equal. apply map_ext_in.
  intros i Hi. rewrite map_map. apply map_ext_in. intros j Hj. apply in_seq in Hi. apply in_seq in Hj. apply H; lia.
Qed.

Theorem to_cart_spec lon lat vlon vlat thr : finite_da lon vlon -> finite_da lat vlat ->
  (1 <= nrows lon)%nat -> (1 <= ncols lon)%nat -> nrows lon = nrows lat -> ncols lon = ncols lat ->
  @to_cart _ RN lon lat (Some thr) = true <->
  (exists i j, (i < nrows lon)%nat /\ (j < ncols lon)%nat /\ thr < Rabs (vlat i j)) \/
  (exists i j k l, (i < nrows lon)%nat /\ (j < ncols lon)%nat /\ (k < nrows lon)%nat /\ (l < ncols lon)%nat /\ 180 < vlon i j - vlon k l).
Proof.
  intros F1 F2 Hr Hc E1 E2. unfold to_cart.
  assert (F3 : finite_da (map_da (@np_abs _ RN) lat) (fun i j => Rabs (vlat i j))).
  { intros i j Hi Hj. cbn [map_da nrows ncols at_] in *. rewrite F2 by assumption. apply np_abs_RN. }
  rewrite (elements_finite _ _ F1), (elements_finite _ _ F3). cbn [map_da nrows ncols]. rewrite <- E1, <- E2.
  destruct (fold_max_R (real_elements (nrows lon) (ncols lon) (fun i j => Rabs (vlat i j)))) as (m1 & -> & M1).
  destruct (fold_max_R (real_elements (nrows lon) (ncols lon) vlon)) as (m2 & -> & M2).
  destruct (fold_min_R (real_elements (nrows lon) (ncols lon) vlon)) as (m3 & -> & M3).
  assert (Ne : forall v, real_elements (nrows lon) (ncols lon) v <> []).
  { intros v H. assert (X : In (v 0%nat 0%nat) (real_elements (nrows lon) (ncols lon) v)) by (apply In_real_elements; exists 0%nat, 0%nat; repeat split; lia).
    rewrite H in X. contradiction. }
  destruct m1 as [[m1|]|]; [|contradiction|exfalso; eapply Ne; eauto].
  destruct m2 as [[m2|]|]; [|contradiction|exfalso; eapply Ne; eauto].
  destruct m3 as [[m3|]|]; [|contradiction|exfalso; eapply Ne; eauto].
  destruct M1 as [A1 B1], M2 as [A2 B2], M3 as [A3 B3].
  cbn [nltb nsub nz RN liftb lift2]. rewrite orb_true_iff, !Rltb_true.
  apply In_real_elements in A1 as (i1 & j1 & Hi1 & Hj1 & <-). apply In_real_elements in A2 as (i2 & j2 & Hi2 & Hj2 & <-).
  apply In_real_elements in A3 as (i3 & j3 & Hi3 & Hj3 & <-). split.
  - intros [H|H]; [left; exists i1, j1; auto|right; exists i2, j2, i3, j3; auto].
  - intros [(i & j & Hi & Hj & H)|(i & j & k & l & Hi & Hj & Hk & Hl & H)].
    + left. assert (X : Rabs (vlat i j) <= Rabs (vlat i1 j1)) by (apply B1, In_real_elements; eauto). lra.
    + right. assert (X : vlon i j <= vlon i2 j2) by (apply B2, In_real_elements; eauto 6).
      assert (Y : vlon i3 j3 <= vlon k l) by (apply B3, In_real_elements; eauto 6). lra.
Qed.
