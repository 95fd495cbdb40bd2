(** Lemmas about the MODIS model: for standard widths the whole computation is a closed formula per pixel. *)
From Coq Require Import ZArith List Bool Lia.
From Verif Require Import Base Num Geo Mem Modis.
Import ListNotations.
Open Scope Z_scope.

Lemma div_le_low k x f : 0 < f -> k * f <= x -> k <= x / f.
Proof. intros. apply Z.div_le_lower_bound; lia. Qed.
Lemma div_lt_up k x f : 0 < f -> x < (k + 1) * f -> x / f <= k.
Proof. intros. assert (x / f < k + 1); [|lia]. apply Z.div_lt_upper_bound; lia. Qed.
Lemma div_is k x f : k * f <= x < (k + 1) * f -> x / f = k.
Proof. intros. assert (0 < f) by nia. pose proof (div_le_low k x f). pose proof (div_lt_up k x f). lia. Qed.

(** rectangle of a row-major array with w columns *)
Definition box (w r0 r1 c0 c1 a : Z) : Prop := exists r c, r0 <= r < r1 /\ c0 <= c < c1 /\ a = r * w + c.

(** configurations with the standard widths; p = fine pixels per km *)
Definition layout (c : cfg) (p : Z) : Prop :=
  1 <= p /\
  ((scl c = 10 /\ scw c = 1354 /\ cpp c = 1 /\ ff c = p /\ fsw c = 1354 * p /\ fac c = 2 * p) \/
   (scl c = 2 /\ (scw c = 270 \/ scw c = 271) /\ cpp c = 5 /\ ff c = 5 * p /\ fsw c = 1354 * p /\ fac c = 2 * p)).

Definition clampz (lo hi x : Z) : Z := Z.max lo (Z.min x hi).
(** the coarse cell (row and column of its upper left tie point) a fine pixel belongs to *)
Definition cell_r (c : cfg) (j : Z) : Z := if scl c =? 10 then clampz 0 8 ((j - ff c / 2) / ff c) else 0.
Definition cell_c (c : cfg) (i : Z) : Z :=
  clampz 0 (scw c - 2) ((i - (if scl c =? 10 then 0 else fac c)) / ff c).

Section Any.
Context {T : Type} {N : NumOps T}.

Lemma with_repeat_ok (F : Z -> Z -> T) L W v nr w r0 c0 b :
  bsize b = nr * w ->
  (forall l k, 0 <= l < L -> 0 <= k < W -> 0 <= r0 + l < nr /\ 0 <= c0 + k < w /\ v = F (r0 + l) (c0 + k)) ->
  exists b', with_repeat L W v (full nr w) r0 c0 b = Ok b' /\
    step (flat2 w F) (box w r0 (r0 + L) c0 (c0 + W)) b b'.
Proof.
  intros Hs H. unfold with_repeat.
  destruct (for_step (flat2 w F) (fun l a => exists k, 0 <= k < W /\ a = (r0 + l) * w + (c0 + k)) L
    (fun l b => for_range W (fun k b => wr b (full nr w) (r0 + l) (c0 + k) v) b) b) as (b' & E & S).
  - intros l s Hl Hsz.
    destruct (for_step (flat2 w F) (fun k a => (r0 + l) * w + (c0 + k) = a) W
      (fun k b => wr b (full nr w) (r0 + l) (c0 + k) v) s) as (s' & E & S).
    + intros k s' Hk Hsz'. destruct (H l k Hl Hk) as (A & B & C). unfold wr, addr, full. cbn [voff vs0].
      apply wro_step; [rewrite Hsz', Hsz, Hs; nia|]. rewrite flat2_at by lia. exact C.
    + exists s'. split; [exact E|]. eapply step_weaken; [|exact S]. intros a (k & Hk & ->). eauto.
  - exists b'. split; [exact E|]. eapply step_weaken; [|exact S]. intros a (r & k & Hr & Hk & ->).
    exists (r - r0). split; [lia|]. exists (k - c0). split; [lia|]. f_equal; [f_equal|]; lia.
Qed.

(** for loop over columns / rows of cells, each writing a rectangle *)
Lemma for_box (F : Z -> Z -> T) nr w (B : Z -> Z -> Prop) n body b :
  bsize b = nr * w ->
  (forall t s, 0 <= t < n -> bsize s = nr * w -> exists s', body t s = Ok s' /\ step (flat2 w F) (B t) s s') ->
  exists b', for_range n body b = Ok b' /\ step (flat2 w F) (fun a => exists t, 0 <= t < n /\ B t a) b b' /\ bsize b' = nr * w.
Proof.
  intros Hs H. destruct (for_step (flat2 w F) B n body b) as (b' & E & S).
  - intros t s Ht Hsz. apply H; [exact Ht|congruence].
  - exists b'. split; [exact E|]. split; [exact S|]. destruct S. congruence.
Qed.

Section Expand.
Context (c : cfg) (p : Z) (HL : layout c p).
Notation f := (ff c).
Notation w := (fsw c).
Notation nr := (scl c * ff c).
Context (inp : @input T) (G : Z -> Z -> T).
Context (Hrows : irows inp = scl c - 1) (Hcols : icols inp = scw c - 1).
Context (Hrd : forall i j, 0 <= i < irows inp -> 0 <= j < icols inp -> ird inp i j = Ok (G i j)).
Let F (r k : Z) : T := G (cell_r c r) (cell_c c k).

(** with_repeat of the value of cell (i, j) over a rectangle that belongs to this cell *)
Lemma repeat_cell L W i j r0 c0 b : bsize b = nr * w ->
  0 <= r0 -> r0 + L <= nr -> 0 <= c0 -> c0 + W <= w ->
  (forall r, r0 <= r < r0 + L -> cell_r c r = i) -> (forall k, c0 <= k < c0 + W -> cell_c c k = j) ->
  exists b', with_repeat L W (G i j) (full nr w) r0 c0 b = Ok b' /\ step (flat2 w F) (box w r0 (r0 + L) c0 (c0 + W)) b b'.
Proof.
  intros Hs A1 A2 A3 A4 Hr Hc. apply with_repeat_ok; [exact Hs|]. intros l k Hl Hk.
  split; [lia|]. split; [lia|]. unfold F. rewrite Hr, Hc by lia. reflexivity.
Qed.

Lemma expand_1km_ok b : scl c = 10 -> bsize b = nr * w ->
  exists b', expand_1km c inp (fine_vw c) b = Ok b' /\ bsize b' = nr * w /\
    forall a, 0 <= a < nr * w -> bat b' a = flat2 w F a.
Proof.
  intros H10 Hs. destruct HL as [Hp [(_ & E2 & E3 & E4 & E5 & E6)|(E1 & _)]]; [|lia].
  assert (Hh : 0 <= f / 2 /\ f / 2 * 2 <= f /\ f / 2 < f).
  { pose proof (Z.div_mod f 2 ltac:(lia)). pose proof (Z.mod_pos_bound f 2 ltac:(lia)). lia. }
  assert (CR : forall i r, 0 <= i <= 8 -> (i * f + f / 2 <= r < i * f + f / 2 + f \/ i = 0 /\ 0 <= r < f \/ i = 8 /\ 9 * f <= r < 10 * f) -> cell_r c r = i).
  { intros i r Hi Hr. unfold cell_r. rewrite H10. cbn [Z.eqb Pos.eqb]. unfold clampz. destruct Hr as [Hr|[Hr|Hr]].
    - rewrite (div_is i) by lia. lia.
    - pose proof (div_lt_up 0 (r - f / 2) f). lia.
    - pose proof (div_le_low 8 (r - f / 2) f). lia. }
  assert (CC : forall j k, 0 <= j <= 1352 -> (j * f <= k < j * f + f \/ j = 1352 /\ 1353 * f <= k < 1354 * f) -> cell_c c k = j).
  { intros j k Hj Hk. unfold cell_c. rewrite H10, E2. cbn [Z.eqb Pos.eqb]. unfold clampz. rewrite Z.sub_0_r. destruct Hk as [Hk|Hk].
    - rewrite (div_is j) by lia. lia.
    - pose proof (div_le_low 1353 k f). lia. }
  assert (Hf : 0 < f) by lia.
  unfold expand_1km, expand_1km_main, expand_1km_right_column, fine_vw.
  assert (Hir : irows inp = 9) by lia. assert (Hic : icols inp = 1353) by lia. rewrite Hir, Hic in *.
  (* a row of cells *)
  assert (ROW : forall i r0 s, 0 <= i <= 8 -> bsize s = nr * w -> 0 <= r0 -> r0 + f <= nr ->
    (forall r, r0 <= r < r0 + f -> cell_r c r = i) ->
    exists s', for_range 1353 (fun col_idx b => let* v := ird inp i col_idx in with_repeat f f v (full nr w) r0 (col_idx * f) b) s = Ok s' /\
      step (flat2 w F) (box w r0 (r0 + f) 0 (1353 * f)) s s' /\ bsize s' = nr * w).
  { intros i r0 s Hi Hsz Hr0 Hr1 HR.
    destruct (for_box F nr w (fun t => box w r0 (r0 + f) (t * f) (t * f + f)) 1353
      (fun col_idx b => let* v := ird inp i col_idx in with_repeat f f v (full nr w) r0 (col_idx * f) b) s Hsz) as (s' & E & S & Sz).
    - intros t s1 Ht Hsz1. rewrite Hrd by lia. cbn [bind]. apply repeat_cell; try lia; try nia; auto.
      intros k Hk. apply CC; lia.
    - exists s'. split; [exact E|]. split; [|exact Sz]. eapply step_weaken; [|exact S].
      intros a (r & k & Hr & Hk & ->). exists (k / f). pose proof (off_split f k Hf). split; [nia|].
      exists r, k. split; [exact Hr|]. split; [nia|reflexivity]. }
  destruct (for_box F nr w (fun i => box w (i * f + f / 2) (i * f + f / 2 + f) 0 (1353 * f)) 9
    (fun row_idx b => for_range 1353 (fun col_idx b => let* v := ird inp row_idx col_idx in with_repeat f f v (full nr w) (row_idx * f + f / 2) (col_idx * f) b) b) b Hs)
    as (b1 & Eq1 & S1 & Z1).
  { intros t s Ht Hsz. destruct (ROW t (t * f + f / 2) s) as (s' & E & S & _); try lia; try nia; [|eauto].
    intros r Hr. apply CR; lia. }
  destruct (ROW 0 (0 * f) b1) as (b2 & Eq2 & S2 & Z2); try lia; [intros r Hr; apply CR; lia|].
  destruct (ROW 8 (8 * f + f) b2) as (b3 & Eq3 & S3 & Z3); try lia; [intros r Hr; apply CR; lia|].
  destruct (for_box F nr w (fun i => box w (i * f + f / 2) (i * f + f / 2 + f) (1353 * f) (1354 * f)) 9
    (fun row_idx b => let* v := ird inp row_idx 1352 in with_repeat f f v (full nr w) (row_idx * f + f / 2) (1352 * f + f) b) b3 Z3)
    as (b4 & Eq4 & S4 & Z4).
  { intros t s Ht Hsz. rewrite Hrd by lia. cbn [bind].
    replace (box w (t * f + f / 2) (t * f + f / 2 + f) (1353 * f) (1354 * f)) with (box w (t * f + f / 2) (t * f + f / 2 + f) (1352 * f + f) (1352 * f + f + f)) by (f_equal; lia).
    apply repeat_cell; try lia; try nia; intros; [apply CR|apply CC]; lia. }
  destruct (repeat_cell f f 0 1352 (0 * f) (1352 * f + f) b4) as (b5 & Eq5 & S5); try lia; [intros; apply CR; lia|intros; apply CC; lia|].
  destruct (repeat_cell f f 8 1352 (8 * f + f) (1352 * f + f) b5) as (b6 & Eq6 & S6); try lia;
    [destruct S5; congruence|intros; apply CR; lia|intros; apply CC; lia|].
  exists b6. split; [|split].
  - rewrite Eq1. cbn [bind]. rewrite Eq2. cbn [bind]. change (9 - 1) with 8. rewrite Eq3. cbn [bind]. change (1353 - 1) with 1352.
    rewrite Eq4. cbn [bind]. rewrite Hrd by lia. cbn [bind]. rewrite Eq5. cbn [bind]. rewrite Hrd by lia. cbn [bind]. exact Eq6.
  - destruct S5, S6. congruence.
  - intros a Ha. pose proof (step_seq _ _ _ _ _ _ (step_seq _ _ _ _ _ _ (step_seq _ _ _ _ _ _ (step_seq _ _ _ _ _ _ (step_seq _ _ _ _ _ _ S1 S2) S3) S4) S5) S6) as S.
    apply (step_at _ _ _ _ _ S). assert (Hw : 0 < w) by lia. destruct (off_split w a Hw) as [Ea Hc].
    assert (Hr : 0 <= a / w < 10 * f).
    { split; [apply Z.div_pos; lia|]. apply Z.div_lt_upper_bound; lia. }
    set (r := a / w) in *. set (k := a mod w) in *.
    destruct (Z.lt_ge_cases k (1353 * f)) as [Hk|Hk].
    + left. left. left. destruct (Z.lt_ge_cases r f); [left; right|destruct (Z.lt_ge_cases r (9 * f)); [left; left|right]];
        [exists r, k; split; [lia|]; split; [lia|exact Ea]| |exists r, k; split; [lia|]; split; [lia|exact Ea]].
      exists ((r - f / 2) / f). destruct (off_split f (r - f / 2) Hf) as [Eq Hq]. split; [nia|]. exists r, k. split; [lia|]. split; [lia|exact Ea].
    + destruct (Z.lt_ge_cases r f); [left; right|destruct (Z.lt_ge_cases r (9 * f)); [left; left; right|right]];
        [exists r, k; split; [lia|]; split; [lia|exact Ea]| |exists r, k; split; [lia|]; split; [lia|exact Ea]].
      exists ((r - f / 2) / f). destruct (off_split f (r - f / 2) Hf) as [Eq Hq]. split; [nia|]. exists r, k. split; [lia|]. split; [lia|exact Ea].
Qed.

Lemma expand_5km_ok b : scl c = 2 -> bsize b = nr * w ->
  exists b', expand_5km c inp (fine_vw c) b = Ok b' /\ bsize b' = nr * w /\
    forall a, 0 <= a < nr * w -> bat b' a = flat2 w F a.
Proof.
  intros H2 Hs. destruct HL as [Hp [(E1 & _)|(_ & E2 & E3 & E4 & E5 & E6)]]; [lia|].
  assert (CR : forall r, cell_r c r = 0) by (intros r; unfold cell_r; rewrite H2; reflexivity).
  assert (CC : forall j k, 0 <= j <= scw c - 2 ->
    (j * f + fac c <= k < j * f + fac c + f \/ j = 0 /\ 0 <= k < fac c \/ j = scw c - 2 /\ (scw c - 1) * f + fac c <= k < w) -> cell_c c k = j).
  { intros j k Hj Hk. unfold cell_c. rewrite H2. cbn [Z.eqb Pos.eqb]. unfold clampz. destruct Hk as [Hk|[Hk|Hk]].
    - rewrite (div_is j) by lia. lia.
    - pose proof (div_lt_up 0 (k - fac c) f). lia.
    - pose proof (div_le_low (scw c - 1) (k - fac c) f). lia. }
  assert (Hf : 0 < f) by lia.
  assert (Hnr : nr = f * 2) by lia.
  unfold expand_5km, expand_5km_main, expand_5km_edges, expand_5km_270, fine_vw.
  assert (Hir : irows inp = 1) by lia. rewrite Hir in *.
  (* columns of the edges *)
  assert (ONE : forall (body : Z -> buf T -> res (buf T)) (s : buf T), for_range 1 body s = let* s := body 0 s in Ok s) by reflexivity.
  assert (OK1 : forall x : res (buf T), (let* s := x in Ok s) = x) by (intros []; reflexivity).
  rewrite !ONE.
  destruct (for_box F nr w (fun t => box w 0 nr (t * f + fac c) (t * f + fac c + f)) (icols inp)
    (fun col_idx b => let* v := ird inp 0 col_idx in with_repeat (f * 2) f v (full nr w) (0 * f * 2) (col_idx * f + fac c) b) b Hs)
    as (b1 & Eq1 & S1 & Z1).
  { intros t s Ht Hsz. rewrite Hrd by lia. cbn [bind].
    replace (box w 0 nr (t * f + fac c) (t * f + fac c + f)) with (box w (0 * f * 2) (0 * f * 2 + f * 2) (t * f + fac c) (t * f + fac c + f)) by (f_equal; lia).
    apply repeat_cell; try lia; try nia; auto. intros k Hk. apply CC; lia. }
  destruct (repeat_cell (f * 2) (fac c) 0 0 (0 * f * 2) 0 b1) as (b2 & Eq2 & S2); try lia; auto; [intros; apply CC; lia|].
  assert (Z2 : bsize b2 = nr * w) by (destruct S2; congruence).
  assert (X : exists b3, (if scw c =? 270 then
       let* v := ird inp 0 (icols inp - 1) in
       with_repeat (f * 2) f v (full nr w) (0 * f * 2) ((icols inp - 1) * f + f + fac c) b2
       else Ok b2) = Ok b3 /\ step (flat2 w F) (fun a => scw c = 270 /\ box w 0 nr (269 * f + fac c) (270 * f + fac c) a) b2 b3).
  { destruct (Z.eqb_spec (scw c) 270) as [E|E].
    - rewrite Hrd by lia. cbn [bind].
      destruct (repeat_cell (f * 2) f 0 (icols inp - 1) (0 * f * 2) ((icols inp - 1) * f + f + fac c) b2) as (b3 & Eq3 & S3); try lia; auto.
      + intros; apply CC; lia.
      + exists b3. split; [exact Eq3|]. eapply step_weaken; [|exact S3]. intros a (_ & r & k & Hr & Hk & ->).
        exists r, k. split; [lia|]. split; [lia|reflexivity].
    - exists b2. split; [reflexivity|]. eapply step_weaken; [|apply step_refl]. intros a [? _]. contradiction. }
  destruct X as (b3 & Eq3 & S3).
  destruct (repeat_cell (f * 2) (fac c) 0 (icols inp - 1) (0 * f * 2) (w - fac c) b3) as (b4 & Eq4 & S4); try lia; auto;
    [destruct S3; congruence|intros; apply CC; lia|].
  exists b4. split; [|split].
  - rewrite Eq1. cbn [bind]. rewrite ONE, (Hrd 0 0) by lia. cbn [bind]. rewrite Eq2. cbn [bind].
    replace (if scw c =? 270 then _ else Ok b2) with (@Ok (buf T) b3).
    + cbn [bind vcols full]. rewrite ONE, (Hrd 0 (icols inp - 1)) by lia. cbn [bind]. rewrite Eq4. reflexivity.
    + rewrite <- Eq3. destruct (scw c =? 270); [|reflexivity]. rewrite ONE, OK1. reflexivity.
  - destruct S3, S4. congruence.
  - intros a Ha. pose proof (step_seq _ _ _ _ _ _ (step_seq _ _ _ _ _ _ (step_seq _ _ _ _ _ _ S1 S2) S3) S4) as S.
    apply (step_at _ _ _ _ _ S). assert (Hw : 0 < w) by lia. destruct (off_split w a Hw) as [Ea Hc].
    assert (Hr : 0 <= a / w < nr).
    { split; [apply Z.div_pos; lia|]. apply Z.div_lt_upper_bound; lia. }
    set (r := a / w) in *. set (k := a mod w) in *.
    destruct (Z.lt_ge_cases k (fac c)); [left; left; right; exists r, k; split; [lia|]; split; [lia|exact Ea]|].
    destruct (Z.lt_ge_cases k (icols inp * f + fac c)).
    + left. left. left. exists ((k - fac c) / f). destruct (off_split f (k - fac c) Hf) as [Eq Hq]. split; [nia|].
      exists r, k. split; [lia|]. split; [lia|exact Ea].
    + destruct (Z.lt_ge_cases k (w - fac c)).
      * left. right. split; [lia|]. exists r, k. split; [lia|]. split; [lia|exact Ea].
      * right. exists r, k. split; [lia|]. split; [lia|exact Ea].
Qed.

Lemma expand_ok b : bsize b = nr * w ->
  exists b', expand c inp (fine_vw c) b = Ok b' /\ bsize b' = nr * w /\
    forall r k, 0 <= r < nr -> 0 <= k < w -> bat b' (r * w + k) = G (cell_r c r) (cell_c c k).
Proof.
  intros Hs. unfold expand.
  assert (X : exists b', (if scl c =? 10 then expand_1km c inp (fine_vw c) b else expand_5km c inp (fine_vw c) b) = Ok b' /\ bsize b' = nr * w /\
    forall a, 0 <= a < nr * w -> bat b' a = flat2 w F a).
  { destruct HL as [Hp [(E1 & _)|(E1 & _)]]; rewrite E1; cbn [Z.eqb Pos.eqb]; rewrite <- E1; [apply expand_1km_ok|apply expand_5km_ok]; assumption. }
  destruct X as (b' & E & Sz & H). exists b'. split; [exact E|]. split; [exact Sz|].
  intros r k Hr Hk. rewrite H by nia. now rewrite flat2_at.
Qed.
End Expand.

(** ** Coordinates *)
Definition xpos (c : cfg) (i : Z) : Z :=
  if scl c =? 10 then (if i <? fsw c - ff c then i mod ff c else ff c + (i - (fsw c - ff c)))
  else if i <? 2 then i - 2
  else if scw c =? 271 then (if i <? fsw c - 2 then (i - 2) mod ff c else 5 + (i - (fsw c - 2)))
  else (if i <? fsw c - 7 then (i - 2) mod ff c else 5 + (i - (fsw c - 7))).
Definition xc (c : cfg) (i : Z) : T := nst (nz (xpos c i)).
Definition yc (c : cfg) (j : Z) : T :=
  if scl c =? 10 then
    let h := ff c / 2 in
    let n := scl c * ff c in
    if j <? h then nst (nsub (nadd half (nz j)) (nz h))
    else if n - h <=? j then nst (nadd (nadd (nz (ff c)) half) (nz (h - (n - j))))
    else nst (nadd (nz ((j + h) mod ff c)) half)
  else nst (nz (j - 2)).

Lemma coords_ok c p g : layout c p ->
  exists x y, get_coords c g = Ok (x, y) /\ bsize x = fsw c /\ bsize y = scl c * ff c /\
    (forall i, 0 <= i < fsw c -> bat x i = xc c i) /\ (forall j, 0 <= j < scl c * ff c -> bat y j = yc c j).
Proof.
  intros [Hp [(E1 & E2 & E3 & E4 & E5 & E6)|(E1 & E2 & E3 & E4 & E5 & E6)]]; unfold get_coords, xc, xpos, yc; rewrite E1; cbn [Z.eqb Pos.eqb].
  - unfold get_coords_1km. rewrite E1.
    match goal with |- context [for_range (10 * ff c) ?B ?y] =>
      destruct (for_step (yc c) (fun t a => t = a) (10 * ff c) B y) as (y' & Ey & Sy) end.
    { intros t s Ht Hs. cbn [bsize] in Hs. cbv zeta.
      assert (W : forall v, v = yc c t -> exists s', wro s t v = Ok s' /\ step (yc c) (fun a => t = a) s s').
      { intros v Hv. apply (wro_step (yc c) s t v); [lia|exact Hv]. }
      unfold yc in W at 1. rewrite E1 in W. cbn [Z.eqb Pos.eqb] in W.
      destruct (t <? ff c / 2); [now apply W|]. destruct (10 * ff c - ff c / 2 <=? t); now apply W. }
    rewrite Ey. cbn [bind].
    match goal with |- context [for_range (ff c) ?B ?x] =>
      destruct (for_step (xc c) (fun t a => fsw c - ff c + t = a) (ff c) B x) as (x' & Ex & Sx) end.
    { intros t s Ht Hs. cbn [bsize] in Hs. apply (wro_step (xc c)); [lia|]. unfold xc, xpos. rewrite E1. cbn [Z.eqb Pos.eqb].
      destruct (Z.ltb_spec (fsw c - ff c + t) (fsw c - ff c)); [lia|]. f_equal. f_equal. lia. }
    rewrite Ex. cbn [bind]. exists x', y'. split; [reflexivity|]. split; [exact (proj1 Sx)|]. split; [exact (proj1 Sy)|]. split.
    + intros i Hi. destruct (Z.ltb_spec i (fsw c - ff c)) as [Hlt|Hge].
      * transitivity (xc c i).
        { apply (step_keep _ _ _ _ _ Sx). cbn [bat]. unfold xc, xpos. rewrite E1. cbn [Z.eqb Pos.eqb].
          destruct (Z.ltb_spec i (fsw c - ff c)); [reflexivity|lia]. }
        unfold xc, xpos. rewrite E1. cbn [Z.eqb Pos.eqb]. destruct (Z.ltb_spec i (fsw c - ff c)); [reflexivity|lia].
      * transitivity (xc c i).
        { apply (step_at _ _ _ _ _ Sx). exists (i - (fsw c - ff c)). lia. }
        unfold xc, xpos. rewrite E1. cbn [Z.eqb Pos.eqb]. destruct (Z.ltb_spec i (fsw c - ff c)); [lia|reflexivity].
    + intros j Hj. transitivity (yc c j); [apply (step_at _ _ _ _ _ Sy); exists j; split; [lia|reflexivity]|].
      unfold yc. rewrite E1. reflexivity.
  - unfold get_coords_5km. rewrite E1.
    set (X := {| bsize := fsw c; bat := fun i => nst (nz ((i - 2) mod ff c)) |}).
    assert (XC : forall i, (i < 0 \/ 2 <= i < fsw c - (if scw c =? 271 then 2 else 7) \/ fsw c <= i) -> True) by auto. clear XC.
    destruct (wro_step (xc c) X 0 (nst (nz (-2)))) as (x1 & Ex1 & S1); [cbn; lia|unfold xc, xpos; now rewrite E1|].
    rewrite Ex1. cbn [bind].
    destruct (wro_step (xc c) x1 1 (nst (nz (-1)))) as (x2 & Ex2 & S2); [destruct S1 as [-> _]; cbn; lia|unfold xc, xpos; now rewrite E1|].
    rewrite Ex2. cbn [bind]. pose proof (step_seq _ _ _ _ _ _ S1 S2) as S12. clear S1 S2 Ex1 Ex2.
    assert (B2 : bsize x2 = fsw c) by (destruct S12 as [-> _]; reflexivity).
    set (m := if scw c =? 271 then 2 else 7).
    assert (Y : exists x', (if scw c =? 271 then let* x := wro x2 (fsw c - 2) (nst (nz 5)) in wro x (fsw c - 1) (nst (nz 6))
        else for_range 7 (fun i x => wro x (fsw c - 7 + i) (nst (nz (5 + i)))) x2) = Ok x' /\
      step (xc c) (fun a => fsw c - m <= a < fsw c) x2 x').
    { unfold m. destruct (Z.eqb_spec (scw c) 271) as [E|E].
      - assert (V : forall i, fsw c - 2 <= i < fsw c -> xc c i = nst (nz (5 + (i - (fsw c - 2))))).
        { intros i Hi. unfold xc, xpos. rewrite E1, E. cbn [Z.eqb Pos.eqb]. destruct (Z.ltb_spec i 2); [lia|].
          destruct (Z.ltb_spec i (fsw c - 2)); [lia|reflexivity]. }
        destruct (wro_step (xc c) x2 (fsw c - 2) (nst (nz 5))) as (x3 & Ex3 & S3); [lia|rewrite V by lia; do 2 f_equal; lia|].
        rewrite Ex3. cbn [bind].
        destruct (wro_step (xc c) x3 (fsw c - 1) (nst (nz 6))) as (x4 & Ex4 & S4); [destruct S3; lia|rewrite V by lia; do 2 f_equal; lia|].
        exists x4. split; [exact Ex4|]. eapply step_weaken; [|exact (step_seq _ _ _ _ _ _ S3 S4)].
        cbn beta. intros a Ha. lia.
      - destruct (for_step (xc c) (fun t a => fsw c - 7 + t = a) 7 (fun i x => wro x (fsw c - 7 + i) (nst (nz (5 + i)))) x2) as (x3 & Ex3 & S3).
        + intros t s Ht Hs. apply (wro_step (xc c)); [lia|]. unfold xc, xpos. rewrite E1. cbn [Z.eqb Pos.eqb].
          destruct (Z.ltb_spec (fsw c - 7 + t) 2); [lia|]. destruct (Z.eqb_spec (scw c) 271); [contradiction|].
          destruct (Z.ltb_spec (fsw c - 7 + t) (fsw c - 7)); [lia|]. do 2 f_equal. lia.
        + exists x3. split; [exact Ex3|]. eapply step_weaken; [|exact S3]. intros a Ha. exists (a - (fsw c - 7)). cbn beta. lia. }
    destruct Y as (x' & Ex & S3). rewrite Ex. cbn [bind].
    eexists x', _. split; [reflexivity|]. pose proof (step_seq _ _ _ _ _ _ S12 S3) as S.
    split; [exact (proj1 S)|]. split; [cbn [bsize]; lia|]. split; [|reflexivity].
    intros i Hi. transitivity (xc c i); [|unfold xc, xpos; now rewrite E1].
    assert (M : 2 <= m <= 7) by (unfold m; destruct (scw c =? 271); lia).
    destruct (Z.lt_ge_cases i 2); [apply (step_at _ _ _ _ _ S); lia|].
    destruct (Z.lt_ge_cases i (fsw c - m)) as [Hm|Hm]; [|apply (step_at _ _ _ _ _ S); lia].
    apply (step_keep _ _ _ _ _ S). cbn [bat X]. unfold xc, xpos. rewrite E1. cbn [Z.eqb Pos.eqb].
    destruct (Z.ltb_spec i 2); [lia|]. unfold m in Hm. destruct (scw c =? 271).
    + destruct (Z.ltb_spec i (fsw c - 2)); [reflexivity|lia].
    + destruct (Z.ltb_spec i (fsw c - 7)); [reflexivity|lia].
Qed.

(** ** Reading and writing whole rectangles *)
Lemma rd_ok (E : Type) (b : buf E) v i j : 0 <= addr v i j < bsize b -> rd b v i j = Ok (bat b (addr v i j)).
Proof. apply rdo_ok. Qed.

(** nested loop over a rectangle that writes two buffers at offset off + i * w + j *)
Lemma loop2_ok {E1 E2} (F1 : Z -> E1) (F2 : Z -> E2) n m (pos : Z -> Z -> Z) (body : Z -> Z -> buf E1 * buf E2 -> res (buf E1 * buf E2)) p :
  (forall i j s, 0 <= i < n -> 0 <= j < m -> bsize (fst s) = bsize (fst p) -> bsize (snd s) = bsize (snd p) ->
     exists s', body i j s = Ok s' /\ step2 F1 F2 (eq (pos i j)) (eq (pos i j)) s s') ->
  exists p', for_range n (fun i s => for_range m (body i) s) p = Ok p' /\
    step2 F1 F2 (fun a => exists i j, 0 <= i < n /\ 0 <= j < m /\ pos i j = a) (fun a => exists i j, 0 <= i < n /\ 0 <= j < m /\ pos i j = a) p p'.
Proof.
  intros H.
  destruct (for_step2 F1 F2 (fun i a => exists j, 0 <= j < m /\ pos i j = a) (fun i a => exists j, 0 <= j < m /\ pos i j = a) n
    (fun i s => for_range m (body i) s) p) as (p' & E & S1 & S2).
  - intros i s Hi Hs1 Hs2.
    destruct (for_step2 F1 F2 (fun j a => pos i j = a) (fun j a => pos i j = a) m (body i) s) as (s' & E & S).
    + intros j s1 Hj A B. apply H; try assumption; congruence.
    + exists s'. auto.
  - exists p'. split; [exact E|]. split; (eapply step_weaken; [|eassumption]); cbn beta; intros a (i & j & Hi & Hj & Ha); exists i; split; [exact Hi|exists j; auto|exact Hi|exists j; auto].
Qed.

Lemma loop1_ok {El} (F : Z -> El) n m (pos : Z -> Z -> Z) (body : Z -> Z -> buf El -> res (buf El)) (Inv : buf El -> Prop) p :
  Inv p -> (forall b b' a, Inv b -> step F (eq a) b b' -> Inv b') ->
  (forall i j s, 0 <= i < n -> 0 <= j < m -> Inv s -> bsize s = bsize p -> exists s', body i j s = Ok s' /\ step F (eq (pos i j)) s s') ->
  exists p', for_range n (fun i s => for_range m (body i) s) p = Ok p' /\
    step F (fun a => exists i j, 0 <= i < n /\ 0 <= j < m /\ pos i j = a) p p'.
Proof.
  intros HI Hstep H.
  destruct (for_rel (step F) (fun s => Inv s /\ bsize s = bsize p) (fun i a => exists j, 0 <= j < m /\ pos i j = a) n
    (fun i s => for_range m (body i) s) p) as (p' & E & S & _); eauto using step_refl, step_seq, step_weaken.
  - intros i s Hi [A B].
    destruct (for_rel (step F) (fun s => Inv s /\ bsize s = bsize p) (fun j a => pos i j = a) m (body i) s) as (s' & E & S & C);
      eauto using step_refl, step_seq, step_weaken.
    intros j s1 Hj [C D]. destruct (H i j s1 Hi Hj C D) as (s' & E & S). exists s'. split; [exact E|]. split; [exact S|].
    split; [exact (Hstep _ _ _ C S)|]. destruct S. congruence.
  - exists p'. split; [exact E|]. eapply step_weaken; [|exact S]. intros a (i & j & Hi & Hj & Ha). exists i. split; [exact Hi|]. exists j. auto.
Qed.

Lemma slice_in v r0 r1 c0 c1 : 0 <= r0 <= r1 -> r1 <= vrows v -> 0 <= c0 <= c1 -> c1 <= vcols v ->
  slice v r0 r1 c0 c1 = {| voff := voff v + r0 * vs0 v + c0; vs0 := vs0 v; vrows := r1 - r0; vcols := c1 - c0 |}.
Proof.
  intros. unfold slice, bound.
  destruct (Z.ltb_spec r0 0); [lia|]. destruct (Z.ltb_spec r1 0); [lia|]. destruct (Z.ltb_spec c0 0); [lia|]. destruct (Z.ltb_spec c1 0); [lia|].
  rewrite !Z.min_l, !Z.max_r by lia. reflexivity.
Qed.

Lemma for_range_id {St} n (body : Z -> St -> res St) st : (forall i, body i st = Ok st) -> for_range n body st = Ok st.
Proof.
  intros H. unfold for_range. induction (range0 n) as [|i l IH]; [reflexivity|]. cbn. rewrite H. exact IH.
Qed.

Section Stages.
Context (c : cfg) (p : Z) (HL : layout c p).
Notation f := (ff c).
Notation w := (fsw c).
Notation nr := (scl c * ff c).

Lemma lay : 1 <= f /\ 2 <= scl c /\ 2 <= scw c <= w /\ scl c - 1 <= nr /\ 1354 <= w.
Proof. destruct HL as [Hp [(E1 & E2 & E3 & E4 & E5 & E6)|(E1 & E2 & E3 & E4 & E5 & E6)]]; rewrite E1, E4, E5; lia. Qed.

Definition vslice : vw := slice (fine_vw c) 0 (scl c - 1) 0 (scw c - 1).
Lemma vslice_eq : vslice = {| voff := 0; vs0 := w; vrows := scl c - 1; vcols := scw c - 1 |}.
Proof.
  pose proof lay. unfold vslice. rewrite slice_in; cbn [fine_vw full vrows vcols voff vs0]; try lia. f_equal; lia.
Qed.

Lemma exp_ali_stage (satz : buf T) vsatz W be ba :
  vrows vsatz = scl c -> vcols vsatz = W -> 0 <= W <= scw c ->
  (forall i j, 0 <= i < scl c -> 0 <= j < W -> 0 <= addr vsatz i j < bsize satz) ->
  bsize be = nr * w -> bsize ba = nr * w ->
  exists be' ba',
    compute_expansion_alignment satz (slice vsatz 0 (vrows vsatz - 1) 0 (vcols vsatz - 1)) (slice vsatz 0 (vrows vsatz - 1) 1 (vcols vsatz))
      (cpp c) vslice (be, ba) = Ok (be', ba') /\
    bsize be' = nr * w /\ bsize ba' = nr * w /\
    forall i j, 0 <= i < scl c - 1 -> 0 <= j < W - 1 ->
      (bat be' (i * w + j), bat ba' (i * w + j)) = exp_ali (cpp c) (bat satz (addr vsatz i j)) (bat satz (addr vsatz i (j + 1))).
Proof.
  intros Hr Hc HW Hin Hbe Hba. pose proof lay as L. unfold compute_expansion_alignment.
  destruct (Z.eq_dec W 0) as [W0|W0].
  { exists be, ba. split; [|split; [exact Hbe|split; [exact Hba|intros; lia]]].
    assert (V0 : vcols (slice vsatz 0 (vrows vsatz - 1) 0 (vcols vsatz - 1)) = 0) by (unfold slice, bound; cbn [vcols]; rewrite Hc, W0; reflexivity).
    rewrite V0. apply for_range_id. reflexivity. }
  rewrite Hr, Hc, !slice_in by lia. cbn [vrows vcols]. rewrite vslice_eq.
  set (F := fun a => exp_ali (cpp c) (bat satz (addr vsatz (a / w) (a mod w))) (bat satz (addr vsatz (a / w) (a mod w + 1)))).
  destruct (loop2_ok (fun a => fst (F a)) (fun a => snd (F a)) (scl c - 1 - 0) (W - 1 - 0) (fun i j => i * w + j)
    (fun i j st => let '(be, ba) := st in
       let* a := rd satz {| voff := voff vsatz + 0 * vs0 vsatz + 0; vs0 := vs0 vsatz; vrows := scl c - 1 - 0; vcols := W - 1 - 0 |} i j in
       let* b := rd satz {| voff := voff vsatz + 0 * vs0 vsatz + 1; vs0 := vs0 vsatz; vrows := scl c - 1 - 0; vcols := W - 1 |} i j in
       let* be := wr be {| voff := 0; vs0 := w; vrows := scl c - 1; vcols := scw c - 1 |} i j (fst (exp_ali (cpp c) a b)) in
       let* ba := wr ba {| voff := 0; vs0 := w; vrows := scl c - 1; vcols := scw c - 1 |} i j (snd (exp_ali (cpp c) a b)) in
       Ok (be, ba)) (be, ba)) as ([be' ba'] & E & S1 & S2).
  - intros i j [b1 b2] Hi Hj Hs1 Hs2. cbn [fst snd] in Hs1, Hs2.
    pose proof (Hin i j ltac:(lia) ltac:(lia)) as A1. pose proof (Hin i (j + 1) ltac:(lia) ltac:(lia)) as A2. unfold addr in A1, A2.
    rewrite (rd_ok _ satz _ i j) by (unfold addr; cbn [voff vs0]; lia). cbn [bind].
    rewrite (rd_ok _ satz _ i j) by (unfold addr; cbn [voff vs0]; lia). cbn [bind].
    assert (P : 0 <= i * w + j < nr * w) by nia.
    assert (V : exp_ali (cpp c)
       (bat satz (addr {| voff := voff vsatz + 0 * vs0 vsatz + 0; vs0 := vs0 vsatz; vrows := scl c - 1 - 0; vcols := W - 1 - 0 |} i j))
       (bat satz (addr {| voff := voff vsatz + 0 * vs0 vsatz + 1; vs0 := vs0 vsatz; vrows := scl c - 1 - 0; vcols := W - 1 |} i j)) = F (i * w + j)).
    { unfold F. pose proof (flat2_at w (fun a _ => a) i j ltac:(lia)) as D1. pose proof (flat2_at w (fun _ b => b) i j ltac:(lia)) as D2.
      unfold flat2 in D1, D2. rewrite D1, D2. unfold addr. cbn [voff vs0].
      replace (voff vsatz + 0 * vs0 vsatz + 0 + i * vs0 vsatz + j) with (voff vsatz + i * vs0 vsatz + j) by lia.
      replace (voff vsatz + 0 * vs0 vsatz + 1 + i * vs0 vsatz + j) with (voff vsatz + i * vs0 vsatz + (j + 1)) by lia. reflexivity. }
    rewrite V. unfold wr. 
    destruct (wro_step (fun a => fst (F a)) b1 (i * w + j) (fst (F (i * w + j)))) as (b1' & E1 & T1); [congruence || lia|reflexivity|].
    destruct (wro_step (fun a => snd (F a)) b2 (i * w + j) (snd (F (i * w + j)))) as (b2' & E2 & T2); [congruence || lia|reflexivity|].
    change (addr {| voff := 0; vs0 := w; vrows := scl c - 1; vcols := scw c - 1 |} i j) with (i * w + j).
    rewrite E1. cbn [bind]. rewrite E2. cbn [bind]. eexists. split; [reflexivity|]. split; assumption.
  - exists be', ba'. split; [exact E|]. cbn [fst snd] in S1, S2. split; [destruct S1; congruence|]. split; [destruct S2; congruence|].
    intros i j Hi Hj.
    assert (I : exists i0 j0, 0 <= i0 < scl c - 1 - 0 /\ 0 <= j0 < W - 1 - 0 /\ i0 * w + j0 = i * w + j) by (exists i, j; lia).
    rewrite (step_at _ _ _ _ _ S1 I), (step_at _ _ _ _ _ S2 I), <- surjective_pairing. unfold F.
    pose proof (flat2_at w (fun a _ => a) i j ltac:(lia)) as D1. pose proof (flat2_at w (fun _ b => b) i j ltac:(lia)) as D2.
    unfold flat2 in D1, D2. rewrite D1, D2. reflexivity.
Qed.

(** expansion of a coarse array stored in the corner of a fine work array *)
Lemma expand_slice_stage (t b : buf T) : bsize t = nr * w -> bsize b = nr * w ->
  exists b', expand c (view_input t vslice) (fine_vw c) b = Ok b' /\ bsize b' = nr * w /\
    forall r k, 0 <= r < nr -> 0 <= k < w -> bat b' (r * w + k) = bat t (cell_r c r * w + cell_c c k).
Proof.
  intros Ht Hb. pose proof lay as L. rewrite vslice_eq.
  apply (expand_ok c p HL (view_input t {| voff := 0; vs0 := w; vrows := scl c - 1; vcols := scw c - 1 |}) (fun i j => bat t (i * w + j)));
    [reflexivity|reflexivity| |exact Hb].
  intros i j Hi Hj. cbn [view_input irows icols ird vrows vcols] in *. apply rd_ok. unfold addr. cbn [voff vs0]. rewrite Ht. nia.
Qed.

Lemma calc_stage (x y ce ca at0 as0 : buf T) : bsize x = w -> bsize y = nr -> bsize ce = nr * w -> bsize ca = nr * w ->
  bsize at0 = nr * w -> bsize as0 = nr * w ->
  exists at' as', calculate_atrack_ascan c x y ce ca (fine_vw c) (at0, as0) = Ok (at', as') /\ bsize at' = nr * w /\ bsize as' = nr * w /\
    forall r k, 0 <= r < nr -> 0 <= k < w ->
      bat at' (r * w + k) = fdiv (bat y r) (nz f) /\
      bat as' (r * w + k) = a_scan_value (fdiv (bat x k) (nz f)) (fdiv (bat y r) (nz f)) (bat ce (r * w + k)) (bat ca (r * w + k)).
Proof.
  intros Hx Hy Hce Hca Hat Has. pose proof lay as L. unfold calculate_atrack_ascan. rewrite Hx, Hy.
  destruct (loop2_ok (fun a => fdiv (bat y (a / w)) (nz f))
    (fun a => a_scan_value (fdiv (bat x (a mod w)) (nz f)) (fdiv (bat y (a / w)) (nz f)) (bat ce a) (bat ca a)) nr w (fun i j => i * w + j)
    (fun j i st => let '(a_track, a_scan) := st in
      let* xi := rdo x i in let* yj := rdo y j in
      let s_s := fdiv xi (nz f) in let s_t := fdiv yj (nz f) in
      let* a_track := wr a_track (fine_vw c) j i s_t in
      let* ce := rd ce (fine_vw c) j i in let* ca := rd ca (fine_vw c) j i in
      let* a_scan := wr a_scan (fine_vw c) j i (a_scan_value s_s s_t ce ca) in
      Ok (a_track, a_scan)) (at0, as0)) as ([at' as'] & E & S1 & S2).
  - intros r k [b1 b2] Hr Hk Hs1 Hs2. cbn [fst snd] in Hs1, Hs2.
    rewrite (rdo_ok x) by lia. cbn [bind]. rewrite (rdo_ok y) by lia. cbn [bind]. cbv zeta.
    assert (P : 0 <= r * w + k < nr * w) by nia. assert (A : addr (fine_vw c) r k = r * w + k) by reflexivity. unfold wr, rd. rewrite A.
    rewrite (rdo_ok ce), (rdo_ok ca) by lia.
    pose proof (flat2_at w (fun a _ => a) r k Hk) as D1. pose proof (flat2_at w (fun _ b => b) r k Hk) as D2. unfold flat2 in D1, D2.
    destruct (wro_step (fun a => fdiv (bat y (a / w)) (nz f)) b1 (r * w + k) (fdiv (bat y r) (nz f))) as (b1' & E1 & T1); [lia|rewrite D1; reflexivity|].
    rewrite E1. cbn [bind].
    destruct (wro_step (fun a => a_scan_value (fdiv (bat x (a mod w)) (nz f)) (fdiv (bat y (a / w)) (nz f)) (bat ce a) (bat ca a)) b2 (r * w + k)
       (a_scan_value (fdiv (bat x k) (nz f)) (fdiv (bat y r) (nz f)) (bat ce (r * w + k)) (bat ca (r * w + k)))) as (b2' & E2 & T2); [lia|rewrite D1, D2; reflexivity|].
    rewrite E2. cbn [bind]. eexists. split; [reflexivity|]. split; assumption.
  - exists at', as'. split; [exact E|]. cbn [fst snd] in S1, S2. split; [destruct S1; congruence|]. split; [destruct S2; congruence|].
    intros r k Hr Hk. assert (I : exists i0 j0, 0 <= i0 < nr /\ 0 <= j0 < w /\ i0 * w + j0 = r * w + k) by (exists r, k; auto).
    pose proof (flat2_at w (fun a _ => a) r k Hk) as D1. pose proof (flat2_at w (fun _ b => b) r k Hk) as D2. unfold flat2 in D1, D2.
    split; [rewrite (step_at _ _ _ _ _ S1 I)|rewrite (step_at _ _ _ _ _ S2 I)]; rewrite D1, ?D2; reflexivity.
Qed.

(** all fine work arrays have their size *)
Definition sized (nrows : Z) (k : @work T) : Prop :=
  bsize (w_at k) = nr * w /\ bsize (w_as k) = nr * w /\ bsize (w_a k) = nr * w /\ bsize (w_b k) = nr * w /\ bsize (w_c k) = nr * w /\
  bsize (w_d k) = nr * w /\ bsize (w_cxyz k) = scl c * scw c /\ bsize (w_fxyz k) = nr * w /\
  bsize (w_lons k) = nrows * w /\ bsize (w_lats k) = nrows * w.

(** stage 1: a_track and a_scan of one scan *)
Lemma atrack_stage (x y satz : buf T) vsatz W nrows (k : @work T) :
  vrows vsatz = scl c -> vcols vsatz = W -> 0 <= W <= scw c ->
  (forall i j, 0 <= i < scl c -> 0 <= j < W -> 0 <= addr vsatz i j < bsize satz) ->
  bsize x = w -> bsize y = nr -> sized nrows k ->
  exists k', get_atrack_ascan c x y satz vsatz k = Ok k' /\ sized nrows k' /\
    w_cxyz k' = w_cxyz k /\ w_fxyz k' = w_fxyz k /\ w_lons k' = w_lons k /\ w_lats k' = w_lats k /\
    (forall r i, 0 <= r < nr -> 0 <= i < w -> bat (w_at k') (r * w + i) = fdiv (bat y r) (nz f)) /\
    (W = scw c -> forall r i, 0 <= r < nr -> 0 <= i < w ->
       let ea := exp_ali (cpp c) (bat satz (addr vsatz (cell_r c r) (cell_c c i))) (bat satz (addr vsatz (cell_r c r) (cell_c c i + 1))) in
       bat (w_as k') (r * w + i) = a_scan_value (fdiv (bat x i) (nz f)) (fdiv (bat y r) (nz f)) (fst ea) (snd ea)).
Proof.
  intros Hr Hc HW Hin Hx Hy (K1 & K2 & K3 & K4 & K5 & K6 & K7 & K8 & K9 & K10). unfold get_atrack_ascan.
  destruct (exp_ali_stage satz vsatz W (w_a k) (w_b k) Hr Hc HW Hin K3 K4) as (ta & tb & E1 & Za & Zb & V1).
  fold vslice. rewrite E1. cbn [bind].
  destruct (expand_slice_stage ta (w_c k) Za K5) as (tc & E2 & Zc & V2). rewrite E2. cbn [bind].
  destruct (expand_slice_stage tb (w_d k) Zb K6) as (td & E3 & Zd & V3). rewrite E3. cbn [bind].
  destruct (calc_stage x y tc td (w_at k) (w_as k) Hx Hy Zc Zd K1 K2) as (at' & as' & E4 & Z1 & Z2 & V4). rewrite E4. cbn [bind].
  eexists. split; [reflexivity|]. split; [repeat split; assumption|]. cbn [w_cxyz w_fxyz w_lons w_lats w_at w_as].
  do 4 (split; [reflexivity|]). split; [intros r i H1 H2; exact (proj1 (V4 r i H1 H2))|].
  intros HW2 r i H1 H2. set (ea := exp_ali _ _ _). destruct (V4 r i H1 H2) as [_ ->]. rewrite V2, V3 by assumption.
  assert (A : 0 <= cell_r c r < scl c - 1).
  { unfold cell_r, clampz. destruct HL as [Hp [(G1 & _)|(G1 & _)]]; rewrite G1; cbn [Z.eqb Pos.eqb]; lia. }
  assert (B : 0 <= cell_c c i < W - 1) by (pose proof lay; unfold cell_c, clampz; lia).
  pose proof (V1 _ _ A B) as V. fold ea in V. rewrite (surjective_pairing ea) in V. injection V as -> ->. reflexivity.
Qed.

(** stage 2: cartesian tie points of one scan *)
Lemma lonlat_stage (lons lats : buf T) vlons vlats W b :
  vrows vlons = scl c -> vcols vlons = W -> 0 <= W <= scw c ->
  (forall i j, 0 <= i < scl c -> 0 <= j < W -> 0 <= addr vlons i j < bsize lons) ->
  (forall i j, 0 <= i < scl c -> 0 <= j < W -> 0 <= addr vlats i j < bsize lats) ->
  bsize b = scl c * scw c ->
  exists b', lonlat2xyz_v lons vlons lats vlats (coarse_vw c) b = Ok b' /\ bsize b' = scl c * scw c /\
    (forall i j, 0 <= i < scl c -> 0 <= j < W ->
       bat b' (i * scw c + j) = cy_lonlat2xyz (bat lons (addr vlons i j)) (bat lats (addr vlats i j))) /\
    (forall i j, 0 <= i < scl c -> W <= j < scw c -> bat b' (i * scw c + j) = bat b (i * scw c + j)).
Proof.
  intros Hr Hc HW Hlon Hlat Hb. pose proof lay as L. unfold lonlat2xyz_v. rewrite Hr, Hc.
  set (F := fun a => if a mod scw c <? W then cy_lonlat2xyz (bat lons (addr vlons (a / scw c) (a mod scw c))) (bat lats (addr vlats (a / scw c) (a mod scw c))) else bat b a).
  assert (FV : forall i j, 0 <= j < W -> F (i * scw c + j) = cy_lonlat2xyz (bat lons (addr vlons i j)) (bat lats (addr vlats i j))).
  { intros i j Hj. unfold F.
    pose proof (flat2_at (scw c) (fun a _ => a) i j ltac:(lia)) as D1. pose proof (flat2_at (scw c) (fun _ b => b) i j ltac:(lia)) as D2. unfold flat2 in D1, D2.
    rewrite D1, D2. destruct (Z.ltb_spec j W); [reflexivity|lia]. }
  destruct (loop1_ok F (scl c) W (fun i j => i * scw c + j)
    (fun i j b => let* lon := rd lons vlons i j in let* lat := rd lats vlats i j in wr b (coarse_vw c) i j (cy_lonlat2xyz lon lat))
    (fun _ => True) b I (fun _ _ _ _ _ => I)) as (b' & E & S).
  - intros i j s Hi Hj _ Hs. rewrite (rd_ok _ lons) by auto. cbn [bind]. rewrite (rd_ok _ lats) by auto. cbn [bind].
    apply (wro_step F); [change (addr (coarse_vw c) i j) with (i * scw c + j); nia|]. symmetry. apply FV, Hj.
  - exists b'. split; [exact E|]. split; [destruct S; congruence|]. split.
    + intros i j Hi Hj. rewrite <- FV by exact Hj. apply (step_at _ _ _ _ _ S). exists i, j. auto.
    + intros i j Hi Hj. assert (X : F (i * scw c + j) = bat b (i * scw c + j)).
      { unfold F. pose proof (flat2_at (scw c) (fun _ b => b) i j ltac:(lia)) as D2. unfold flat2 in D2. rewrite D2.
        destruct (Z.ltb_spec j W); [lia|reflexivity]. }
      rewrite <- X. apply (step_keep _ _ _ _ _ S). now symmetry.
Qed.

(** stage 3: fine cartesian positions of one scan *)
Definition tie (cx : buf (T * T * T)) (i j : Z) : T * T * T := bat cx (i * scw c + j).
Definition fine_comp (k : Z) (t : Z -> Z -> T * T * T) (atk asc : T) (r i : Z) : T :=
  let cr := cell_r c r in
  let cc := cell_c c i in
  fine_value atk asc (comp k (t cr cc)) (comp k (t cr (cc + 1))) (comp k (t (cr + 1) (cc + 1))) (comp k (t (cr + 1) cc)).

Lemma cell_r_range r : 0 <= cell_r c r < scl c - 1.
Proof. unfold cell_r, clampz. destruct HL as [Hp [(G1 & _)|(G1 & _)]]; rewrite G1; cbn [Z.eqb Pos.eqb]; lia. Qed.
Lemma cell_c_range i : 0 <= cell_c c i < scw c - 1.
Proof. pose proof lay. unfold cell_c, clampz. lia. Qed.

Lemma expand_comp_stage (cx : buf (T * T * T)) k r0 c0 (b : buf T) : bsize cx = scl c * scw c -> bsize b = nr * w ->
  0 <= r0 <= 1 -> 0 <= c0 <= 1 ->
  exists b', expand c (comp_input cx (slice (coarse_vw c) r0 (vrows (coarse_vw c) - (1 - r0)) c0 (vcols (coarse_vw c) - (1 - c0))) k) (fine_vw c) b = Ok b' /\
    bsize b' = nr * w /\
    forall r i, 0 <= r < nr -> 0 <= i < w -> bat b' (r * w + i) = comp k (tie cx (cell_r c r + r0) (cell_c c i + c0)).
Proof.
  intros Hcx Hb Hr0 Hc0. pose proof lay as L. cbn [coarse_vw full vrows vcols].
  rewrite slice_in by (cbn [coarse_vw full vrows vcols]; lia). cbn [coarse_vw full voff vs0].
  apply (expand_ok c p HL (comp_input cx {| voff := 0 + r0 * scw c + c0; vs0 := scw c; vrows := scl c - (1 - r0) - r0; vcols := scw c - (1 - c0) - c0 |} k)
    (fun i j => comp k (tie cx (i + r0) (j + c0)))); [cbn [comp_input irows vrows]; lia|cbn [comp_input icols vcols]; lia| |exact Hb].
  intros i j Hi Hj. cbn [comp_input irows icols ird vrows vcols] in *.
  pose proof (off_range (scl c) (scw c) (i + r0) (j + c0) ltac:(lia) ltac:(lia)) as P.
  rewrite rd_ok by (unfold addr; cbn [voff vs0]; rewrite Hcx; lia). cbn [bind]. unfold addr, tie. cbn [voff vs0].
  do 3 f_equal. ring.
Qed.

Lemma component_stage k (at_ as_ ta tb tc td : buf T) (b : buf (T * T * T)) :
  bsize at_ = nr * w -> bsize as_ = nr * w -> bsize ta = nr * w -> bsize tb = nr * w -> bsize tc = nr * w -> bsize td = nr * w -> bsize b = nr * w ->
  exists b', compute_fine_xyz_component c k at_ as_ ta tb tc td b = Ok b' /\ bsize b' = nr * w /\
    forall r i, 0 <= r < nr -> 0 <= i < w -> let a := r * w + i in
      bat b' a = set_comp k (bat b a) (fine_value (bat at_ a) (bat as_ a) (bat ta a) (bat tb a) (bat tc a) (bat td a)).
Proof.
  intros H1 H2 H3 H4 H5 H6 H7. pose proof lay as L. unfold compute_fine_xyz_component. cbn [fine_vw full vrows vcols].
  set (V := fun a => fine_value (bat at_ a) (bat as_ a) (bat ta a) (bat tb a) (bat tc a) (bat td a)).
  set (F := fun a => set_comp k (bat b a) (V a)).
  assert (IDEM : forall (q : T * T * T) v, set_comp k (set_comp k q v) v = set_comp k q v).
  { intros [[q1 q2] q3] v. unfold set_comp. destruct (k =? 0); [reflexivity|]. destruct (k =? 1); reflexivity. }
  destruct (loop1_ok F nr w (fun i j => i * w + j)
    (fun i j b => let* atrack1 := rd at_ (fine_vw c) i j in let* ascan1 := rd as_ (fine_vw c) i j in
      let* da := rd ta (fine_vw c) i j in let* db := rd tb (fine_vw c) i j in let* dd := rd td (fine_vw c) i j in let* dc := rd tc (fine_vw c) i j in
      let* old := rd b (fine_vw c) i j in wr b (fine_vw c) i j (set_comp k old (fine_value atrack1 ascan1 da db dc dd)))
    (fun s => forall a, bat s a = F a \/ bat s a = bat b a) b) as (b' & E & S).
  - intros a. now right.
  - intros s s' a0 Hs [_ St] a. destruct (St a) as [|[-> _]]; [now left|apply Hs].
  - intros i j s Hi Hj HI Hs. assert (A : addr (fine_vw c) i j = i * w + j) by reflexivity. assert (P : 0 <= i * w + j < nr * w) by nia.
    unfold rd, wr. rewrite A. rewrite (rdo_ok at_), (rdo_ok as_), (rdo_ok ta), (rdo_ok tb), (rdo_ok tc), (rdo_ok td), (rdo_ok s) by lia. cbn [bind].
    apply (wro_step F); [lia|]. fold (V (i * w + j)). destruct (HI (i * w + j)) as [->| ->]; [|reflexivity]. unfold F. apply IDEM.
  - exists b'. split; [exact E|]. split; [destruct S; congruence|]. intros r i Hr Hi. cbv zeta. apply (step_at _ _ _ _ _ S). exists r, i. auto.
Qed.

Lemma xyz_body_stage k nrows (q : @work T) : sized nrows q ->
  exists q', fine_xyz_body c k q = Ok q' /\ sized nrows q' /\ w_at q' = w_at q /\ w_as q' = w_as q /\ w_cxyz q' = w_cxyz q /\
    w_lons q' = w_lons q /\ w_lats q' = w_lats q /\
    forall r i, 0 <= r < nr -> 0 <= i < w -> let a := r * w + i in
      bat (w_fxyz q') a = set_comp k (bat (w_fxyz q) a) (fine_comp k (tie (w_cxyz q)) (bat (w_at q) a) (bat (w_as q) a) r i).
Proof.
  intros (K1 & K2 & K3 & K4 & K5 & K6 & K7 & K8 & K9 & K10). unfold fine_xyz_body. cbv zeta.
  destruct (expand_comp_stage (w_cxyz q) k 0 0 (w_a q) K7 K3) as (ta & E1 & Za & Va); try lia.
  destruct (expand_comp_stage (w_cxyz q) k 0 1 (w_b q) K7 K4) as (tb & E2 & Zb & Vb); try lia.
  destruct (expand_comp_stage (w_cxyz q) k 1 1 (w_c q) K7 K5) as (tc & E3 & Zc & Vc); try lia.
  destruct (expand_comp_stage (w_cxyz q) k 1 0 (w_d q) K7 K6) as (td & E4 & Zd & Vd); try lia.
  change (1 - 0) with 1 in *. change (1 - 1) with 0 in *. rewrite ?Z.sub_0_r in *.
  rewrite E1. cbn [bind]. rewrite E2. cbn [bind]. rewrite E3. cbn [bind]. rewrite E4. cbn [bind].
  destruct (component_stage k (w_at q) (w_as q) ta tb tc td (w_fxyz q) K1 K2 Za Zb Zc Zd K8) as (fx & E5 & Zf & Vf).
  rewrite E5. cbn [bind]. eexists. split; [reflexivity|]. split; [repeat split; assumption|].
  cbn [w_at w_as w_cxyz w_lons w_lats w_fxyz]. do 5 (split; [reflexivity|]).
  intros r i Hr Hi. cbv zeta. rewrite (Vf r i Hr Hi), Va, Vb, Vc, Vd, !Z.add_0_r by assumption. reflexivity.
Qed.

Definition fine_xyz (t : Z -> Z -> T * T * T) (atk asc : T) (r i : Z) : T * T * T :=
  (fine_comp 0 t atk asc r i, fine_comp 1 t atk asc r i, fine_comp 2 t atk asc r i).
Lemma fine_xyz_ext t t' atk asc r i : (forall a b, 0 <= a < scl c -> 0 <= b < scw c -> t a b = t' a b) ->
  fine_xyz t atk asc r i = fine_xyz t' atk asc r i.
Proof.
  intros H. pose proof (cell_r_range r). pose proof (cell_c_range i). unfold fine_xyz, fine_comp. cbv zeta. rewrite !H by lia. reflexivity.
Qed.

Lemma xyz_stage nrows (q : @work T) : sized nrows q ->
  exists q', compute_fine_xyz c q = Ok q' /\ sized nrows q' /\ w_cxyz q' = w_cxyz q /\ w_lons q' = w_lons q /\ w_lats q' = w_lats q /\
    forall r i, 0 <= r < nr -> 0 <= i < w ->
      bat (w_fxyz q') (r * w + i) = fine_xyz (tie (w_cxyz q)) (bat (w_at q) (r * w + i)) (bat (w_as q) (r * w + i)) r i.
Proof.
  intros H. unfold compute_fine_xyz.
  change (for_range 3 (fine_xyz_body c) q) with (let* q := fine_xyz_body c 0 q in let* q := fine_xyz_body c 1 q in let* q := fine_xyz_body c 2 q in Ok q).
  destruct (xyz_body_stage 0 nrows q H) as (q1 & -> & H1 & A1 & B1 & C1 & D1 & F1 & V1). cbn [bind].
  destruct (xyz_body_stage 1 nrows q1 H1) as (q2 & -> & H2 & A2 & B2 & C2 & D2 & F2 & V2). cbn [bind].
  destruct (xyz_body_stage 2 nrows q2 H2) as (q3 & -> & H3 & A3 & B3 & C3 & D3 & F3 & V3). cbn [bind].
  exists q3. split; [reflexivity|]. split; [exact H3|]. do 3 (split; [congruence|]).
  intros r i Hr Hi. cbv zeta in *. rewrite V3, V2, V1 by assumption. rewrite C2, A2, B2, C1, A1, B1.
  destruct (bat (w_fxyz q) (r * w + i)) as [[a b] d]. reflexivity.
Qed.

(** stage 4: longitudes and latitudes of one scan *)
Definition thr8 : T := nst (ndiv (nz 8) (nz 10)).
Lemma xyz2lonlat_stage (fx : buf (T * T * T)) vnew n0 (lons lats : buf T) (F1 F2 : Z -> Z -> T) :
  bsize fx = nr * w -> voff vnew = n0 * w -> vs0 vnew = w -> 0 <= n0 ->
  (n0 + nr) * w <= bsize lons -> (n0 + nr) * w <= bsize lats ->
  (forall r i, 0 <= r < nr -> 0 <= i < w -> cy_xyz2lonlat true thr8 (bat fx (r * w + i)) = (F1 (n0 + r) i, F2 (n0 + r) i)) ->
  exists lons' lats', xyz2lonlat_v fx (fine_vw c) vnew (lons, lats) = Ok (lons', lats') /\
    step (flat2 w F1) (fun a => n0 * w <= a < (n0 + nr) * w) lons lons' /\ step (flat2 w F2) (fun a => n0 * w <= a < (n0 + nr) * w) lats lats'.
Proof.
  intros Hfx Ho Hs0 Hn0 Hlon Hlat V. pose proof lay as L. unfold xyz2lonlat_v. cbn [fine_vw full vrows vcols].
  destruct (loop2_ok (flat2 w F1) (flat2 w F2) nr w (fun i j => (n0 + i) * w + j)
    (fun i j st => let '(lons, lats) := st in let* p := rd fx (fine_vw c) i j in
      let ll := cy_xyz2lonlat true (nst (ndiv (nz 8) (nz 10))) p in
      let* lons := wr lons vnew i j (fst ll) in let* lats := wr lats vnew i j (snd ll) in Ok (lons, lats)) (lons, lats)) as ([lons' lats'] & E & S1 & S2).
  - intros i j [b1 b2] Hi Hj Hs1 Hs2. cbn [fst snd] in Hs1, Hs2.
    rewrite rd_ok by (change (addr (fine_vw c) i j) with (i * w + j); rewrite Hfx; nia). cbn [bind]. cbv zeta.
    change (addr (fine_vw c) i j) with (i * w + j). fold thr8. rewrite V by assumption. cbn [fst snd].
    assert (A : addr vnew i j = (n0 + i) * w + j) by (unfold addr; rewrite Ho, Hs0; ring). unfold wr. rewrite A.
    assert (P : 0 <= (n0 + i) * w + j < (n0 + nr) * w) by nia.
    destruct (wro_step (flat2 w F1) b1 ((n0 + i) * w + j) (F1 (n0 + i) j)) as (b1' & E1 & T1); [lia|now rewrite flat2_at|].
    destruct (wro_step (flat2 w F2) b2 ((n0 + i) * w + j) (F2 (n0 + i) j)) as (b2' & E2 & T2); [lia|now rewrite flat2_at|].
    rewrite E1. cbn [bind]. rewrite E2. cbn [bind]. eexists. split; [reflexivity|]. split; assumption.
  - exists lons', lats'. split; [exact E|]. cbn [fst snd] in S1, S2.
    assert (SET : forall a, n0 * w <= a < (n0 + nr) * w -> exists i j, 0 <= i < nr /\ 0 <= j < w /\ (n0 + i) * w + j = a).
    { intros a Ha. exists (a / w - n0), (a mod w). destruct (off_split w a ltac:(lia)) as [Ea Hm].
      split; [|split; [exact Hm|lia]]. nia. }
    split; (eapply step_weaken; [|eassumption]); exact SET.
Qed.

(** ** One scan. Longitudes and latitudes may have other numbers of rows than the angles *)
Section Scan.
Context (n W : Z) (lon lat satz : ndarray T) (x y : buf T).
Context (Hn : 0 <= n) (HW : 0 <= W <= scw c).
Context (R3 : arows satz = n) (C1 : acols lon = W) (C2 : acols lat = W) (C3 : acols satz = W).
Context (Hx : bsize x = w) (Hy : bsize y = nr) (Vx : forall i, 0 <= i < w -> bat x i = xc c i) (Vy : forall j, 0 <= j < nr -> bat y j = yc c j).

Lemma scan_view (k m : Z) s : 0 <= m -> 0 <= s -> (s + 1) * scl c <= k ->
  slice_rows (full k m) (s * scl c) ((s + 1) * scl c) = {| voff := s * scl c * m; vs0 := m; vrows := scl c; vcols := m |}.
Proof.
  intros Hm Hs Hs1. pose proof lay as L. unfold slice_rows. cbn [full vcols].
  rewrite slice_in by (cbn [full vrows vcols]; nia). cbn [full voff vs0]. f_equal; ring.
Qed.

Lemma contiguous_at (a : ndarray T) s i j : acols a = W -> 0 <= s -> (s + 1) * scl c <= arows a -> 0 <= i < scl c -> 0 <= j < W ->
  0 <= addr {| voff := s * scl c * W; vs0 := W; vrows := scl c; vcols := W |} i j < bsize (contiguous a) /\
  bat (contiguous a) (addr {| voff := s * scl c * W; vs0 := W; vrows := scl c; vcols := W |} i j) = aat a (s * scl c + i) j.
Proof.
  intros Hc Hs Hs1 Hi Hj. unfold addr, contiguous. cbn [voff vs0 bsize bat]. rewrite Hc.
  replace (s * scl c * W + i * W + j) with ((s * scl c + i) * W + j) by ring.
  split; [apply off_range; nia|apply flat2_at; lia].
Qed.

(** positions of the tie points of scan s in memory when the arrays have W columns *)
Definition ties (cx : buf (T * T * T)) (s i j : Z) : T * T * T :=
  if j <? W then cy_lonlat2xyz (aat lon (s * scl c + i) j) (aat lat (s * scl c + i) j) else tie cx i j.
Definition scan_ll (t : Z -> Z -> T * T * T) (asc : T) (r i : Z) : T * T :=
  cy_xyz2lonlat true thr8 (fine_xyz t (fdiv (yc c r) (nz f)) asc r i).
(** a_scan at row r and column i of scan s *)
Definition a_scan_at (s r i : Z) : T :=
  let ea := exp_ali (cpp c) (aat satz (s * scl c + cell_r c r) (cell_c c i)) (aat satz (s * scl c + cell_r c r) (cell_c c i + 1)) in
  a_scan_value (fdiv (xc c i) (nz f)) (fdiv (yc c r) (nz f)) (fst ea) (snd ea).

Lemma scan_stage s q : 0 <= s -> (s + 1) * scl c <= n -> (s + 1) * scl c <= arows lon -> (s + 1) * scl c <= arows lat -> sized (n * f) q ->
  exists q' asc, scan_body c (n * f) lon lat satz x y s q = Ok q' /\ sized (n * f) q' /\
    (W = scw c -> forall r i, 0 <= r < nr -> 0 <= i < w -> asc r i = a_scan_at s r i) /\
    (forall i j, 0 <= i < scl c -> W <= j < scw c -> tie (w_cxyz q') i j = tie (w_cxyz q) i j) /\
    forall F1 F2, (forall r i, 0 <= r < nr -> 0 <= i < w -> scan_ll (ties (w_cxyz q) s) (asc r i) r i = (F1 (s * nr + r) i, F2 (s * nr + r) i)) ->
      step (flat2 w F1) (fun a => s * nr * w <= a < (s * nr + nr) * w) (w_lons q) (w_lons q') /\
      step (flat2 w F2) (fun a => s * nr * w <= a < (s * nr + nr) * w) (w_lats q) (w_lats q').
Proof.
  intros Hs Hs1 R1 R2 Hq. pose proof lay as L. unfold scan_body. rewrite R3, C1, C2, C3, !scan_view by lia.
  set (v := {| voff := s * scl c * W; vs0 := W; vrows := scl c; vcols := W |}).
  destruct (atrack_stage x y (contiguous satz) v W (n * f) q eq_refl eq_refl HW) as (q1 & E1 & Q1 & A1 & A2 & A3 & A4 & V1 & V2); auto.
  { intros i j Hi Hj. apply contiguous_at; auto; lia. }
  rewrite E1. cbn [bind].
  destruct (lonlat_stage (contiguous lon) (contiguous lat) v v W (w_cxyz q1)) as (cx & E2 & Z2 & V3 & V4); auto; try reflexivity; try lia.
  { intros i j Hi Hj. now apply contiguous_at. }
  { intros i j Hi Hj. now apply contiguous_at. }
  { apply Q1. }
  rewrite E2. cbn [bind].
  set (q2 := {| w_at := w_at q1; w_as := w_as q1; w_a := w_a q1; w_b := w_b q1; w_c := w_c q1; w_d := w_d q1;
    w_cxyz := cx; w_fxyz := w_fxyz q1; w_lons := w_lons q1; w_lats := w_lats q1 |}).
  assert (Q2 : sized (n * f) q2) by (destruct Q1 as (K1 & K2 & K3 & K4 & K5 & K6 & K7 & K8 & K9 & K10); repeat split; assumption).
  destruct (xyz_stage (n * f) q2 Q2) as (q3 & E3 & Q3 & B1 & B2 & B3 & V5). rewrite E3. cbn [bind].
  cbn [q2 w_cxyz w_lons w_lats w_at w_as] in B1, B2, B3, V5.
  set (asc := fun r i => bat (w_as q1) (r * w + i)).
  assert (VN : slice_rows (full (n * f) w) (s * scl c * f) ((s + 1) * scl c * f) = {| voff := s * nr * w; vs0 := w; vrows := nr; vcols := w |}).
  { unfold slice_rows. cbn [full vcols]. rewrite slice_in by (cbn [full vrows vcols]; nia). cbn [full voff vs0]. f_equal; ring. }
  rewrite VN. destruct Q3 as (K1 & K2 & K3 & K4 & K5 & K6 & K7 & K8 & K9 & K10).
  assert (P : forall r i, 0 <= r < nr -> 0 <= i < w -> cy_xyz2lonlat true thr8 (bat (w_fxyz q3) (r * w + i)) = scan_ll (ties (w_cxyz q) s) (asc r i) r i).
  { intros r i Hr Hi. unfold scan_ll. rewrite V5 by assumption. rewrite V1, Vy by assumption. unfold asc. f_equal.
    apply fine_xyz_ext. intros a b Ha Hb. unfold ties, tie. destruct (Z.ltb_spec b W).
    - rewrite V3 by lia. unfold v. rewrite (proj2 (contiguous_at lon s a b C1 Hs R1 Ha (conj (proj1 Hb) H))), (proj2 (contiguous_at lat s a b C2 Hs R2 Ha (conj (proj1 Hb) H))). reflexivity.
    - rewrite V4 by lia. rewrite A1. reflexivity. }
  assert (BN : (s * nr + nr) * w <= n * f * w) by nia.
  destruct (xyz2lonlat_stage (w_fxyz q3) {| voff := s * nr * w; vs0 := w; vrows := nr; vcols := w |} (s * nr) (w_lons q3) (w_lats q3)
    (fun R i => fst (scan_ll (ties (w_cxyz q) s) (asc (R - s * nr) i) (R - s * nr) i)) (fun R i => snd (scan_ll (ties (w_cxyz q) s) (asc (R - s * nr) i) (R - s * nr) i)))
    as (lons' & lats' & E4 & S1 & S2); try assumption; try reflexivity; try lia; try nia.
  { intros r i Hr Hi. rewrite P by assumption. replace (s * nr + r - s * nr) with r by ring. apply surjective_pairing. }
  rewrite E4. cbn [bind]. eexists _, asc. split; [reflexivity|]. split; [|split; [|split]].
  - repeat split; cbn; try assumption; [destruct S1; congruence|destruct S2; congruence].
  - intros HW2 r i Hr Hi. unfold asc. rewrite (V2 HW2 r i Hr Hi). cbv zeta. rewrite Vx, Vy by assumption.
    pose proof (cell_r_range r). pose proof (cell_c_range i). unfold v, a_scan_at.
    rewrite (proj2 (contiguous_at satz s (cell_r c r) (cell_c c i) C3 Hs ltac:(lia) ltac:(lia) ltac:(lia))), (proj2 (contiguous_at satz s (cell_r c r) (cell_c c i + 1) C3 Hs ltac:(lia) ltac:(lia) ltac:(lia))). reflexivity.
  - intros i j Hi Hj. cbn [w_cxyz]. unfold tie. rewrite B1, V4 by lia. rewrite A1. reflexivity.
  - intros F1 F2 HF. cbn [w_lons w_lats].
    destruct (xyz2lonlat_stage (w_fxyz q3) {| voff := s * nr * w; vs0 := w; vrows := nr; vcols := w |} (s * nr) (w_lons q3) (w_lats q3) F1 F2)
      as (lons2 & lats2 & E5 & T1 & T2); try assumption; try reflexivity; try lia; try nia.
    { intros r i Hr Hi. rewrite P by assumption. apply HF; assumption. }
    rewrite E4 in E5. injection E5 as <- <-. rewrite <- A3, <- A4, <- B2, <- B3. split; assumption.
Qed.
End Scan.

(** ** The whole array *)
(** longitude and latitude of fine row r and column i of scan s *)
Definition pixel (lon lat satz : ndarray T) (s r i : Z) : T * T :=
  scan_ll (fun a b => cy_lonlat2xyz (aat lon (s * scl c + a) b) (aat lat (s * scl c + a) b)) (a_scan_at satz s r i) r i.

Lemma sized_empty g n : sized (n * f) (empty_work c g (n * f)).
Proof. unfold empty_work. repeat split. Qed.

Lemma interpolate_cfg_tall g lon lat satz n : 0 <= n ->
  n <= arows lon -> n <= arows lat -> arows satz = n -> acols lon = scw c -> acols lat = scw c -> acols satz = scw c ->
  adt lon <> Float64 ->
  exists olon olat, interpolate_cfg c g lon lat satz = Ok (olon, olat) /\
    adt olon = adt lon /\ adt olat = adt lon /\ arows olon = n * f /\ arows olat = n * f /\ acols olon = w /\ acols olat = w /\
    forall R i, 0 <= R < n * f -> 0 <= i < w ->
      (aat olon R i, aat olat R i) =
      if R <? n / scl c * nr then pixel lon lat satz (R / nr) (R mod nr) i else (g_lons g (R * w + i), g_lats g (R * w + i)).
Proof.
  intros Hn R1 R2 R3 C1 C2 C3 Hdt. pose proof lay as L. unfold interpolate_cfg.
  destruct (coords_ok c p g HL) as (x & y & E0 & Hx & Hy & Vx & Vy). rewrite E0. cbn [bind].
  replace (dtype_eqb (adt lon) Float64) with false by (destruct (adt lon); [reflexivity|contradiction|reflexivity]).
  destruct (Z.eqb_spec (scl c) 0) as [|_]; [lia|]. rewrite R3.
  set (S := n / scl c).
  assert (HS : 0 <= S /\ S * scl c <= n) by (unfold S; split; [apply Z.div_pos; lia|rewrite Z.mul_comm; apply Z.mul_div_le; lia]).
  set (V := fun R i => if R <? S * nr then pixel lon lat satz (R / nr) (R mod nr) i else (g_lons g (R * w + i), g_lats g (R * w + i))).
  assert (N0 : 0 < nr) by nia.
  destruct (for_rel (fun P q q' => step (flat2 w (fun R i => fst (V R i))) P (w_lons q) (w_lons q') /\ step (flat2 w (fun R i => snd (V R i))) P (w_lats q) (w_lats q'))
       (sized (n * f)) (fun s a => s * nr * w <= a < (s * nr + nr) * w) S (scan_body c (n * f) lon lat satz x y) (empty_work c g (n * f)))
    as (q' & E & [S1 S2] & Q').
  - intros P Q q q' H [A B]. split; eapply step_weaken; eauto.
  - split; apply step_refl.
  - intros P Q q q1 q2 [A B] [A' B']. split; eapply step_seq; eauto.
  - apply sized_empty.
  - intros s q Hs Hq.
    destruct (scan_stage n (scw c) lon lat satz x y) with (s := s) (q := q) as (q' & asc & E & Q' & A & _ & ST); auto; try lia; try nia.
    exists q'. split; [exact E|]. split; [|exact Q'].
    apply ST. intros r i Hr Hi. rewrite A by auto. rewrite <- surjective_pairing. unfold V.
    destruct (Z.ltb_spec (s * nr + r) (S * nr)) as [_|Hge]; [|nia].
    pose proof (flat2_at nr (fun a _ => a) s r Hr) as D1. pose proof (flat2_at nr (fun _ b => b) s r Hr) as D2. unfold flat2 in D1, D2.
    rewrite D1, D2. unfold pixel, scan_ll. f_equal. apply fine_xyz_ext. intros a b Ha Hb. unfold ties.
    destruct (Z.ltb_spec b (scw c)); [reflexivity|lia].
  - rewrite E. cbn [bind]. eexists _, _. split; [reflexivity|].
    unfold array_of. cbn [adt arows acols aat]. do 6 (split; [reflexivity|]). intros R i HR Hi.
    change (if R <? S * nr then _ else _) with (V R i).
    destruct (Z.lt_ge_cases R (S * nr)) as [HR2|HR2].
    + assert (I : exists s, 0 <= s < S /\ s * nr * w <= R * w + i < (s * nr + nr) * w).
      { exists (R / nr). destruct (off_split nr R N0) as [ER HM]. split.
        - split; [apply Z.div_pos; lia|apply Z.div_lt_upper_bound; lia].
        - nia. }
      rewrite (step_at _ _ _ _ _ S1 I), (step_at _ _ _ _ _ S2 I), !flat2_at by lia. symmetry. apply surjective_pairing.
    + assert (G1 : bat (w_lons (empty_work c g (n * f))) (R * w + i) = flat2 w (fun R i => fst (V R i)) (R * w + i)).
      { rewrite flat2_at by lia. unfold V. destruct (Z.ltb_spec R (S * nr)); [lia|reflexivity]. }
      assert (G2 : bat (w_lats (empty_work c g (n * f))) (R * w + i) = flat2 w (fun R i => snd (V R i)) (R * w + i)).
      { rewrite flat2_at by lia. unfold V. destruct (Z.ltb_spec R (S * nr)); [lia|reflexivity]. }
      rewrite (step_keep _ _ _ _ _ S1 G1), (step_keep _ _ _ _ _ S2 G2), !flat2_at by lia. symmetry. apply surjective_pairing.
Qed.
Lemma interpolate_cfg_ok g lon lat satz n : 0 <= n ->
  arows lon = n -> arows lat = n -> arows satz = n -> acols lon = scw c -> acols lat = scw c -> acols satz = scw c ->
  adt lon <> Float64 ->
  exists olon olat, interpolate_cfg c g lon lat satz = Ok (olon, olat) /\
    adt olon = adt lon /\ adt olat = adt lon /\ arows olon = n * f /\ arows olat = n * f /\ acols olon = w /\ acols olat = w /\
    forall R i, 0 <= R < n * f -> 0 <= i < w ->
      (aat olon R i, aat olat R i) =
      if R <? n / scl c * nr then pixel lon lat satz (R / nr) (R mod nr) i else (g_lons g (R * w + i), g_lats g (R * w + i)).
Proof. intros Hn R1 R2. apply interpolate_cfg_tall; lia. Qed.
End Stages.
End Any.
