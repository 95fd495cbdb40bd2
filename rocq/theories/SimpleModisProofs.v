(** Lemmas about the simple MODIS model: for at least two columns the computation is a closed formula per pixel. *)
From Coq Require Import ZArith List Bool Lia.
From Verif Require Import Base Num Geo Mem Modis ModisProofs SimpleModis.
Import ListNotations.
Open Scope Z_scope.

(** ** Contents of a row-major buffer *)
Definition grid {E} (nr C : Z) (G : Z -> Z -> E) (s : buf E) : Prop :=
  bsize s = nr * C /\ forall r i, 0 <= r < nr -> 0 <= i < C -> bat s (r * C + i) = G r i.

Lemma grid_ext {E} nr C (G G' : Z -> Z -> E) s : grid nr C G s ->
  (forall r i, 0 <= r < nr -> 0 <= i < C -> G r i = G' r i) -> grid nr C G' s.
Proof. intros [A B] H. split; [exact A|]. intros r i Hr Hi. rewrite B by assumption. auto. Qed.
Lemma grid_rd {E} nr C (G : Z -> Z -> E) s r i : grid nr C G s -> 0 <= r < nr -> 0 <= i < C -> rd s (full nr C) r i = Ok (G r i).
Proof.
  intros [A B] Hr Hi. rewrite rd_ok; [|unfold addr, full; cbn [voff vs0]; rewrite A; nia].
  unfold addr, full; cbn [voff vs0]. rewrite Z.add_0_l, B by assumption. reflexivity.
Qed.
Lemma off_inj C r i r' i' : 0 <= i < C -> 0 <= i' < C -> r * C + i = r' * C + i' -> r = r' /\ i = i'.
Proof.
  intros Hi Hi' E. pose proof (flat2_at C (fun a _ => a) r i Hi) as A. pose proof (flat2_at C (fun _ b => b) r i Hi) as B.
  rewrite E, flat2_at in A, B by exact Hi'. auto.
Qed.
Definition upd {E} (G : Z -> Z -> E) r i v : Z -> Z -> E := fun r' i' => if (r' =? r) && (i' =? i) then v else G r' i'.
Lemma grid_wr {E} nr C (G : Z -> Z -> E) s r i v : grid nr C G s -> 0 <= r < nr -> 0 <= i < C ->
  exists s', wr s (full nr C) r i v = Ok s' /\ grid nr C (upd G r i v) s'.
Proof.
  intros [A B] Hr Hi. unfold wr, wro, addr, full; cbn [voff vs0]. rewrite Z.add_0_l, A.
  assert (0 <= r * C + i < nr * C) by nia.
  destruct (Z.leb_spec 0 (r * C + i)); [|lia]. destruct (Z.ltb_spec (r * C + i) (nr * C)); [|lia]. cbn [andb].
  eexists. split; [reflexivity|]. split; [reflexivity|]. intros r' i' Hr' Hi'. cbn [bat]. unfold upd.
  destruct (Z.eqb_spec (r' * C + i') (r * C + i)) as [E1|E1].
  - destruct (off_inj C r' i' r i Hi' Hi E1) as [-> ->]. rewrite !Z.eqb_refl. reflexivity.
  - destruct (Z.eqb_spec r' r) as [->|]; [|cbn [andb]; auto]. destruct (Z.eqb_spec i' i) as [->|]; [lia|cbn [andb]; auto].
Qed.
Lemma grid_fill {E} nr C (V : Z -> Z -> E) (body : Z -> Z -> buf E -> res (buf E)) s : 0 <= nr -> 0 <= C -> bsize s = nr * C ->
  (forall r i s, 0 <= r < nr -> 0 <= i < C -> bsize s = nr * C -> body r i s = wr s (full nr C) r i (V r i)) ->
  exists s', for_range nr (fun r s => for_range C (body r) s) s = Ok s' /\ grid nr C V s'.
Proof.
  intros Hn HC Hs H.
  destruct (loop1_ok (flat2 C V) nr C (fun r i => r * C + i) body (fun _ => True) s I (fun _ _ _ _ _ => I)) as (s' & E1 & S).
  - intros r i s1 Hr Hi _ Hs1. rewrite H by (congruence || assumption). unfold wr, addr, full; cbn [voff vs0]. rewrite Z.add_0_l.
    apply wro_step; [nia|]. now rewrite flat2_at.
  - exists s'. split; [exact E1|]. split; [destruct S; congruence|]. intros r i Hr Hi.
    rewrite (step_at _ _ _ _ _ S) by (exists r, i; auto). now rewrite flat2_at.
Qed.

Section Any.
Context {T : Type} {N : NumOps T}.

(** ** The coordinate planes *)
Definition coords_are (f fr fc : Z) (b : buf T) : Prop :=
  bsize b = 2 * (fr * fc) /\
  forall j i, 0 <= j < fr -> 0 <= i < fc -> bat b (j * fc + i) = y_coordinate f j /\ bat b (fr * fc + (j * fc + i)) = x_coordinate f i.

Lemma compute_yx_ok f fr fc (g : Z -> T) : 0 <= fr -> 0 <= fc ->
  exists b, compute_yx f fr fc {| bsize := 2 * (fr * fc); bat := g |} = Ok b /\ coords_are f fr fc b.
Proof.
  intros Hr Hc. unfold compute_yx. set (b0 := {| bsize := 2 * (fr * fc); bat := g |}).
  set (F := fun a => if a <? fr * fc then y_coordinate f (a / fc) else x_coordinate f ((a - fr * fc) mod fc)).
  assert (F0 : forall j i, 0 <= j < fr -> 0 <= i < fc -> F (j * fc + i) = y_coordinate f j).
  { intros j i Hj Hi. unfold F. destruct (Z.ltb_spec (j * fc + i) (fr * fc)); [|nia]. f_equal. exact (flat2_at fc (fun a _ => a) j i Hi). }
  assert (F1 : forall j i, 0 <= j < fr -> 0 <= i < fc -> F (fr * fc + (j * fc + i)) = x_coordinate f i).
  { intros j i Hj Hi. unfold F. destruct (Z.ltb_spec (fr * fc + (j * fc + i)) (fr * fc)); [nia|].
    replace (fr * fc + (j * fc + i) - fr * fc) with (j * fc + i) by ring. f_equal. exact (flat2_at fc (fun _ b => b) j i Hi). }
  set (W := fun j i a => a = j * fc + i \/ a = fr * fc + (j * fc + i)).
  match goal with |- context [for_range fr ?B b0] =>
    destruct (for_step F (fun j a => exists i, 0 <= i < fc /\ W j i a) fr B b0) as (b' & E & S) end.
  - intros j s Hj Hs.
    match goal with |- context [for_range fc ?B s] => destruct (for_step F (W j) fc B s) as (s' & E & S) end.
    + intros i s1 Hi Hs1. unfold wr, addr, plane; cbn [voff vs0].
      replace (0 * (fr * fc) + j * fc + i) with (j * fc + i) by ring.
      replace (1 * (fr * fc) + j * fc + i) with (fr * fc + (j * fc + i)) by ring.
      assert (Z1 : bsize s1 = 2 * (fr * fc)) by (rewrite Hs1, Hs; reflexivity).
      destruct (wro_step F s1 (j * fc + i) (y_coordinate f j)) as (s2 & E2 & S2); [nia|symmetry; auto|]. rewrite E2. cbn [bind].
      destruct (wro_step F s2 (fr * fc + (j * fc + i)) (x_coordinate f i)) as (s3 & E3 & S3); [destruct S2; nia|symmetry; auto|].
      exists s3. split; [exact E3|]. eapply step_weaken; [|exact (step_seq _ _ _ _ _ _ S2 S3)]. intros a [->| ->]; auto.
    + exists s'. split; [exact E|]. exact S.
  - exists b'. split; [exact E|]. split; [exact (proj1 S)|]. intros j i Hj Hi. rewrite <- (F0 j i), <- (F1 j i) by assumption.
    split; apply (step_at _ _ _ _ _ S); exists j; (split; [exact Hj|]); exists i; (split; [exact Hi|]); unfold W; auto.
Qed.

Lemma rd_y f fr fc b j i : coords_are f fr fc b -> 0 <= j < fr -> 0 <= i < fc -> rd b (plane fr fc 0) j i = Ok (y_coordinate f j).
Proof.
  intros [A B] Hj Hi. unfold rd, addr, plane; cbn [voff vs0]. replace (0 * (fr * fc) + j * fc + i) with (j * fc + i) by ring.
  rewrite rdo_ok by nia. destruct (B j i Hj Hi) as [-> _]. reflexivity.
Qed.
Lemma rd_x f fr fc b j i : coords_are f fr fc b -> 0 <= j < fr -> 0 <= i < fc -> rd b (plane fr fc 1) j i = Ok (x_coordinate f i).
Proof.
  intros [A B] Hj Hi. unfold rd, addr, plane; cbn [voff vs0]. replace (1 * (fr * fc) + j * fc + i) with (fr * fc + (j * fc + i)) by ring.
  rewrite rdo_ok by nia. destruct (B j i Hj Hi) as [_ ->]. reflexivity.
Qed.

(** ** Stages on one component *)
(** value after map_coordinates *)
Definition mapped (f rows cols : Z) (nav : Z -> Z -> T) (r i : Z) : T :=
  nst (map_coordinates rows cols nav (y_coordinate f r) (x_coordinate f i)).
(** after extrapolation to the right; nc columns of fc *)
Definition extended (fc nc : Z) (m : Z -> Z -> T) (r i : Z) : T :=
  if i <? fc - nc then m r i
  else fadd (m r i) (fmul (fsub (m r (fc - nc - 1)) (m r (fc - nc - 2))) (nz (i - (fc - nc) + 1))).
(** the straight line through rows o and o + d, at row r *)
Definition line (f d o : Z) (u : Z -> T) (r : Z) : T :=
  let m := fdiv (fsub (u (o + d)) (u o)) (fsub (y_coordinate f (o + d)) (y_coordinate f o)) in
  fadd (fmul m (y_coordinate f r)) (fsub (u (o + d)) (fmul m (y_coordinate f (o + d)))).
(** after extrapolation at the first and last rows *)
Definition finished (f : Z) (e : Z -> Z -> T) (r i : Z) : T :=
  if f =? 4 then
    (if r <? 2 then line 4 3 2 (fun a => e a i) r else if (38 <=? r) && (r <? 40) then line 4 3 34 (fun a => e a i) r else e r i)
  else
    (if r =? 0 then line f 1 1 (fun a => e a i) r else if r =? 19 then line f 1 17 (fun a => e a i) r else e r i).

Lemma map_stage f rows cols fr fc nav coords b : 0 <= fr -> 0 <= fc -> coords_are f fr fc coords -> bsize b = fr * fc ->
  exists b', call_map_coordinates rows cols fr fc nav coords b = Ok b' /\
    grid fr fc (mapped f rows cols (fun a c => bat nav (a * cols + c))) b'.
Proof.
  intros Hr Hc HC Hb. unfold call_map_coordinates. apply grid_fill; try assumption. intros r i s Hr' Hi' Hs.
  rewrite (rd_y f), (rd_x f) by assumption. reflexivity.
Qed.

Lemma extend_stage fr fc nc m b : 0 <= fr -> 1 <= nc -> nc + 2 <= fc -> grid fr fc m b ->
  exists b', extrapolate_rightmost fr fc nc b = Ok b' /\ grid fr fc (extended fc nc m) b'.
Proof.
  intros Hr Hn Hc G. unfold extrapolate_rightmost.
  destruct (for_range_inv (fun t s => grid fr fc (fun r i => if r <? t then extended fc nc m r i else m r i) s) fr
    (fun row_idx b =>
    let* u := rd b (full fr fc) row_idx (fc - nc - 1) in
    let* v := rd b (full fr fc) row_idx (fc - nc - 2) in
    let last_interp_col_diff := fsub u v in
    for_range nc (fun col_offset b =>
      let* old := rd b (full fr fc) row_idx (fc - nc + col_offset) in
      wr b (full fr fc) row_idx (fc - nc + col_offset) (fadd old (fmul last_interp_col_diff (nz (col_offset + 1))))) b) b) as (b' & E & G').
  - lia.
  - eapply grid_ext; [exact G|]. intros r i Hr' Hi. cbn beta. destruct (Z.ltb_spec r 0); [lia|reflexivity].
  - intros t s Ht Gs. rewrite !(grid_rd _ _ _ _ _ _ Gs) by lia. cbn [bind]. rewrite !Z.ltb_irrefl. cbv zeta.
    set (d := fsub (m t (fc - nc - 1)) (m t (fc - nc - 2))).
    destruct (for_range_inv (fun k s => grid fr fc (fun r i => if (r <? t) || ((r =? t) && (i <? fc - nc + k)) then extended fc nc m r i else m r i) s) nc
      (fun col_offset b =>
      let* old := rd b (full fr fc) t (fc - nc + col_offset) in
      wr b (full fr fc) t (fc - nc + col_offset) (fadd old (fmul d (nz (col_offset + 1))))) s) as (s' & E & Gs').
    + lia.
    + eapply grid_ext; [exact Gs|]. intros r i Hr' Hi. cbn beta. destruct (Z.ltb_spec r t); [reflexivity|]. cbn [orb].
      destruct (Z.eqb_spec r t); [|reflexivity]. cbn [andb]. destruct (Z.ltb_spec i (fc - nc + 0)); [|reflexivity].
      unfold extended. destruct (Z.ltb_spec i (fc - nc)); [reflexivity|lia].
    + intros k s1 Hk G1. rewrite (grid_rd _ _ _ _ _ _ G1) by lia. cbn [bind]. rewrite Z.ltb_irrefl, Z.eqb_refl, Z.ltb_irrefl. cbn [orb andb].
      destruct (grid_wr _ _ _ _ t (fc - nc + k) (fadd (m t (fc - nc + k)) (fmul d (nz (k + 1)))) G1) as (s2 & E2 & G2); try lia.
      exists s2. split; [exact E2|]. eapply grid_ext; [exact G2|]. intros r i Hr' Hi. cbn beta. unfold upd.
      destruct (Z.eqb_spec r t) as [->|].
      * rewrite Z.ltb_irrefl. cbn [orb andb]. destruct (Z.eqb_spec i (fc - nc + k)) as [->|].
        -- destruct (Z.ltb_spec (fc - nc + k) (fc - nc + (k + 1))); [|lia]. unfold extended.
           destruct (Z.ltb_spec (fc - nc + k) (fc - nc)); [lia|]. replace (fc - nc + k - (fc - nc) + 1) with (k + 1) by ring. reflexivity.
        -- destruct (Z.ltb_spec i (fc - nc + k)), (Z.ltb_spec i (fc - nc + (k + 1))); try lia; reflexivity.
      * cbn [andb]. reflexivity.
    + exists s'. split; [exact E|]. eapply grid_ext; [exact Gs'|]. intros r i Hr' Hi. cbn beta.
      destruct (Z.ltb_spec r t), (Z.eqb_spec r t), (Z.ltb_spec i (fc - nc + nc)), (Z.ltb_spec r (t + 1)); try lia; reflexivity.
  - exists b'. split; [exact E|]. eapply grid_ext; [exact G'|]. intros r i Hr' Hi. cbn beta. destruct (Z.ltb_spec r fr); [reflexivity|lia].
Qed.

(** column loops: G after t columns *)
Lemma column_loop fr fc (e fin : Z -> Z -> T) body b : 0 <= fc -> grid fr fc e b ->
  (forall t s, 0 <= t < fc -> grid fr fc (fun r i => if i <? t then fin r i else e r i) s ->
     exists s', body t s = Ok s' /\ grid fr fc (fun r i => if i <? t + 1 then fin r i else e r i) s') ->
  exists b', for_range fc body b = Ok b' /\ grid fr fc fin b'.
Proof.
  intros Hc G H.
  destruct (for_range_inv (fun t s => grid fr fc (fun r i => if i <? t then fin r i else e r i) s) fc body b) as (b' & E & G'); auto.
  - eapply grid_ext; [exact G|]. intros r i Hr Hi. cbn beta. destruct (Z.ltb_spec i 0); [lia|reflexivity].
  - exists b'. split; [exact E|]. eapply grid_ext; [exact G'|]. intros r i Hr Hi. cbn beta. destruct (Z.ltb_spec i fc); [reflexivity|lia].
Qed.

Definition slope_of (f d o : Z) (u : Z -> T) : T := fdiv (fsub (u (o + d)) (u o)) (fsub (y_coordinate f (o + d)) (y_coordinate f o)).
Definition offset_of (f d o : Z) (u : Z -> T) : T := fsub (u (o + d)) (fmul (slope_of f d o u) (y_coordinate f (o + d))).
Lemma line_def f d o u r : line f d o u r = fadd (fmul (slope_of f d o u) (y_coordinate f r)) (offset_of f d o u).
Proof. reflexivity. Qed.

Lemma slope_ok f fr fc d o G s coords t : 0 <= o -> 0 <= d -> o + d < fr -> 0 <= t < fc -> coords_are f fr fc coords -> grid fr fc G s ->
  calc_slope fr fc d s coords t o = Ok (slope_of f d o (fun a => G a t)).
Proof.
  intros Ho Hd Hr Ht HC HG. unfold calc_slope. rewrite !(grid_rd _ _ _ _ _ _ HG) by lia. cbn [bind]. rewrite !(rd_y f) by (lia || assumption). reflexivity.
Qed.
Lemma offset_ok f fr fc d o G s coords t m : 0 <= o -> 0 <= d -> o + d < fr -> 0 <= t < fc -> coords_are f fr fc coords -> grid fr fc G s ->
  m = slope_of f d o (fun a => G a t) -> calc_offset fr fc d s coords m t o = Ok (offset_of f d o (fun a => G a t)).
Proof.
  intros Ho Hd Hr Ht HC HG ->. unfold calc_offset. rewrite !(grid_rd _ _ _ _ _ _ HG) by lia. cbn [bind]. rewrite !(rd_y f) by (lia || assumption). reflexivity.
Qed.
Lemma set_row_ok f fr fc G s coords m o r t : 0 <= r < fr -> 0 <= t < fc -> coords_are f fr fc coords -> grid fr fc G s ->
  exists s', set_row fr fc coords m o r t s = Ok s' /\ grid fr fc (upd G r t (fadd (fmul m (y_coordinate f r)) o)) s'.
Proof.
  intros Hr Ht HC HG. unfold set_row. rewrite (rd_y f) by (lia || assumption). cbn [bind]. now apply grid_wr.
Qed.
Lemma slope_ext f d o u u' : u (o + d) = u' (o + d) -> u o = u' o -> slope_of f d o u = slope_of f d o u'.
Proof. intros H1 H2. unfold slope_of. rewrite H1, H2. reflexivity. Qed.
Lemma offset_ext f d o u u' : u (o + d) = u' (o + d) -> u o = u' o -> offset_of f d o u = offset_of f d o u'.
Proof. intros H1 H2. unfold offset_of. rewrite (slope_ext f d o u u' H1 H2), H1. reflexivity. Qed.

Lemma rows_stage_250 fr fc e coords b : 40 <= fr -> 0 <= fc -> coords_are 4 fr fc coords -> grid fr fc e b ->
  exists b', interpolate_250 fr fc coords b = Ok b' /\ grid fr fc (finished 4 e) b'.
Proof.
  intros Hfr Hc HC G. unfold interpolate_250. apply (column_loop fr fc e); try assumption. intros t s Ht Gs.
  rewrite (slope_ok 4 fr fc 3 2 _ _ coords t ltac:(lia) ltac:(lia) ltac:(lia) Ht HC Gs). cbn [bind].
  rewrite (offset_ok 4 fr fc 3 2 _ _ coords t _ ltac:(lia) ltac:(lia) ltac:(lia) Ht HC Gs eq_refl). cbn [bind].
  rewrite (slope_ext 4 3 2 _ (fun a => e a t)) by (rewrite Z.ltb_irrefl; reflexivity).
  rewrite (offset_ext 4 3 2 _ (fun a => e a t)) by (rewrite Z.ltb_irrefl; reflexivity).
  match goal with |- context [set_row _ _ _ ?m ?o 0 _ _] => set (m1 := m); set (o1 := o) end.
  destruct (set_row_ok 4 fr fc _ _ _ m1 o1 0 t ltac:(lia) Ht HC Gs) as (s1 & E1 & G1). rewrite E1. cbn [bind].
  destruct (set_row_ok 4 fr fc _ _ _ m1 o1 1 t ltac:(lia) Ht HC G1) as (s2 & E2 & G2). rewrite E2. cbn [bind].
  rewrite (slope_ok 4 fr fc 3 34 _ _ coords t ltac:(lia) ltac:(lia) ltac:(lia) Ht HC G2). cbn [bind].
  rewrite (offset_ok 4 fr fc 3 34 _ _ coords t _ ltac:(lia) ltac:(lia) ltac:(lia) Ht HC G2 eq_refl). cbn [bind].
  rewrite (slope_ext 4 3 34 _ (fun a => e a t)) by (unfold upd; cbn [Z.add Pos.add Pos.succ Pos.add_carry Z.eqb Pos.eqb andb]; rewrite Z.ltb_irrefl; reflexivity).
  rewrite (offset_ext 4 3 34 _ (fun a => e a t)) by (unfold upd; cbn [Z.add Pos.add Pos.succ Pos.add_carry Z.eqb Pos.eqb andb]; rewrite Z.ltb_irrefl; reflexivity).
  match goal with |- context [set_row _ _ _ ?m ?o 38 _ _] => set (m2 := m); set (o2 := o) end.
  destruct (set_row_ok 4 fr fc _ _ _ m2 o2 38 t ltac:(lia) Ht HC G2) as (s3 & E3 & G3). rewrite E3. cbn [bind].
  destruct (set_row_ok 4 fr fc _ _ _ m2 o2 39 t ltac:(lia) Ht HC G3) as (s4 & E4 & G4).
  exists s4. split; [exact E4|]. eapply grid_ext; [exact G4|]. intros r i Hr Hi. cbn beta. unfold upd, finished. rewrite !line_def.
  cbn [Z.eqb Pos.eqb].
  destruct (Z.eqb_spec i t) as [->|].
  - rewrite Z.ltb_irrefl. destruct (Z.ltb_spec t (t + 1)); [|lia]. rewrite !andb_true_r. fold m1 o1 m2 o2.
    destruct (Z.eqb_spec r 39); [subst r; reflexivity|]. destruct (Z.eqb_spec r 38); [subst r; reflexivity|].
    destruct (Z.eqb_spec r 1); [subst r; reflexivity|]. destruct (Z.eqb_spec r 0); [subst r; reflexivity|].
    destruct (Z.ltb_spec r 2); [lia|]. destruct (Z.leb_spec 38 r); [|reflexivity]. destruct (Z.ltb_spec r 40); [lia|reflexivity].
  - rewrite !andb_false_r. destruct (Z.ltb_spec i t), (Z.ltb_spec i (t + 1)); try lia; reflexivity.
Qed.

Lemma rows_stage_500 f fr fc e coords b : f <> 4 -> 20 <= fr -> 0 <= fc -> coords_are f fr fc coords -> grid fr fc e b ->
  exists b', interpolate_500 fr fc coords b = Ok b' /\ grid fr fc (finished f e) b'.
Proof.
  intros Hf Hfr Hc HC G. unfold interpolate_500. apply (column_loop fr fc e); try assumption. intros t s Ht Gs.
  rewrite (slope_ok f fr fc 1 1 _ _ coords t ltac:(lia) ltac:(lia) ltac:(lia) Ht HC Gs). cbn [bind].
  rewrite (offset_ok f fr fc 1 1 _ _ coords t _ ltac:(lia) ltac:(lia) ltac:(lia) Ht HC Gs eq_refl). cbn [bind].
  rewrite (slope_ext f 1 1 _ (fun a => e a t)) by (rewrite Z.ltb_irrefl; reflexivity).
  rewrite (offset_ext f 1 1 _ (fun a => e a t)) by (rewrite Z.ltb_irrefl; reflexivity).
  match goal with |- context [set_row _ _ _ ?m ?o 0 _ _] => set (m1 := m); set (o1 := o) end.
  destruct (set_row_ok f fr fc _ _ _ m1 o1 0 t ltac:(lia) Ht HC Gs) as (s2 & E2 & G2). rewrite E2. cbn [bind].
  rewrite (slope_ok f fr fc 1 17 _ _ coords t ltac:(lia) ltac:(lia) ltac:(lia) Ht HC G2). cbn [bind].
  rewrite (offset_ok f fr fc 1 17 _ _ coords t _ ltac:(lia) ltac:(lia) ltac:(lia) Ht HC G2 eq_refl). cbn [bind].
  rewrite (slope_ext f 1 17 _ (fun a => e a t)) by (unfold upd; cbn [Z.add Pos.add Pos.succ Pos.add_carry Z.eqb Pos.eqb andb]; rewrite Z.ltb_irrefl; reflexivity).
  rewrite (offset_ext f 1 17 _ (fun a => e a t)) by (unfold upd; cbn [Z.add Pos.add Pos.succ Pos.add_carry Z.eqb Pos.eqb andb]; rewrite Z.ltb_irrefl; reflexivity).
  match goal with |- context [set_row _ _ _ ?m ?o 19 _ _] => set (m2 := m); set (o2 := o) end.
  destruct (set_row_ok f fr fc _ _ _ m2 o2 19 t ltac:(lia) Ht HC G2) as (s4 & E4 & G4).
  exists s4. split; [exact E4|]. eapply grid_ext; [exact G4|]. intros r i Hr Hi. cbn beta. unfold upd, finished. rewrite !line_def.
  destruct (Z.eqb_spec f 4); [contradiction|].
  destruct (Z.eqb_spec i t) as [->|].
  - rewrite Z.ltb_irrefl. destruct (Z.ltb_spec t (t + 1)); [|lia]. rewrite !andb_true_r. fold m1 o1 m2 o2.
    destruct (Z.eqb_spec r 19); [subst r; reflexivity|]. destruct (Z.eqb_spec r 0); [subst r; reflexivity|]. reflexivity.
  - rewrite !andb_false_r. destruct (Z.ltb_spec i t), (Z.ltb_spec i (t + 1)); try lia; reflexivity.
Qed.

(** ** One scan in cartesian coordinates *)
Lemma comp_set k k' (p : T * T * T) v : 0 <= k < 3 -> 0 <= k' < 3 -> comp k' (set_comp k p v) = if k' =? k then v else comp k' p.
Proof.
  intros Hk Hk'. destruct p as [[x y] z]. assert (C : k = 0 \/ k = 1 \/ k = 2) by lia. assert (C' : k' = 0 \/ k' = 1 \/ k' = 2) by lia.
  destruct C as [-> |[-> | ->]], C' as [-> |[-> | ->]]; reflexivity.
Qed.
Lemma grid_put fr fc k k' (G G' : Z -> Z -> T) s c : 0 <= k < 3 -> 0 <= k' < 3 -> bsize s = fr * fc -> grid fr fc G c ->
  (k' <> k -> grid fr fc G' (comp_buf k' s)) ->
  grid fr fc (if k' =? k then G else G') (comp_buf k' (put_comp k s c)).
Proof.
  intros Hk Hk' Hs [A B] H. split; [exact Hs|]. intros r i Hr Hi. cbn [comp_buf put_comp bat]. rewrite comp_set by assumption.
  destruct (Z.eqb_spec k' k) as [->|Hne]; [auto|]. destruct (H Hne) as [_ X]. exact (X r i Hr Hi).
Qed.
Lemma comp_loop fr fc (A B : Z -> Z -> Z -> T) (body : Z -> buf T -> res (buf T)) s :
  bsize s = fr * fc -> (forall k, 0 <= k < 3 -> grid fr fc (A k) (comp_buf k s)) ->
  (forall k c, 0 <= k < 3 -> bsize c = fr * fc -> grid fr fc (A k) c -> exists c', body k c = Ok c' /\ grid fr fc (B k) c') ->
  exists s', for_range 3 (fun k xyz => let* c := body k (comp_buf k xyz) in Ok (put_comp k xyz c)) s = Ok s' /\ bsize s' = fr * fc /\
    forall k, 0 <= k < 3 -> grid fr fc (B k) (comp_buf k s').
Proof.
  intros Hs HA H.
  destruct (for_range_inv (fun t s => bsize s = fr * fc /\ forall k, 0 <= k < 3 -> grid fr fc (if k <? t then B k else A k) (comp_buf k s)) 3
    (fun k xyz => let* c := body k (comp_buf k xyz) in Ok (put_comp k xyz c)) s) as (s' & E & Hs' & G).
  - lia.
  - split; [exact Hs|]. intros k Hk. destruct (Z.ltb_spec k 0); [lia|auto].
  - intros k s1 Hk [Hs1 G1]. destruct (H k (comp_buf k s1)) as (c & E & Gc); [exact Hk|exact Hs1| |].
    { pose proof (G1 k Hk) as X. rewrite Z.ltb_irrefl in X. exact X. }
    rewrite E. cbn [bind]. eexists. split; [reflexivity|]. split; [exact Hs1|]. intros k' Hk'.
    pose proof (grid_put fr fc k k' (B k) (if k' <? k then B k' else A k') s1 c Hk Hk' Hs1 Gc (fun _ => G1 k' Hk')) as X.
    destruct (Z.eqb_spec k' k) as [->|]; [destruct (Z.ltb_spec k (k + 1)); [exact X|lia]|].
    destruct (Z.ltb_spec k' k), (Z.ltb_spec k' (k + 1)); try lia; exact X.
  - exists s'. split; [exact E|]. split; [exact Hs'|]. intros k Hk. pose proof (G k Hk) as X. destruct (Z.ltb_spec k 3); [exact X|lia].
Qed.

(** sizes for which the fixed row numbers of the code exist *)
Definition fits (f rows cols : Z) : Prop :=
  1 <= f /\ 1 <= rows /\ 1 <= cols /\ (if f =? 4 then 40 else 20) <= f * rows /\ (if f =? 4 then 3 else 1) + 2 <= f * cols.

(** final value of one component of one fine pixel, from the component of the tie points of its scan *)
Definition fine_comp2 (f rows cols : Z) (nav : Z -> Z -> T) : Z -> Z -> T :=
  finished f (extended (f * cols) (if f =? 4 then 3 else 1) (mapped f rows cols nav)).
Definition fine_xyz2 (f rows cols : Z) (t : Z -> Z -> T * T * T) (r i : Z) : T * T * T :=
  (fine_comp2 f rows cols (fun a b => comp 0 (t a b)) r i, fine_comp2 f rows cols (fun a b => comp 1 (t a b)) r i, fine_comp2 f rows cols (fun a b => comp 2 (t a b)) r i).

Lemma xyz_scan_ok f rows cols coords xin b : fits f rows cols -> coords_are f (f * rows) (f * cols) coords -> bsize b = f * rows * (f * cols) ->
  exists b', interpolated_xyz_scan f rows cols (f * rows) (f * cols) coords xin b = Ok b' /\ bsize b' = f * rows * (f * cols) /\
    forall r i, 0 <= r < f * rows -> 0 <= i < f * cols -> bat b' (r * (f * cols) + i) = fine_xyz2 f rows cols (fun a b => bat xin (a * cols + b)) r i.
Proof.
  intros (Hf & Hrw & Hc & F1 & F2) HC Hb. unfold interpolated_xyz_scan.
  set (M := fun k => mapped f rows cols (fun a b => comp k (bat xin (a * cols + b)))).
  destruct (comp_loop (f * rows) (f * cols) (fun k r i => comp k (bat b (r * (f * cols) + i))) M
    (fun k c => call_map_coordinates rows cols (f * rows) (f * cols) (comp_buf k xin) coords c) b Hb) as (b1 & E1 & Hb1 & G1).
  { intros k Hk. split; [exact Hb|]. reflexivity. }
  { intros k c Hk Hs _. apply map_stage; try assumption; nia. }
  rewrite E1. cbn [bind].
  destruct (comp_loop (f * rows) (f * cols) M (fun k => finished f (extended (f * cols) (if f =? 4 then 3 else 1) (M k)))
    (fun k c => let* c := extrapolate_rightmost (f * rows) (f * cols) (if f =? 4 then 3 else 1) c in
       if f =? 4 then interpolate_250 (f * rows) (f * cols) coords c else interpolate_500 (f * rows) (f * cols) coords c) b1 Hb1 G1) as (b2 & E2 & Hb2 & G2).
  { intros k c Hk Hs Gc.
    destruct (extend_stage (f * rows) (f * cols) (if f =? 4 then 3 else 1) (M k) c) as (c1 & Ec & G); [nia|destruct (f =? 4); lia|exact F2|exact Gc|].
    rewrite Ec. cbn [bind]. destruct (Z.eqb_spec f 4) as [-> |Hne].
    - apply rows_stage_250; try assumption; lia.
    - apply rows_stage_500; try assumption; nia. }
  exists b2. split; [|split].
  - rewrite <- E2. clear. unfold for_range. destruct (f =? 4); generalize (range0 3) as l; intros l; revert b1; induction l as [|k l IH]; intros b1; try reflexivity; cbn [for_list];
    (destruct (extrapolate_rightmost _ _ _ _) as [c|]; cbn [bind]; [|reflexivity]).
    + destruct (interpolate_250 _ _ _ _); cbn [bind]; [apply IH|reflexivity].
    + destruct (interpolate_500 _ _ _ _); cbn [bind]; [apply IH|reflexivity].
  - exact Hb2.
  - intros r i Hr Hi. unfold fine_xyz2, fine_comp2. fold (M 0) (M 1) (M 2).
    destruct (G2 0 ltac:(lia)) as [_ X0], (G2 1 ltac:(lia)) as [_ X1], (G2 2 ltac:(lia)) as [_ X2].
    rewrite <- (X0 r i Hr Hi), <- (X1 r i Hr Hi), <- (X2 r i Hr Hi). cbn [comp_buf bat].
    destruct (bat b2 (r * (f * cols) + i)) as [[x y] z]. reflexivity.
Qed.

(** only the tie points of the scan are used *)
Lemma mirror_range len idx : 1 <= len -> 0 <= mirror len idx < len.
Proof.
  intros H. unfold mirror. destruct (Z.leb_spec len 1); [lia|]. cbv zeta.
  pose proof (Z.mod_pos_bound idx (2 * len - 2) ltac:(lia)). destruct (Z.leb_spec len (idx mod (2 * len - 2))); lia.
Qed.
Lemma map_coordinates_ext rows cols (nav nav' : Z -> Z -> T) y x : 1 <= rows -> 1 <= cols ->
  (forall a b, 0 <= a < rows -> 0 <= b < cols -> nav a b = nav' a b) -> map_coordinates rows cols nav y x = map_coordinates rows cols nav' y x.
Proof. intros Hr Hc H. unfold map_coordinates. cbv zeta. rewrite !H by (apply mirror_range; assumption). reflexivity. Qed.
Lemma extended_ext fc nc (m m' : Z -> Z -> T) r i : (forall r i, m r i = m' r i) -> extended fc nc m r i = extended fc nc m' r i.
Proof. intros H. unfold extended. rewrite !H. reflexivity. Qed.
Lemma finished_ext f (e e' : Z -> Z -> T) r i : (forall r i, e r i = e' r i) -> finished f e r i = finished f e' r i.
Proof. intros H. unfold finished, line. cbv zeta. rewrite !H. reflexivity. Qed.
Lemma fine_comp2_ext f rows cols (nav nav' : Z -> Z -> T) r i : 1 <= rows -> 1 <= cols ->
  (forall a b, 0 <= a < rows -> 0 <= b < cols -> nav a b = nav' a b) -> fine_comp2 f rows cols nav r i = fine_comp2 f rows cols nav' r i.
Proof.
  intros Hr Hc H. unfold fine_comp2. apply finished_ext. intros. apply extended_ext. intros. unfold mapped. f_equal.
  apply map_coordinates_ext; auto.
Qed.
Lemma fine_xyz2_ext f rows cols (t t' : Z -> Z -> T * T * T) r i : 1 <= rows -> 1 <= cols ->
  (forall a b, 0 <= a < rows -> 0 <= b < cols -> t a b = t' a b) -> fine_xyz2 f rows cols t r i = fine_xyz2 f rows cols t' r i.
Proof.
  intros Hr Hc H. unfold fine_xyz2. apply f_equal2; [apply f_equal2|]; (apply fine_comp2_ext; [exact Hr|exact Hc|]); intros a b Ha Hb; rewrite H by assumption; reflexivity.
Qed.

(** ** Conversions *)
Lemma lonlat_ok rows cols (lons lats : buf T) v b : 0 <= rows -> 0 <= cols ->
  vrows v = rows -> vcols v = cols ->
  (forall i j, 0 <= i < rows -> 0 <= j < cols -> 0 <= addr v i j < bsize lons /\ 0 <= addr v i j < bsize lats) -> bsize b = rows * cols ->
  exists b', lonlat2xyz_v lons v lats v (full rows cols) b = Ok b' /\
    grid rows cols (fun i j => cy_lonlat2xyz (bat lons (addr v i j)) (bat lats (addr v i j))) b'.
Proof.
  intros Hr Hc V1 V2 HV Hb. unfold lonlat2xyz_v. rewrite V1, V2. apply grid_fill; try assumption.
  intros r i s Hr' Hi' Hs. destruct (HV r i Hr' Hi'). rewrite !rd_ok by assumption. reflexivity.
Qed.

Lemma xyz2lonlat_ok nr w (fx : buf (T * T * T)) vnew n0 (lons lats : buf T) (F1 F2 : Z -> Z -> T) :
  0 < w -> 0 <= nr -> bsize fx = nr * w -> voff vnew = n0 * w -> vs0 vnew = w -> 0 <= n0 ->
  (n0 + nr) * w <= bsize lons -> (n0 + nr) * w <= bsize lats ->
  (forall r i, 0 <= r < nr -> 0 <= i < w -> cy_xyz2lonlat true thr8 (bat fx (r * w + i)) = (F1 (n0 + r) i, F2 (n0 + r) i)) ->
  exists lons' lats', xyz2lonlat_v fx (full nr w) vnew (lons, lats) = Ok (lons', lats') /\
    step (flat2 w F1) (fun a => n0 * w <= a < (n0 + nr) * w) lons lons' /\ step (flat2 w F2) (fun a => n0 * w <= a < (n0 + nr) * w) lats lats'.
Proof.
  intros Hw Hnr Hfx Ho Hs0 Hn0 Hlon Hlat V. unfold xyz2lonlat_v. cbn [full vrows vcols].
  destruct (loop2_ok (flat2 w F1) (flat2 w F2) nr w (fun i j => (n0 + i) * w + j)
    (fun i j st => let '(lons, lats) := st in let* p := rd fx (full nr w) i j in
      let ll := cy_xyz2lonlat true (nst (ndiv (nz 8) (nz 10))) p in
      let* lons := wr lons vnew i j (fst ll) in let* lats := wr lats vnew i j (snd ll) in Ok (lons, lats)) (lons, lats)) as ([lons' lats'] & E & S1 & S2).
  - intros i j [b1 b2] Hi Hj Hs1 Hs2. cbn [fst snd] in Hs1, Hs2.
    rewrite rd_ok by (change (addr (full nr w) i j) with (i * w + j); rewrite Hfx; nia). cbn [bind]. cbv zeta.
    change (addr (full nr w) i j) with (i * w + j). fold thr8. rewrite V by assumption. cbn [fst snd].
    assert (A : addr vnew i j = (n0 + i) * w + j) by (unfold addr; rewrite Ho, Hs0; ring). unfold wr. rewrite A.
    assert (P : 0 <= (n0 + i) * w + j < (n0 + nr) * w) by nia.
    destruct (wro_step (flat2 w F1) b1 ((n0 + i) * w + j) (F1 (n0 + i) j)) as (b1' & E1 & T1); [lia|now rewrite flat2_at|].
    destruct (wro_step (flat2 w F2) b2 ((n0 + i) * w + j) (F2 (n0 + i) j)) as (b2' & E2 & T2); [lia|now rewrite flat2_at|].
    rewrite E1. cbn [bind]. rewrite E2. cbn [bind]. eexists. split; [reflexivity|]. split; assumption.
  - exists lons', lats'. split; [exact E|]. cbn [fst snd] in S1, S2.
    assert (SET : forall a, n0 * w <= a < (n0 + nr) * w -> exists i j, 0 <= i < nr /\ 0 <= j < w /\ (n0 + i) * w + j = a).
    { intros a Ha. exists (a / w - n0), (a mod w). destruct (off_split w a ltac:(lia)) as [Ea Hm].
      split; [|split; [exact Hm|lia]]. nia. }
    split; (eapply step_weaken; [|eassumption]); exact SET.
Qed.

(** ** The whole computation *)
Definition ll_scan (f rows cols : Z) (lon lat : ndarray T) (s r i : Z) : T * T :=
  cy_xyz2lonlat true thr8 (fine_xyz2 f rows cols (fun a b => cy_lonlat2xyz (aat lon (s * rows + a) b) (aat lat (s * rows + a) b)) r i).

Lemma simple_interp_ok g dt n cols coarse fine rows f (lon lat : ndarray T) :
  rows_per_scan_for_resolution coarse = Ok rows -> fine <> 0 -> coarse / fine = f -> fits f rows cols -> dt <> OtherDtype -> 0 <= n ->
  adt lon = dt -> adt lat = dt -> arows lon = n -> n <= arows lat -> acols lon = cols -> acols lat = cols ->
  exists olon olat, simple_interp g lon lat coarse fine = Ok (olon, olat) /\
    adt olon = dt /\ adt olat = dt /\ arows olon = f * n /\ arows olat = f * n /\ acols olon = f * cols /\ acols olat = f * cols /\
    forall R i, 0 <= R < f * n -> 0 <= i < f * cols ->
      (aat olon R i, aat olat R i) =
      if R <? n / rows * (f * rows) then ll_scan f rows cols lon lat (R / (f * rows)) (R mod (f * rows)) i
      else (s_lons g (R * (f * cols) + i), s_lats g (R * (f * cols) + i)).
Proof.
  intros Hrps Hfine Hdiv HF Hdt Hn D1 D2 R1 R2 C1 C2. unfold simple_interp. rewrite D1, D2.
  replace (dtype_eqb dt OtherDtype) with false by (destruct dt; [reflexivity|reflexivity|contradiction]).
  replace (dtype_eqb dt dt) with true by (destruct dt; reflexivity). cbn [negb].
  rewrite Hrps. cbn [bind]. destruct (Z.eqb_spec fine 0); [contradiction|]. rewrite Hdiv.
  rewrite R1, C1. cbv zeta.
  assert (HF' := HF). destruct HF' as (Hf & Hrw & Hc & _ & _).
  assert (fcP : 1 <= f * cols) by nia. assert (frP : 1 <= f * rows) by nia.
  destruct (compute_yx_ok f (f * rows) (f * cols) (s_coords g) ltac:(lia) ltac:(lia)) as (coords & E0 & HC). rewrite E0. cbn [bind].
  set (nr := f * rows) in *. set (w := f * cols) in *. set (S := n / rows).
  assert (HS : 0 <= S /\ S * rows <= n) by (unfold S; split; [apply Z.div_pos; lia|rewrite Z.mul_comm; apply Z.mul_div_le; lia]).
  set (P := fun R i => if R <? S * nr then ll_scan f rows cols lon lat (R / nr) (R mod nr) i else (s_lons g (R * w + i), s_lats g (R * w + i))).
  set (w0 := {| v_in := {| bsize := rows * cols; bat := s_in g |}; v_res := {| bsize := nr * w; bat := s_result g |};
           v_lons := {| bsize := f * n * w; bat := s_lons g |}; v_lats := {| bsize := f * n * w; bat := s_lats g |} |}).
  destruct (for_range_inv (fun k q => bsize (v_in q) = rows * cols /\ bsize (v_res q) = nr * w /\ bsize (v_lons q) = f * n * w /\ bsize (v_lats q) = f * n * w /\
     forall R i, 0 <= R < f * n -> 0 <= i < w ->
      (bat (v_lons q) (R * w + i), bat (v_lats q) (R * w + i)) = if R <? k * nr then P R i else (s_lons g (R * w + i), s_lats g (R * w + i)))
     S (simple_scan f rows n cols lon lat coords) w0) as (q' & E & _ & _ & B3 & B4 & V).
  - lia.
  - repeat (split; [reflexivity|]). intros R i HR Hi. destruct (Z.ltb_spec R (0 * nr)); [lia|reflexivity].
  - intros s q Hs (B1 & B2 & B3 & B4 & V). unfold simple_scan.
    assert (Hsn : (s + 1) * rows <= n) by nia.
    rewrite R1, C1, C2. unfold slice_rows. rewrite slice_in by (cbn [full vrows vcols]; nia). rewrite (slice_in (full (arows lat) cols)) by (cbn [full vrows vcols]; nia).
    fold nr w. assert (K : rows * f = nr) by (unfold nr; ring). rewrite K.
    assert (K1 : nr * s + nr <= f * n) by (unfold nr; nia).
    rewrite slice_in by (cbn [full vrows vcols]; nia).
    cbn [full vrows vcols voff vs0]. set (v := {| voff := 0 + rows * s * cols + 0; vs0 := cols; vrows := rows * s + rows - rows * s; vcols := cols - 0 |}).
    assert (A : forall i j, addr v i j = (s * rows + i) * cols + j) by (intros; unfold addr, v; cbn [voff vs0]; ring).
    destruct (lonlat_ok rows cols (contiguous lon) (contiguous lat) v (v_in q)) as (xin & E1 & X1 & X2); [lia|lia|cbn [v vrows]; lia|cbn [v vcols]; lia| |exact B1|].
    { intros i j Hi Hj. rewrite A. cbn [contiguous bsize]. rewrite R1, C1, C2. assert (0 <= s * rows) by nia. assert (s * rows + i < n) by nia. split; nia. }
    rewrite E1. cbn [bind].
    destruct (xyz_scan_ok f rows cols coords xin (v_res q) HF HC B2) as (xres & E2 & X3 & X4). fold nr w in E2, X3, X4. rewrite E2. cbn [bind].
    assert (LL : forall r i, 0 <= r < nr -> 0 <= i < w -> cy_xyz2lonlat true thr8 (bat xres (r * w + i)) = ll_scan f rows cols lon lat s r i).
    { intros r i Hr Hi. rewrite X4 by assumption. unfold ll_scan. f_equal. apply fine_xyz2_ext; [lia|lia|]. intros a b Ha Hb.
      rewrite X2 by assumption. rewrite A. cbn [contiguous bat]. rewrite C1, C2, !flat2_at by lia. reflexivity. }
    set (Q := fun R i => if (nr * s <=? R) && (R <? nr * s + nr) then ll_scan f rows cols lon lat s (R - nr * s) i
                         else (bat (v_lons q) (R * w + i), bat (v_lats q) (R * w + i))).
    destruct (xyz2lonlat_ok nr w xres {| voff := 0 + nr * s * w + 0; vs0 := w; vrows := nr * s + nr - nr * s; vcols := w - 0 |} (nr * s) (v_lons q) (v_lats q)
      (fun R i => fst (Q R i)) (fun R i => snd (Q R i))) as (lons & lats & E3 & S1 & S2); try (cbn [voff vs0]; nia); auto; try (rewrite ?B3, ?B4; nia).
    { intros r i Hr Hi. rewrite LL, <- surjective_pairing by assumption. unfold Q. destruct (Z.leb_spec (nr * s) (nr * s + r)); [|lia].
      destruct (Z.ltb_spec (nr * s + r) (nr * s + nr)); [|lia]. cbn [andb]. f_equal. ring. }
    rewrite E3. cbn [bind].
    eexists. split; [reflexivity|]. cbn [v_in v_res v_lons v_lats]. split; [exact X1|]. split; [exact X3|].
    split; [destruct S1; congruence|]. split; [destruct S2; congruence|].
    intros R i HR Hi.
    assert (J : (bat lons (R * w + i), bat lats (R * w + i)) = Q R i).
    { rewrite (surjective_pairing (Q R i)). destruct ((nr * s <=? R) && (R <? nr * s + nr)) eqn:B.
      - apply andb_true_iff in B as [B5 B6]. apply Z.leb_le in B5. apply Z.ltb_lt in B6.
        assert (I : nr * s * w <= R * w + i < (nr * s + nr) * w) by nia.
        rewrite (step_at _ _ _ _ _ S1 I), (step_at _ _ _ _ _ S2 I), !flat2_at by exact Hi. reflexivity.
      - f_equal.
        + assert (G1 : bat (v_lons q) (R * w + i) = flat2 w (fun R i => fst (Q R i)) (R * w + i)) by (rewrite flat2_at by exact Hi; unfold Q; rewrite B; reflexivity).
          rewrite (step_keep _ _ _ _ _ S1 G1), flat2_at by exact Hi. reflexivity.
        + assert (G1 : bat (v_lats q) (R * w + i) = flat2 w (fun R i => snd (Q R i)) (R * w + i)) by (rewrite flat2_at by exact Hi; unfold Q; rewrite B; reflexivity).
          rewrite (step_keep _ _ _ _ _ S2 G1), flat2_at by exact Hi. reflexivity. }
    rewrite J. unfold Q, P. rewrite (V R i HR Hi). unfold P.
    destruct (Z.leb_spec (nr * s) R), (Z.ltb_spec R (nr * s + nr)), (Z.ltb_spec R (s * nr)), (Z.ltb_spec R ((s + 1) * nr)), (Z.ltb_spec R (S * nr)); try nia; try reflexivity.
    cbn [andb]. replace R with (s * nr + (R - nr * s)) at 2 3 by ring.
    pose proof (flat2_at nr (fun a b => ll_scan f rows cols lon lat a b i) s (R - nr * s) ltac:(lia)) as FA. unfold flat2 in FA. rewrite FA. reflexivity.
  - rewrite E. cbn [bind]. eexists _, _. split; [reflexivity|]. unfold array_of. cbn [adt arows acols aat].
    repeat (split; [reflexivity|]). intros R i HR Hi. rewrite (V R i HR Hi). unfold P. destruct (R <? S * nr); reflexivity.
Qed.
End Any.
