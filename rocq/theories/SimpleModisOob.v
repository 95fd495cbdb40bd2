(** Simple MODIS interpolation: sizes for which the code leaves its arrays. *)
From Coq Require Import ZArith List Bool Lia.
From Verif Require Import Base Num Geo Mem Modis ModisProofs ModisOob SimpleModis SimpleModisProofs.
Import ListNotations.
Open Scope Z_scope.

Section Any.
Context {T : Type} {N : NumOps T}.

Lemma okb_rd {E} (b : buf E) v i j : okb (fun _ => True) (rd b v i j).
Proof. apply okb_rdo. Qed.
Lemma okb_wr {E} m (b : buf E) v i j x : bsize b = m -> okb (fun b' => bsize b' = m) (wr b v i j x).
Proof. intros H. eapply okb_weaken; [apply okb_wro|]. cbn beta. congruence. Qed.
Lemma okb_bind_any {A B} (Q : B -> Prop) (r : res A) (k : A -> res B) :
  okb (fun _ => True) r -> (forall a, okb Q (k a)) -> okb Q (let* a := r in k a).
Proof. intros H1 H2. apply (okb_bind (fun _ => True)); auto. Qed.
(** a step that cannot be completed after steps that may fail *)
Lemma must_bind {A B} (P : A -> Prop) (r : res A) (k : A -> res B) :
  okb P r -> (forall a, P a -> k a = Err OutOfBounds) -> (let* a := r in k a) = Err OutOfBounds.
Proof. intros H1 H2. destruct r; cbn in *; [auto|congruence]. Qed.

Section Sizes.
Context (fr fc m : Z).
Let sized (b : buf T) : Prop := bsize b = m.

Lemma okb_map rows cols nav coords b : sized b -> okb sized (call_map_coordinates rows cols fr fc nav coords b).
Proof.
  intros H. unfold call_map_coordinates. apply okb_for; [exact H|]. intros i s Hs. apply okb_for; [exact Hs|]. intros j s' Hs'.
  apply okb_bind_any; [apply okb_rd|]. intros y. apply okb_bind_any; [apply okb_rd|]. intros x. now apply okb_wr.
Qed.
Lemma okb_extrapolate_body nc i b : sized b -> okb sized (
    let* u := rd b (full fr fc) i (fc - nc - 1) in
    let* v := rd b (full fr fc) i (fc - nc - 2) in
    let last_interp_col_diff := fsub u v in
    for_range nc (fun col_offset b =>
      let* old := rd b (full fr fc) i (fc - nc + col_offset) in
      wr b (full fr fc) i (fc - nc + col_offset) (fadd old (fmul last_interp_col_diff (nz (col_offset + 1))))) b).
Proof.
  intros H. apply okb_bind_any; [apply okb_rd|]. intros u. apply okb_bind_any; [apply okb_rd|]. intros v. cbv zeta.
  apply okb_for; [exact H|]. intros j s Hs. apply okb_bind_any; [apply okb_rd|]. intros old. now apply okb_wr.
Qed.
Lemma okb_extrapolate nc b : sized b -> okb sized (extrapolate_rightmost fr fc nc b).
Proof. intros H. unfold extrapolate_rightmost. apply okb_for; [exact H|]. intros i s Hs. now apply okb_extrapolate_body. Qed.
Lemma extrapolate_must nc b : sized b -> 1 <= fr -> fc < nc + 2 -> extrapolate_rightmost fr fc nc b = Err OutOfBounds.
Proof.
  intros H Hr Hc. unfold extrapolate_rightmost. apply (for_must sized _ 0); [exact H|intros; now apply okb_extrapolate_body|lia|].
  intros s Hs. eapply must_bind; [apply okb_rd|]. intros u _. cbv beta. unfold rd at 1. rewrite rdo_oob; [reflexivity|].
  unfold addr, full; cbn [voff vs0]. lia.
Qed.

Lemma okb_slope d b coords c o : okb (fun _ => True) (@calc_slope T N fr fc d b coords c o).
Proof. unfold calc_slope. repeat (apply okb_bind_any; [apply okb_rd|intros ?]). exact I. Qed.
Lemma okb_offset d b coords s c o : okb (fun _ => True) (@calc_offset T N fr fc d b coords s c o).
Proof. unfold calc_offset. repeat (apply okb_bind_any; [apply okb_rd|intros ?]). exact I. Qed.
Lemma okb_set_row coords s o r c b : sized b -> okb sized (set_row fr fc coords s o r c b).
Proof. intros H. unfold set_row. apply okb_bind_any; [apply okb_rd|]. intros y. now apply okb_wr. Qed.
Lemma set_row_must coords s o r b : sized b -> m <= r * fc -> set_row fr fc coords s o r 0 b = Err OutOfBounds.
Proof.
  intros H Hm. unfold set_row. eapply must_bind; [apply okb_rd|]. intros y _. unfold wr. apply wro_oob.
  unfold addr, full; cbn [voff vs0]. unfold sized in H. lia.
Qed.
Ltac step_ok := first
  [ apply okb_bind_any; [first [apply okb_slope|apply okb_offset]|intros ?]
  | apply (okb_bind sized); [apply okb_set_row; assumption|intros ? ?]
  | apply okb_set_row; assumption ].
Ltac step_must := first
  [ eapply must_bind; [first [apply okb_slope|apply okb_offset]|intros ? _]
  | apply (must_bind sized); [apply okb_set_row; assumption|intros ? ?] ].
Lemma okb_250 coords b : sized b -> okb sized (interpolate_250 fr fc coords b).
Proof. intros H. unfold interpolate_250. apply okb_for; [exact H|]. intros i s Hs. repeat step_ok. Qed.
Lemma okb_500 coords b : sized b -> okb sized (interpolate_500 fr fc coords b).
Proof. intros H. unfold interpolate_500. apply okb_for; [exact H|]. intros i s Hs. repeat step_ok. Qed.
Lemma must_250 coords b : sized b -> 1 <= fc -> m <= 39 * fc -> interpolate_250 fr fc coords b = Err OutOfBounds.
Proof.
  intros H Hc Hm. unfold interpolate_250. apply (for_must sized _ 0); [exact H|intros; repeat step_ok|lia|].
  intros s Hs. repeat step_must. now apply set_row_must.
Qed.
Lemma must_500 coords b : sized b -> 1 <= fc -> m <= 19 * fc -> interpolate_500 fr fc coords b = Err OutOfBounds.
Proof.
  intros H Hc Hm. unfold interpolate_500. apply (for_must sized _ 0); [exact H|intros; repeat step_ok|lia|].
  intros s Hs. repeat step_must. now apply set_row_must.
Qed.
End Sizes.

Lemma okb_comp_loop m n (body : Z -> buf T -> res (buf T)) s : bsize s = m ->
  (forall k c, bsize c = m -> okb (fun c' => bsize c' = m) (body k c)) ->
  okb (fun s' => bsize s' = m) (for_range n (fun k (xyz : buf (T * T * T)) => let* c := body k (comp_buf k xyz) in Ok (put_comp k xyz c)) s).
Proof.
  intros H Hb. apply okb_for; [exact H|]. intros k s' Hs'. eapply okb_bind; [apply Hb; exact Hs'|]. intros c Hc. exact Hs'.
Qed.

Lemma xyz_scan_must f rows cols coords xin b : 1 <= f -> 1 <= rows -> 0 <= cols -> ~ fits f rows cols -> bsize b = f * rows * (f * cols) ->
  interpolated_xyz_scan f rows cols (f * rows) (f * cols) coords xin b = Err OutOfBounds.
Proof.
  intros Hf Hr Hc HF Hb. unfold interpolated_xyz_scan. set (m := f * rows * (f * cols)) in *.
  apply (must_bind (fun s => bsize s = m)).
  { apply (okb_comp_loop m 3 (fun k c => call_map_coordinates rows cols (f * rows) (f * cols) (comp_buf k xin) coords c)); [exact Hb|].
    intros k c Hk. now apply okb_map. }
  intros b1 Hb1.
  assert (B : forall (k : Z) (c : buf T), bsize c = m -> okb (fun c' => bsize c' = m)
     (let* c := extrapolate_rightmost (f * rows) (f * cols) (if f =? 4 then 3 else 1) c in
      if f =? 4 then interpolate_250 (f * rows) (f * cols) coords c else interpolate_500 (f * rows) (f * cols) coords c)).
  { intros k c Hk. eapply okb_bind; [apply okb_extrapolate, Hk|]. intros c1 H1. destruct (f =? 4); [now apply okb_250|now apply okb_500]. }
  apply (for_must (fun s => bsize s = m) _ 0); [exact Hb1| |lia|].
  - intros k s Hs. specialize (B k (comp_buf k s) Hs).
    destruct (extrapolate_rightmost (f * rows) (f * cols) (if f =? 4 then 3 else 1) (comp_buf k s)) as [c|e]; cbn [bind okb] in *; [|exact B].
    destruct (if f =? 4 then interpolate_250 (f * rows) (f * cols) coords c else interpolate_500 (f * rows) (f * cols) coords c) as [c'|e]; cbn [bind okb] in *; [exact Hs|exact B].
  - intros s Hs. set (nc := if f =? 4 then 3 else 1).
    destruct (Z.lt_ge_cases (f * cols) (nc + 2)) as [Hlt|Hge].
    + rewrite (extrapolate_must (f * rows) (f * cols) m nc (comp_buf 0 s) Hs) by (nia || assumption). reflexivity.
    + assert (C1 : 1 <= cols) by (unfold nc in Hge; destruct (f =? 4); nia).
      apply (must_bind (fun c => bsize c = m)); [apply okb_extrapolate, Hs|]. intros c1 H1.
      assert (Q : f * rows < if f =? 4 then 40 else 20).
      { destruct (Z.lt_ge_cases (f * rows) (if f =? 4 then 40 else 20)) as [|G]; [assumption|]. exfalso. apply HF. unfold fits. fold nc. repeat split; lia. }
      assert (1 <= f * cols) by nia.
      destruct (Z.eqb_spec f 4) as [E|E].
      * rewrite (must_250 (f * rows) (f * cols) m coords c1 H1) by (unfold m; nia). reflexivity.
      * rewrite (must_500 (f * rows) (f * cols) m coords c1 H1) by (unfold m; nia). reflexivity.
Qed.

Lemma okb_xyz_scan f rows cols fr fc m coords xin b : bsize b = m -> okb (fun b' => bsize b' = m) (@interpolated_xyz_scan T N f rows cols fr fc coords xin b).
Proof.
  intros Hb. unfold interpolated_xyz_scan. apply (okb_bind (fun s => bsize s = m)).
  { apply (okb_comp_loop m 3 (fun k c => call_map_coordinates rows cols fr fc (comp_buf k xin) coords c)); [exact Hb|]. intros k c Hk. now apply okb_map. }
  intros b1 Hb1. apply okb_for; [exact Hb1|]. intros k s Hs.
  apply (okb_bind (fun c => bsize c = m)); [now apply okb_extrapolate|]. intros c Hc.
  apply (okb_bind (fun c => bsize c = m)); [destruct (f =? 4); [now apply okb_250|now apply okb_500]|]. intros c' Hc'. exact Hs.
Qed.
Lemma okb_simple_scan f rows n cols lon lat coords s q m :
  bsize (v_res q) = m -> okb (fun q' => bsize (v_res q') = m) (@simple_scan T N f rows n cols lon lat coords s q).
Proof.
  intros H. unfold simple_scan. cbv zeta. eapply okb_bind; [apply okb_lonlat|]. intros xin _.
  apply (okb_bind (fun b => bsize b = m)); [now apply okb_xyz_scan|]. intros xres Hx.
  eapply okb_bind; [apply okb_xyz2lonlat|]. intros [lons lats] _. exact Hx.
Qed.

(** With at least one scan and sizes that do not fit, the code leaves its arrays. *)
Lemma simple_interp_must g dt coarse fine rows (lon lat : ndarray T) :
  rows_per_scan_for_resolution coarse = Ok rows -> 1 <= coarse / fine -> fine <> 0 -> dt <> OtherDtype -> adt lon = dt -> adt lat = dt ->
  rows <= arows lon -> 0 <= acols lon -> ~ fits (coarse / fine) rows (acols lon) ->
  simple_interp g lon lat coarse fine = Err OutOfBounds.
Proof.
  intros Hrps Hf1 Hfine Hdt D1 D2 Hn Hc HF. unfold simple_interp. rewrite D1, D2.
  replace (dtype_eqb dt OtherDtype) with false by (destruct dt; [reflexivity|reflexivity|contradiction]).
  replace (dtype_eqb dt dt) with true by (destruct dt; reflexivity). cbn [negb].
  assert (Hr : 1 <= rows).
  { unfold rows_per_scan_for_resolution in Hrps. repeat match type of Hrps with context [if ?b then _ else _] => destruct b end; injection Hrps as <- || discriminate; lia. }
  rewrite Hrps. cbn [bind]. destruct (Z.eqb_spec fine 0); [contradiction|]. cbv zeta.
  set (f := coarse / fine) in *. set (cols := acols lon) in *.
  destruct (compute_yx_ok f (f * rows) (f * cols) (s_coords g) ltac:(nia) ltac:(nia)) as (coords & E0 & HC). rewrite E0. cbn [bind].
  rewrite (for_must (fun q => bsize (v_res q) = f * rows * (f * cols)) _ 0); [reflexivity|reflexivity| | |].
  - intros s q Hq. now apply okb_simple_scan.
  - split; [lia|]. apply Z.div_str_pos. lia.
  - intros q Hq. unfold simple_scan. cbv zeta. eapply must_bind; [apply okb_lonlat|]. intros xin _. fold cols.
    rewrite xyz_scan_must; auto.
Qed.

(** A fine resolution coarser than the coarse one gives empty arrays. *)
Lemma simple_interp_empty g dt coarse fine rows (lon lat : ndarray T) :
  rows_per_scan_for_resolution coarse = Ok rows -> coarse / fine = 0 -> fine <> 0 -> dt <> OtherDtype -> adt lon = dt -> adt lat = dt ->
  0 <= arows lon -> 0 <= acols lon -> arows lat = arows lon -> acols lat = acols lon ->
  exists olon olat, simple_interp g lon lat coarse fine = Ok (olon, olat) /\ arows olon = 0 /\ acols olon = 0 /\ arows olat = 0 /\ acols olat = 0.
Proof.
  intros Hrps Hf Hfine Hdt D1 D2 Hn Hc R2 C2. unfold simple_interp. rewrite D1, D2.
  replace (dtype_eqb dt OtherDtype) with false by (destruct dt; [reflexivity|reflexivity|contradiction]).
  replace (dtype_eqb dt dt) with true by (destruct dt; reflexivity). cbn [negb].
  assert (Hr : 1 <= rows).
  { unfold rows_per_scan_for_resolution in Hrps. repeat match type of Hrps with context [if ?b then _ else _] => destruct b end; injection Hrps as <- || discriminate; lia. }
  rewrite Hrps. cbn [bind]. destruct (Z.eqb_spec fine 0) as [?|_]; [contradiction|]. rewrite Hf. cbv zeta. cbn [Z.mul].
  unfold compute_yx at 1. unfold for_range at 1. cbn [range0 Z.to_nat zrange for_list bind].
  set (n := arows lon) in *. set (cols := acols lon) in *.
  match goal with |- context [for_range (n / rows) ?B ?w0] =>
    destruct (for_range_inv (fun _ q => bsize (v_in q) = rows * cols) (n / rows) B w0) as (q' & E & _) end.
  - apply Z.div_pos; lia.
  - reflexivity.
  - intros s q Hs Hq. assert (Hsn : (s + 1) * rows <= n).
    { pose proof (Z.mul_div_le n rows ltac:(lia)). nia. }
    unfold simple_scan. cbv zeta. rewrite R2, C2. fold n cols. unfold slice_rows. rewrite slice_in by (cbn [full vrows vcols]; nia). cbn [full voff vs0 vrows vcols].
    match goal with |- context [lonlat2xyz_v _ ?v _ _ _ _] => set (vv := v) end.
    assert (A : forall i j, addr vv i j = (s * rows + i) * cols + j) by (intros; unfold addr, vv; cbn [voff vs0]; ring).
    destruct (lonlat_ok rows cols (contiguous lon) (contiguous lat) vv (v_in q)) as (xin & E1 & X1 & _); [lia|lia|cbn [vv vrows]; lia|cbn [vv vcols]; lia| |exact Hq|].
    { intros i j Hi Hj. rewrite A. cbn [contiguous bsize]. rewrite R2, C2. fold n cols. assert (0 <= s * rows) by nia. assert (s * rows + i < n) by nia. split; nia. }
    rewrite E1. cbn [bind Z.mul]. eexists. split; [reflexivity|]. exact X1.
  - cbn [Z.mul] in E. rewrite E. cbn [bind]. eexists _, _. split; [reflexivity|]. auto.
Qed.
End Any.
