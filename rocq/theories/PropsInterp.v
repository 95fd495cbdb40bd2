(** C04 - C09, C14: _linear_extrapolate, fill_borders, interpolate. *)
From Coq Require Import ZArith QArith List Lia Bool Reals Lra.
From Verif Require Import Spec Base Num Splits Interp Legacy BorderProofs InterpProofs LegacyInst.
Import ListNotations.
#[local] Existing Instance RT.
Open Scope R_scope.

(** C04 *)
Theorem C04_linear_extrapolate : forall p0 p1 d0 d1 x,
  p0 <> p1 -> length d0 = length d1 ->
  exists r, linear_extrapolate [p0; p1] [d0; d1] x = Ok r /\ length r = length d0 /\
    (forall i, (i < length d0)%nat -> nth i r 0 = straight_line p0 (nth i d0 0) p1 (nth i d1 0) x).
Proof. exact linear_extrapolate_line. Qed.
Print Assumptions C04_linear_extrapolate.

Theorem C04_at_first_tie : forall p0 p1 d0 d1,
  p0 <> p1 -> length d0 = length d1 -> linear_extrapolate [p0; p1] [d0; d1] p0 = Ok d0.
Proof. exact linear_extrapolate_first. Qed.
Print Assumptions C04_at_first_tie.
Theorem C04_at_second_tie : forall p0 p1 d0 d1,
  p0 <> p1 -> length d0 = length d1 -> linear_extrapolate [p0; p1] [d0; d1] p1 = Ok d1.
Proof. exact linear_extrapolate_second. Qed.
Print Assumptions C04_at_second_tie.

Theorem C04_wrong_number : forall {T} {N : NumOps T} (pos : list T) (data : list (list T)) x,
  length pos <> 2%nat \/ length data <> 2%nat -> linear_extrapolate pos data x = Err ValueError.
Proof. exact @linear_extrapolate_bad. Qed.
Print Assumptions C04_wrong_number.

(** the straight line is the only affine function through both points *)
Theorem C04_line_unique : forall p0 p1 d0 d1 a b, p0 <> p1 ->
  a * p0 + b = d0 -> a * p1 + b = d1 -> forall x, straight_line p0 d0 p1 d1 x = a * x + b.
Proof. intros p0 p1 d0 d1 a b H <- <- x. unfold straight_line. field. lra. Qed.
Print Assumptions C04_line_unique.

(** the doctest of interpolator.py:35-45 *)
Example C04_doctest :
  @linear_extrapolate _ QT [1%Q; 2%Q] [[0; 2; 4; 6; 8]; [1; 3; 5; 7; 9]]%Q 5%Q = Ok [4; 6; 8; 10; 12]%Q /\
  @linear_extrapolate _ QT [1%Q; 2%Q] [[0; 2; 4; 6; 8]; [1; 3; 5; 7; 9]]%Q 0%Q = Ok [(-1)%Q; 1; 3; 5; 7]%Q.
Proof. split; vm_compute; reflexivity. Qed.
Example C04_nonvacuous : 1 <> 2 /\ straight_line 1 0 2 1 5 = 4.
Proof. split; [lra|unfold straight_line; field]. Qed.

(** C05 *)
Theorem C05_fill_x : forall (st : istate R),
  let cols := col_indices st in let hcols := hcol_indices st in
  let h0 := hd 0 hcols in let h1 := last hcols 0 in
  (2 <= length cols)%nat -> hcols <> [] ->
  nth 0 cols 0 <> nth 1 cols 0 -> nth (length cols - 2) cols 0 <> nth (length cols - 1) cols 0 ->
  Forall (Forall (fun r => length r = length cols)) (tie_data st) ->
  exists st' pre post,
    fill_borders [DimX] st = (Ok tt, st') /\
    col_indices st' = pre ++ cols ++ post /\
    hd 0 (col_indices st') = h0 /\ last (col_indices st') 0 = h1 /\
    (hd 0 cols = h0 -> pre = []) /\ (hd 0 cols <> h0 -> pre = [h0]) /\
    (last cols 0 = h1 -> post = []) /\ (last cols 0 <> h1 -> post = [h1]) /\
    Forall2 (Forall2 (fun r r' => exists rp rq, r' = rp ++ r ++ rq /\
        length rp = length pre /\ Forall (fun v => v = line_first cols r h0) rp /\
        length rq = length post /\ Forall (fun v => v = line_last cols r h1) rq))
      (tie_data st) (tie_data st') /\
    row_indices st' = row_indices st /\ hrow_indices st' = hrow_indices st /\ hcol_indices st' = hcol_indices st /\
    chunk_size st' = chunk_size st /\ kx_ st' = kx_ st /\ ky_ st' = ky_ st /\ new_data st' = new_data st.
Proof. exact fill_x_spec. Qed.
Print Assumptions C05_fill_x.

(** the columns of test_interpolator.py (2, 7, ..., with targets 0..., first and last column missing), run on rationals *)
Definition c05_q : istate Q :=
  @make Q [[[0; 2; 4; 6; 8]; [1; 3; 5; 7; 9]]]%Q
    ([0; 1]%Q, [2; 7; 12; 17; 22]%Q) ([0; 1]%Q, [0; 1; 22; 23]%Q) 1 3 0.
Example C05_run : fst (@fill_borders _ QT [DimX] c05_q) = Ok tt /\
  tie_data (snd (@fill_borders _ QT [DimX] c05_q)) =
   [[[(-4 # 5)%Q; 0; 2; 4; 6; 8; (42 # 5)%Q]; [(1 # 5)%Q; 1; 3; 5; 7; 9; (47 # 5)%Q]]]%Q /\
  col_indices (snd (@fill_borders _ QT [DimX] c05_q)) = [0; 2; 7; 12; 17; 22; 23]%Q.
Proof. repeat split; vm_compute; reflexivity. Qed.

Definition c05_st : istate R :=
  make [[[0; 2; 4]; [1; 3; 5]]] ([0; 1], [2; 7; 12]) ([0; 1], [0; 6; 12]) 1 3 0.
Example C05_nonvacuous :
  (2 <= length (col_indices c05_st))%nat /\ hcol_indices c05_st <> [] /\
  nth 0 (col_indices c05_st) 0 <> nth 1 (col_indices c05_st) 0 /\
  nth (length (col_indices c05_st) - 2) (col_indices c05_st) 0 <> nth (length (col_indices c05_st) - 1) (col_indices c05_st) 0 /\
  Forall (Forall (fun r => length r = length (col_indices c05_st))) (tie_data c05_st) /\
  hd 0 (col_indices c05_st) <> hd 0 (hcol_indices c05_st) /\ last (col_indices c05_st) 0 = last (hcol_indices c05_st) 0.
Proof.
  cbn. split; [lia|]. split; [discriminate|]. split; [lra|]. split; [lra|].
  split; [repeat constructor|]. split; [lra|reflexivity].
Qed.

(** C06 *)
Theorem C06_fill_x_idempotent : forall (st st' : istate R),
  fill_borders [DimX] st = (Ok tt, st') -> fill_borders [DimX] st' = (Ok tt, st').
Proof. exact fill_x_idempotent. Qed.
Print Assumptions C06_fill_x_idempotent.
Example C06_nonvacuous : exists st', fill_borders [DimX] c05_st = (Ok tt, st') /\ st' <> c05_st.
Proof.
  destruct C05_nonvacuous as (H1 & H2 & H3 & H4 & H5 & H6 & H7).
  destruct (C05_fill_x c05_st H1 H2 H3 H4 H5) as (st' & pre & post & E & Ec & _ & _ & _ & Hp & _).
  exists st'. split; [exact E|]. intros ->. apply (f_equal (@length R)) in Ec.
  rewrite (Hp H6) in Ec. rewrite !app_length in Ec. cbn in Ec. lia.
Qed.

(** C07 *)
Theorem C07_unknown_dimension : forall {T} {N : NumOps T} (args : list dim) (st : istate T),
  In DimOther args -> fill_borders args st = (Err NameError, st).
Proof. exact @fill_borders_unknown. Qed.
Print Assumptions C07_unknown_dimension.
Example C07_nonvacuous : fill_borders [DimX; DimOther] c05_st = (Err NameError, c05_st) /\
  exists st', fill_borders [DimX] c05_st = (Ok tt, st') /\ st' <> c05_st.
Proof. split; [reflexivity|exact C06_nonvacuous]. Qed.

(** C08 *)
Theorem C08_fill_y_chunkwise : forall (g m k w : nat) (delta o : R) (cols hcols : list R) (ky : Z) (nd : list (mat R))
    (data : list (list (mat R))),
  let pos (i : nat) : R := IZR (Z.of_nat i) + delta in
  let hpos (j : nat) : R := (IZR (Z.of_nat j) - o) / IZR (Z.of_nat g) in
  (1 <= g)%nat -> (2 <= m)%nat -> (1 <= k)%nat -> 0 <= delta < 1 ->
  Forall (fun blocks => length blocks = k /\ Forall (shaped m w) blocks) data ->
  exists st' data',
    fill_borders [DimY] (mkI (map pos (seq 0 (k * m))) cols (map hpos (seq 0 (g * (k * m)))) hcols
                             (Z.of_nat (g * m)) (map (@concat _) data) 1 ky nd) = (Ok tt, st') /\
    row_indices st' = concat (map (fun c => hpos (c * (g * m))%nat :: map pos (seq (c * m) m) ++ [hpos (c * (g * m) + g * m - 1)%nat]) (seq 0 k)) /\
    tie_data st' = map (@concat _) data' /\
    Forall2 (fun blocks blocks' => length blocks' = k /\ forall c, (c < k)%nat ->
       exists f l, nth c blocks' [] = f :: nth c blocks [] ++ [l] /\ length f = w /\ length l = w /\
         forall j, (j < w)%nat ->
           nth j f 0 = straight_line (pos (c * m)%nat) (at2 0 (nth c blocks []) 0 j)
                                     (pos (c * m + 1)%nat) (at2 0 (nth c blocks []) 1 j) (hpos (c * (g * m))%nat) /\
           nth j l 0 = straight_line (pos (c * m + m - 2)%nat) (at2 0 (nth c blocks []) (m - 2) j)
                                     (pos (c * m + m - 1)%nat) (at2 0 (nth c blocks []) (m - 1) j)
                                     (hpos (c * (g * m) + g * m - 1)%nat))
      data data' /\
    col_indices st' = cols /\ hcol_indices st' = hcols /\ hrow_indices st' = map hpos (seq 0 (g * (k * m))) /\
    chunk_size st' = Z.of_nat (g * m) /\ ky_ st' = ky /\ new_data st' = nd.
Proof. exact fill_y_spec. Qed.
Print Assumptions C08_fill_y_chunkwise.
Example C08_nonvacuous :
  (1 <= 5)%nat /\ (2 <= 2)%nat /\ (1 <= 2)%nat /\ 0 <= 2 / 5 < 1 /\
  Forall (fun blocks => length blocks = 2%nat /\ Forall (shaped 2 1) blocks) [ [ [[1]; [2]]; [[4]; [8]] ] ].
Proof. repeat split; try lia; try lra; repeat constructor. Qed.
(** the same case, run on rationals *)
Example C08_run :
  tie_data (snd (@fill_borders _ QT [DimY]
     (mkI [2 # 5; 7 # 5; 12 # 5; 17 # 5]%Q [] (map (fun j => inject_Z (Z.of_nat j) / 5)%Q (seq 0 20)) [] 10 [[[1]; [2]; [4]; [8]]%Q] 1 3 [])))
  = [[[(3 # 5)%Q]; [1%Q]; [2%Q]; [(12 # 5)%Q]; [(12 # 5)%Q]; [4%Q]; [8%Q]; [(48 # 5)%Q]]].
Proof. vm_compute. reflexivity. Qed.

(** C09. [rows_covered g m k st]: the row positions are strictly increasing, and the targets of scan c lie
    between the first and the last filled row of scan c. *)
Theorem C09_rows_modis5km : forall k (data : list (mat R)), (1 <= k)%nat -> Forall (shaped (k * 2) 271) data ->
  exists st', fill_borders [DimY; DimX] (modis5km_grid (Z.of_nat (k * 2)) data) = (Ok tt, st') /\ rows_covered 5 2 k st'.
Proof.
  intros k data Hk HS. rewrite grid5_st0.
  destruct (fill_legacy_ok 5 2 k (2 / 5) 0 cols5 hcols5 3 (map (fun _ => []) data) data) as [st' E]; try lia; try lra.
  - rewrite len_cols5. lia.
  - apply Hn_ne. lia.
  - now rewrite len_cols5.
  - exists st'. split; [exact E|]. eapply layout_covered; [..|exact E]; auto using c5_first, c5_last; try lia; try lra.
    eapply Forall_impl; [|exact HS]. intros d Hd. apply Hd.
Qed.
Print Assumptions C09_rows_modis5km.
Theorem C09_rows_modis500m : forall k (data : list (mat R)), (1 <= k)%nat -> Forall (shaped (k * 10) 1354) data ->
  exists st', fill_borders [DimY; DimX] (modis500m_grid (Z.of_nat (k * 10)) data) = (Ok tt, st') /\ rows_covered 2 10 k st'.
Proof.
  intros k data Hk HS. rewrite grid500_st0.
  destruct (fill_legacy_ok 2 10 k 0 (1 / 2) cols1 hcols500 3 (map (fun _ => []) data) data) as [st' E]; try lia; try lra.
  - rewrite len_cols1. lia.
  - apply Hn_ne. lia.
  - now rewrite len_cols1.
  - exists st'. split; [exact E|]. eapply layout_covered; [..|exact E]; auto using c500_first, c500_last; try lia; try lra.
    eapply Forall_impl; [|exact HS]. intros d Hd. apply Hd.
Qed.
Print Assumptions C09_rows_modis500m.
Theorem C09_rows_modis250m : forall k (data : list (mat R)), (1 <= k)%nat -> Forall (shaped (k * 10) 1354) data ->
  exists st', fill_borders [DimY; DimX] (modis250m_grid (Z.of_nat (k * 10)) data) = (Ok tt, st') /\ rows_covered 4 10 k st'.
Proof.
  intros k data Hk HS. rewrite grid250_st0.
  destruct (fill_legacy_ok 4 10 k 0 (3 / 2) cols1 hcols250 3 (map (fun _ => []) data) data) as [st' E]; try lia; try lra.
  - rewrite len_cols1. lia.
  - apply Hn_ne. lia.
  - now rewrite len_cols1.
  - exists st'. split; [exact E|]. eapply layout_covered; [..|exact E]; auto using c250_first, c250_last; try lia; try lra.
    eapply Forall_impl; [|exact HS]. intros d Hd. apply Hd.
Qed.
Print Assumptions C09_rows_modis250m.
Lemma shaped_repeat {A} (a : A) n w : shaped n w (repeat (repeat a w) n).
Proof.
  split; [apply repeat_length|]. apply Forall_forall. intros r Hr. apply repeat_spec in Hr. subst. apply repeat_length.
Qed.
Example C09_nonvacuous : Forall (shaped (3 * 2) 271) [repeat (repeat 1 271) (3 * 2); repeat (repeat 7 271) (3 * 2)].
Proof. repeat constructor; apply shaped_repeat. Qed.

(** C14 *)
Theorem C14_interpolate_repeatable : forall {T} {N : NumOps T} (spl1 spl2 : list T -> list T -> Z -> T -> T)
    (n : nat) (st : istate T), well_formed st ->
  fst (interpolate spl1 spl2 (after_calls spl1 spl2 n st)) = fst (interpolate spl1 spl2 st) /\
  same_inputs (after_calls spl1 spl2 n st) st.
Proof. intros T N. exact interpolate_repeat. Qed.
Print Assumptions C14_interpolate_repeatable.
Theorem C14_depends_on_inputs_only : forall {T} {N : NumOps T} (spl1 spl2 : list T -> list T -> Z -> T -> T) (a b : istate T),
  well_formed a -> well_formed b -> same_inputs a b -> fst (interpolate spl1 spl2 a) = fst (interpolate spl1 spl2 b).
Proof. intros T N. exact interpolate_inputs. Qed.
Print Assumptions C14_depends_on_inputs_only.
(** every interpolator made by the constructor, filled in any way, is well formed *)
Theorem C14_well_formed : forall {T} {N : NumOps T} data tg fg kx ky chunk args,
  well_formed (snd (fill_borders args (@make T data tg fg kx ky chunk))).
Proof. intros. apply fill_borders_well_formed, make_well_formed. Qed.
Print Assumptions C14_well_formed.
Definition c14_st : istate R :=
  make [[[0; 2; 4]; [1; 3; 5]]] ([0; 1], [2; 7; 12]) ([0; 1], [0; 6; 12]) 1 1 0.
Example C14_nonvacuous : well_formed c14_st /\
  fst (interpolate (fun _ _ _ x => x) (fun _ _ _ x => x) c14_st) = Ok [[[0; 6; 12]; [0; 6; 12]]].
Proof.
  split; [reflexivity|]. unfold interpolate, c14_st, make. cbn [tie_data interp_loop].
  unfold interp_one. cbn [hrow_indices row_indices fst snd]. rewrite LegacyTie.array_equal_refl.
  unfold interp1d_one. cbn. unfold Rleb.
  destruct (Rle_dec 2 7); [|lra]. destruct (Rle_dec 7 12); [|lra]. reflexivity.
Qed.
