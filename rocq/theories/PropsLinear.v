(** C153: interpolation is linear in the tie values. *)
From Coq Require Import ZArith QArith List Lia Bool Reals Lra Arith.
From Verif Require Import Spec Base Num Geo GeoProofs Interp PlProofs BorderProofs InterpProofs LegacyTie Chunks ChunksProofs PropsChunks PropsAnyOrder GridLinear PropsGridLinear PropsBilinear Cubic CubicProofs PropsCubic LegacyCubic SplineGrid PropsSplineGrid
  Multilinear MultilinearProofs PropsMultilinear Basic PropsBasic Vii ViiProofs PropsVii PropsScales.
Import ListNotations.
Open Scope R_scope.

(** ** Specification: w = a u + b v, element by element *)
Definition combined (n m : nat) (a b : R) (u v w : list (list R)) : Prop :=
  forall r c, (r < n)%nat -> (c < m)%nat -> at2 0 w r c = a * at2 0 u r c + b * at2 0 v r c.

(** ** Grid interpolators *)
Theorem C153_grid : forall i ys xs a b u v w y x,
  axes ys xs -> shaped (length ys) (length xs) u -> shaped (length ys) (length xs) v -> shaped (length ys) (length xs) w ->
  combined (length ys) (length xs) a b u v w -> extrapolates i \/ (PropsGridLinear.inside ys y /\ PropsGridLinear.inside xs x) ->
  exists p q, grid i (points_of ys xs) (finite u) tt (Some y) (Some x) = Some (Some p) /\
    grid i (points_of ys xs) (finite v) tt (Some y) (Some x) = Some (Some q) /\
    grid i (points_of ys xs) (finite w) tt (Some y) (Some x) = Some (Some (a * p + b * q)).
Proof.
  intros i ys xs a b u v w y x Ha Su Sv Sw C He. pose proof Ha as (Iy & Ix & Ly & Lx).
  destruct (C90_cells ys y Iy Ly) as (r & Hr). destruct (C90_cells xs x Ix Lx) as (k & Hk).
  rewrite (C90_bilinear i ys xs u r k y x Ha Su Hr Hk He), (C90_bilinear i ys xs v r k y x Ha Sv Hr Hk He), (C90_bilinear i ys xs w r k y x Ha Sw Hr Hk He).
  eexists _, _. split; [reflexivity|]. split; [reflexivity|]. do 2 f_equal. destruct Hr as [Hr _], Hk as [Hk _].
  pose proof (step_pos ys r Iy Hr). pose proof (step_pos xs k Ix Hk).
  unfold bilinear, straight_line. rewrite !C by lia. field. lra.
Qed.
Print Assumptions C153_grid.

(** ** Spline interpolators of degrees 1 and 3 *)
Theorem C153_spline : forall other i ys xs a b u v w y x,
  enough (deg_y i) ys -> enough (deg_x i) xs -> degree (deg_y i) -> degree (deg_x i) ->
  shaped (length ys) (length xs) u -> shaped (length ys) (length xs) v -> shaped (length ys) (length xs) w ->
  combined (length ys) (length xs) a b u v w ->
  exists p q, @rbs R RT other Spline i (ys, xs) (double_data u) tt y x = Some p /\ @rbs R RT other Spline i (ys, xs) (double_data v) tt y x = Some q /\
    @rbs R RT other Spline i (ys, xs) (double_data w) tt y x = Some (a * p + b * q).
Proof.
  intros other i ys xs a b u v w y x Ey Ex Dy Dx [Lu Fu] [Lv Fv] [Lw Fw] C. rewrite Forall_forall in Fu, Fv, Fw.
  unfold rbs, spline_point, double_data, astype. cbn [fst snd v_int v_data nst RT].
  eexists _, _. split; [reflexivity|]. split; [reflexivity|]. f_equal. apply axis_lin; auto; rewrite ?map_length; auto.
  intros r Hr. rewrite !(nth_map' _ _ _ []) by lia. apply axis_lin; auto; try (apply Fu, nth_In; lia); try (apply Fv, nth_In; lia); try (apply Fw, nth_In; lia).
  intros c Hc. now apply C.
Qed.
Print Assumptions C153_spline.

(** ** Interpolator of orders 1 and 3: several arrays of one object *)
Theorem C153_interpolator : forall other (st : istate R) out a b p q r, well_formed st -> hrow_indices st <> row_indices st ->
  degree (kx_ st) -> degree (ky_ st) ->
  (p < length (tie_data st))%nat -> (q < length (tie_data st))%nat -> (r < length (tie_data st))%nat ->
  combined (length (row_indices st)) (length (col_indices st)) a b (nth p (tie_data st) []) (nth q (tie_data st) []) (nth r (tie_data st) []) ->
  fst (@interpolate R RT (@spl1_with R RT other) (@spl2_with R RT other) st) = Ok out ->
  combined (length (hrow_indices st)) (length (hcol_indices st)) a b (nth p out []) (nth q out []) (nth r out []).
Proof.
  intros other st out a b p q r W Hne Dx Dy Hp Hq Hr C E. rewrite (proj1 (interpolate_spec _ _ st W)) in E. pose proof (mapM_F2 _ _ _ E) as Fo.
  assert (V : forall n, (n < length (tie_data st))%nat -> enough (kx_ st) (row_indices st) /\ enough (ky_ st) (col_indices st) /\
     shaped (length (row_indices st)) (length (col_indices st)) (nth n (tie_data st) []) /\
     nth n out [] = map (fun x => map (fun y => @axis_spline R RT (@spl2_with R RT other) (row_indices st) (map (fun r => @axis_spline R RT (@spl2_with R RT other) (col_indices st) r (ky_ st) y) (nth n (tie_data st) [])) (kx_ st) x) (hcol_indices st)) (hrow_indices st)).
  { intros n Hn. pose proof (F2_nth _ _ _ n [] [] Fo Hn) as En. cbv beta in En. set (d := nth n (tie_data st) []) in *. set (o := nth n out []) in *.
    unfold interp_one in En. destruct (array_equal (hrow_indices st) (row_indices st)) eqn:AE; [apply array_equal_eq in AE; contradiction|].
    unfold interp2d_one, rect_bivariate in En.
    destruct (strict_inc (row_indices st)) eqn:S1; [|discriminate]. cbn [negb] in En.
    destruct (strict_inc (col_indices st)) eqn:S2; [|discriminate]. cbn [negb] in En.
    destruct (Nat.eqb_spec (length (row_indices st)) (length d)) as [L1|]; [|discriminate]. cbn [negb] in En.
    destruct (forallb (fun r => Nat.eqb (length (col_indices st)) (length r)) d) eqn:L2; [|discriminate]. cbn [negb] in En.
    destruct ((1 <=? kx_ st) && (kx_ st <=? 5) && (1 <=? ky_ st) && (ky_ st <=? 5))%Z; [|discriminate]. cbn [negb] in En.
    destruct ((kx_ st <? Z.of_nat (length (row_indices st))) && (ky_ st <? Z.of_nat (length (col_indices st))))%Z eqn:K; [|discriminate]. cbn [negb] in En.
    destruct (weak_inc (hrow_indices st) && weak_inc (hcol_indices st)); [|discriminate]. cbn [negb] in En. injection En as En.
    apply andb_true_iff in K. destruct K as [K1 K2]. apply Z.ltb_lt in K1, K2.
    apply strict_inc_increasing in S1, S2. rewrite forallb_forall in L2.
    split; [split; assumption|]. split; [split; assumption|]. split; [|symmetry; exact En].
    split; [symmetry; exact L1|]. apply Forall_forall. intros l Hl. symmetry. apply Nat.eqb_eq, L2, Hl. }
  destruct (V p Hp) as (Ex & Ey & [Lu Fu] & ->). destruct (V q Hq) as (_ & _ & [Lv Fv] & ->). destruct (V r Hr) as (_ & _ & [Lw Fw] & ->).
  rewrite Forall_forall in Fu, Fv, Fw. intros y x Hy Hx.
  rewrite !(at2_grid _ (hrow_indices st) (hcol_indices st) 0 0) by assumption.
  apply axis_lin; auto; rewrite ?map_length; auto.
  intros k Hk. rewrite !(nth_map' _ _ _ []) by lia. apply axis_lin; auto; try (apply Fu, nth_In; lia); try (apply Fv, nth_In; lia); try (apply Fw, nth_In; lia).
  intros c Hc. now apply C.
Qed.
Print Assumptions C153_interpolator.

(** the same when the rows are not interpolated, for order 3 *)
Theorem C153_one_dimension : forall other (st : istate R) out a b p q r, well_formed st -> hrow_indices st = row_indices st ->
  ky_ st = 3%Z -> increasing (col_indices st) ->
  (p < length (tie_data st))%nat -> (q < length (tie_data st))%nat -> (r < length (tie_data st))%nat ->
  combined (length (row_indices st)) (length (col_indices st)) a b (nth p (tie_data st) []) (nth q (tie_data st) []) (nth r (tie_data st) []) ->
  fst (@interpolate R RT (@spl1_with R RT other) (@spl2_with R RT other) st) = Ok out ->
  combined (length (row_indices st)) (length (hcol_indices st)) a b (nth p out []) (nth q out []) (nth r out []).
Proof.
  intros other st out a b p q r W Heq Ky I Hp Hq Hr C E. rewrite (proj1 (interpolate_spec _ _ st W)) in E. pose proof (mapM_F2 _ _ _ E) as Fo.
  intros k x Hk Hx.
  assert (V : forall n, (n < length (tie_data st))%nat -> (4 <= length (col_indices st))%nat /\
     at2 0 (nth n out []) k x = @cubic_splev R RT (col_indices st) (nth k (nth n (tie_data st) []) []) (nth x (hcol_indices st) 0)).
  { intros n Hn. pose proof (F2_nth _ _ _ n [] [] Fo Hn) as En. cbv beta in En. set (d := nth n (tie_data st) []) in *. set (o := nth n out []) in *.
    unfold interp_one in En. rewrite Heq in En.
    assert (AE : forall l : list R, @array_equal R RT l l = true).
    { induction l as [|z l IH]; [reflexivity|]. cbn [array_equal]. rewrite IH, andb_true_r. cbn [neqb RT]. unfold Reqb. destruct (Req_EM_T z z); congruence. }
    rewrite AE in En. unfold interp1d_one in En. rewrite range0_map_of_nat, mapM_map in En. apply mapM_F2 in En.
    pose proof (F2_nth _ _ _ k 0%nat [] En) as Er. rewrite seq_length, Heq in Er. specialize (Er Hk). cbv beta in Er. rewrite seq_nth in Er by exact Hk. cbn [Nat.add] in Er.
    apply bind_Ok in Er. destruct Er as (dr & Ed & Er). apply (nth_res_inv _ _ _ []) in Ed. destruct Ed as [_ ->]. rewrite Nat2Z.id in Er.
    destruct (Nat.eqb_spec (length (col_indices st)) (length (nth k d []))) as [Ld|]; [|discriminate]. cbn [negb] in Er.
    rewrite Ky in Er. cbn [Z.leb Z.compare Pos.compare Pos.compare_cont andb] in Er.
    destruct (3 <? Z.of_nat (length (col_indices st)))%Z eqn:K; [|discriminate]. cbn [negb] in Er. apply Z.ltb_lt in K.
    destruct (weak_inc (col_indices st)) eqn:Wi; [|discriminate]. cbn [negb] in Er. injection Er as Er.
    split; [lia|]. unfold at2. rewrite <- Er. rewrite (nth_map' _ _ _ 0) by exact Hx. reflexivity. }
  destruct (V p Hp) as [L ->]. rewrite (proj2 (V q Hq)), (proj2 (V r Hr)). clear V E Fo.
  set (u := nth k (nth p (tie_data st) []) []). set (v := nth k (nth q (tie_data st) []) []). set (w := nth k (nth r (tie_data st) []) []).
  destruct (C99_spline (col_indices st) u I L) as (Su & Tu & _). destruct (C99_spline (col_indices st) v I L) as (Sv & Tv & _). destruct (C99_spline (col_indices st) w I L) as (_ & _ & U).
  symmetry. apply (U (fun z => a * @cubic_splev R RT (col_indices st) u z + b * @cubic_splev R RT (col_indices st) v z)); [now apply spline3_lin|].
  intros j Hj. rewrite (Tu j Hj), (Tv j Hj). symmetry. exact (C k j Hk Hj).
Qed.
Print Assumptions C153_one_dimension.

(** a run of order 3 on rational numbers: the third array is 2 times the first minus 3 times the second *)
Example C153_case : let run hrows hcols u v :=
    let w := map (fun p => map (fun q => Qred (2 * fst q - 3 * snd q)) (combine (fst p) (snd p))) (combine u v) in
    fst (@interpolate Q QT (@spl1_with Q QT (fun _ _ _ _ => 0%Q)) (@spl2_with Q QT (fun _ _ _ _ => 0%Q))
      (@make Q [u; v; w] ([0; 2]%Q, [0; 1; 2; 4]%Q) (hrows, hcols) 1 3 0)) in
  let check hrows hcols := match run hrows hcols [[1; 5; 2; 0]; [3; 1; 1; 7]]%Q [[0; 1; 0; 0]; [4; 2; 9; 1]]%Q with
    | Ok [ou; ov; ow] => combine (map (map Qred) ow) (map (fun p => map (fun q => Qred (2 * fst q - 3 * snd q)) (combine (fst p) (snd p))) (combine ou ov)) =
                         map (fun r => (r, r)) (map (map Qred) ow) /\ map (@length Q) ow = map (fun _ => length hcols) hrows
    | _ => False end in
  check [0; 1]%Q [0; 1 # 2; 3]%Q /\ check [0; 2]%Q [0; 1 # 2; 3]%Q.
Proof. vm_compute. repeat split. Qed.

(** ** Multilinear interpolation: several rows of values of one call *)
Section Multi.
#[local] Existing Instance RT.
Lemma ml_lin dims (u v w : list R) a b : length u = length w -> length v = length w ->
  (forall i, (i < length w)%nat -> nth i w 0 = a * nth i u 0 + b * nth i v 0) ->
  forall off x y, ml dims u off = Ok x -> ml dims v off = Ok y -> ml dims w off = Ok (a * x + b * y).
Proof.
  intros L1 L2 H. induction dims as [|[[l q] M] dims IH]; intros off x y; cbn [ml].
  - unfold rdi, rd1. set (k := Z.to_nat (cint off)). destruct (cint off <? 0)%Z; [discriminate|].
    destruct (nth_error u k) as [x1|] eqn:X; [|discriminate]. destruct (nth_error v k) as [y1|] eqn:Y; [|discriminate]. intros [= <-] [= <-].
    assert (K : (k < length w)%nat) by (rewrite <- L1; apply nth_error_Some; congruence).
    rewrite (nth_error_nth' w 0 K), H by exact K. now rewrite (nth_error_nth u k 0 X), (nth_error_nth v k 0 Y).
  - destruct (ml dims u (off + M * q)) as [x1|] eqn:X1; [|discriminate]. destruct (ml dims u (off + M * (q + 1))) as [x2|] eqn:X2; [|discriminate].
    destruct (ml dims v (off + M * q)) as [y1|] eqn:Y1; [|discriminate]. destruct (ml dims v (off + M * (q + 1))) as [y2|] eqn:Y2; [|discriminate].
    cbn [bind]. intros [= <-] [= <-]. rewrite (IH _ _ _ X1 Y1), (IH _ _ _ X2 Y2). cbn [bind nadd nmul nsub nz RT]. f_equal. ring.
Qed.
Theorem C153_multilinear : forall scheds empty smin smax ns values s n out a b p q r,
  (1 <= length ns <= 4)%nat -> grid_ok smin smax ns -> points_ok (length ns) n s -> few n -> run_ok n scheds empty values ->
  Forall (fun l => length l = prodn ns) values ->
  (p < length values)%nat -> (q < length values)%nat -> (r < length values)%nat ->
  (forall k, (k < prodn ns)%nat -> at2 0 values r k = a * at2 0 values p k + b * at2 0 values q k) ->
  multilinear_interpolation scheds empty smin smax (map Z.of_nat ns) values s = Ok out ->
  forall i, (i < n)%nat -> at2 0 out r i = a * at2 0 out p i + b * at2 0 out q i.
Proof.
  intros scheds empty smin smax ns values s n out a b p q r Hd (G1 & G2 & G3 & G4 & G5) Hs Hn Hr Hv Hp Hq Hrr C.
  rewrite (run_generic (length ns) n) by (rewrite ?map_length; auto using F_I). intros E i Hi. apply mapM_F2 in E. rewrite Forall_forall in Hv.
  assert (V : forall k, (k < length values)%nat -> ml (dims_of smin smax (map Z.of_nat ns) (column s i)) (nth k values []) 0 = Ok (at2 0 out k i)).
  { intros k Hk. pose proof (F2_nth _ _ _ k [] [] E Hk) as Ek. cbv beta in Ek. apply mapM_F2 in Ek. pose proof (F2_nth _ _ _ i 0%nat 0 Ek) as Ei.
    rewrite seq_length in Ei. specialize (Ei Hi). cbv beta in Ei. now rewrite seq_nth in Ei by exact Hi. }
  pose proof (Hv _ (nth_In values [] Hp)) as Lp. pose proof (Hv _ (nth_In values [] Hq)) as Lq. pose proof (Hv _ (nth_In values [] Hrr)) as Lr. cbv beta in Lp, Lq, Lr.
  pose proof (ml_lin _ _ _ (nth r values []) a b (eq_trans Lp (eq_sym Lr)) (eq_trans Lq (eq_sym Lr)) (fun k Hk => C k (eq_ind _ (fun m => (k < m)%nat) Hk _ Lr)) _ _ _ (V p Hp) (V q Hq)) as F.
  rewrite (V r Hrr) in F. now injection F.
Qed.
Print Assumptions C153_multilinear.
End Multi.

(** ** tie_points_interpolation *)
Theorem C153_vii : forall nan s f n (da db dc oa ob oc : darray (option R)) va vb vc la lb lc a b,
  produced nan la s f n da oa -> produced nan lb s f n db ob -> produced nan lc s f n dc oc ->
  ncols da = ncols dc -> ncols db = ncols dc -> finite_da da va -> finite_da db vb -> finite_da dc vc ->
  (forall i k, (i < n * s)%nat -> (k < ncols dc)%nat -> vc i k = a * va i k + b * vb i k) ->
  forall y x, (y < nrows oc)%nat -> (x < ncols oc)%nat ->
    exists p q, at_ oa y x = Some p /\ at_ ob y x = Some q /\ at_ oc y x = Some (a * p + b * q).
Proof.
  intros nan s f n da db dc oa ob oc va vb vc la lb lc a b Pa Pb Pc Ca Cb Fa Fb Fc H y x Hy Hx.
  destruct (produced_pixels _ _ _ _ _ _ _ Pc) as ((_ & M1 & M2 & _) & _ & _ & Hf & Hs). rewrite M1 in Hy. rewrite M2 in Hx.
  destruct (split_index y (s - 1) f n ltac:(lia) Hy) as (j & r & c & -> & Hj & Hr & Hc).
  destruct (split_index x 1 f (ncols dc - 1) ltac:(lia) ltac:(nia)) as (k & r' & d & -> & Hk & Hr' & Hd). assert (r' = 0)%nat as -> by lia.
  replace (k * 1 * f + 0 * f + d)%nat with (k * f + d)%nat by lia.
  rewrite (C37_bilinear nan _ _ _ _ _ _ va j r c k d Pa Fa Hj Hr Hc ltac:(lia) Hd), (C37_bilinear nan _ _ _ _ _ _ vb j r c k d Pb Fb Hj Hr Hc ltac:(lia) Hd).
  rewrite (C37_bilinear nan _ _ _ _ _ _ vc j r c k d Pc Fc Hj Hr Hc Hk Hd). cbv zeta.
  eexists _, _. split; [reflexivity|]. split; [reflexivity|]. f_equal. assert (B : (j * s + r + 1 < n * s)%nat) by nia.
  rewrite !H by lia. ring.
Qed.
Print Assumptions C153_vii.

(** ** BasicSatelliteInterpolator *)
Theorem C153_basic : forall cols rows (lat lon lat' lon' lat'' lon'' : frame R) va vo va' vo' va'' vo'' oa oo oa' oo' oa'' oo'' a b,
  indices cols -> indices rows -> ties cols rows lat va -> ties cols rows lon vo -> ties cols rows lat' va' -> ties cols rows lon' vo' ->
  ties cols rows lat'' va'' -> ties cols rows lon'' vo'' ->
  (forall p q, (0 <= p < lenz rows)%Z -> (0 <= q < lenz cols)%Z -> va'' p q = a * va p q + b * va' p q /\ vo'' p q = a * vo p q + b * vo' p q) ->
  @basic_interpolate R RT true cols rows lat lon = Ok (oa, oo) -> @basic_interpolate R RT true cols rows lat' lon' = Ok (oa', oo') ->
  @basic_interpolate R RT true cols rows lat'' lon'' = Ok (oa'', oo'') ->
  forall p q i j, (0 <= p)%Z -> (p + 1 < lenz rows)%Z -> (0 <= q)%Z -> (q + 1 < lenz cols)%Z ->
    (nthz rows p <= i <= nthz rows (p + 1))%Z -> (nthz cols q <= j <= nthz cols (q + 1))%Z ->
    exists x x' y y', f_at oa i j = Some x /\ f_at oa' i j = Some x' /\ f_at oa'' i j = Some (a * x + b * x') /\
      f_at oo i j = Some y /\ f_at oo' i j = Some y' /\ f_at oo'' i j = Some (a * y + b * y').
Proof.
  intros cols rows lat lon lat' lon' lat'' lon'' va vo va' vo' va'' vo'' oa oo oa' oo' oa'' oo'' a b Hc Hr T1 T2 T3 T4 T5 T6 C E1 E2 E3 p q i j Hp Hp1 Hq Hq1 Hi Hj.
  destruct (C59_bilinear _ _ _ _ _ _ _ _ Hc Hr T1 T2 E1 p q i j Hp Hp1 Hq Hq1 Hi Hj) as [A1 A2].
  destruct (C59_bilinear _ _ _ _ _ _ _ _ Hc Hr T3 T4 E2 p q i j Hp Hp1 Hq Hq1 Hi Hj) as [B1 B2].
  destruct (C59_bilinear _ _ _ _ _ _ _ _ Hc Hr T5 T6 E3 p q i j Hp Hp1 Hq Hq1 Hi Hj) as [D1 D2]. cbv zeta in *.
  eexists _, _, _, _. split; [exact A1|]. split; [exact B1|]. split; [|split; [exact A2|split; [exact B2|]]]; [rewrite D1|rewrite D2]; f_equal; unfold lerp, Rdiv.
  - rewrite !(fun p q Hp Hq => proj1 (C p q Hp Hq)) by lia. ring.
  - rewrite !(fun p q Hp Hq => proj2 (C p q Hp Hq)) by lia. ring.
Qed.
Print Assumptions C153_basic.
