(** C157: pixels stay near the tie points around them. *)
From Coq Require Import ZArith List Lia Bool Reals Lra Arith.
From Verif Require Import Spec Base Num Geo GeoProofs Interp Legacy LegacyTie Chunks ChunksProofs PropsChunks GridLinear PropsGridLinear SimpleModis SimpleModisReal Modis Vii ViiProofs Cubic PropsCubic PropsSplineGrid.
From Verif Require Import PropsGeo PropsVii PropsInterp PropsLegacy PropsLegacyRows PropsAccuracy PropsSimple PropsGround PropsScanAcc.
Import ListNotations.
Open Scope Z_scope.
Open Scope R_scope.

(** ** Specification *)
(** a point on the ground, and tie points at most d away from it; not so close to the antimeridian that the pixel may lie exactly on it (C18) *)
Definition landmark (r : R) (P : R * R * R) (d : R) : Prop :=
  on_sphere r P /\ (d < Rabs (snd (fst P)) \/ d < fst (fst P)).

(** ** Proof *)
Lemma scaled a x y z : sqrt ((a * x) ^ 2 + (a * y) ^ 2 + (a * z) ^ 2) = Rabs a * sqrt (x ^ 2 + y ^ 2 + z ^ 2).
Proof.
  rewrite <- (sqrt_Rsqr_abs a). rewrite <- sqrt_mult_alt by apply Rle_0_sqr. f_equal. unfold Rsqr. ring.
Qed.
Lemma mixed t x y z x' y' z' P d k : distance (x, y, z) P <= d -> distance (x', y', z') P <= d -> Rabs (1 - t) + Rabs t <= k ->
  distance ((1 - t) * x + t * x', (1 - t) * y + t * y', (1 - t) * z + t * z') P <= k * d.
Proof.
  destruct P as [[X Y] Z]. intros A B K.
  assert (D0 : 0 <= d) by (eapply Rle_trans; [apply distance_pos|exact A]). unfold distance in *.
  pose proof (norm_triangle ((1 - t) * (x - X)) ((1 - t) * (y - Y)) ((1 - t) * (z - Z)) (t * (x' - X)) (t * (y' - Y)) (t * (z' - Z))) as T. rewrite !scaled in T.
  replace ((1 - t) * x + t * x' - X) with ((1 - t) * (x - X) + t * (x' - X)) by ring.
  replace ((1 - t) * y + t * y' - Y) with ((1 - t) * (y - Y) + t * (y' - Y)) by ring.
  replace ((1 - t) * z + t * z' - Z) with ((1 - t) * (z - Z) + t * (z' - Z)) by ring.
  assert (M1 := Rmult_le_compat_l _ _ _ (Rabs_pos (1 - t)) A). assert (M2 := Rmult_le_compat_l _ _ _ (Rabs_pos t) B).
  assert (M3 := Rmult_le_compat_r d _ _ D0 K). lra.
Qed.
(** four points, weights t and u *)
Definition four (t u : R) (f : bool -> bool -> R) : R := (1 - t) * ((1 - u) * f false false + u * f false true) + t * ((1 - u) * f true false + u * f true true).
Lemma mixed4 t u (fx fy fz : bool -> bool -> R) P d k k' : (forall a b, distance (fx a b, fy a b, fz a b) P <= d) ->
  Rabs (1 - t) + Rabs t <= k -> Rabs (1 - u) + Rabs u <= k' ->
  distance (four t u fx, four t u fy, four t u fz) P <= k * (k' * d).
Proof. intros H K K'. unfold four. apply mixed; [| |exact K]; (apply mixed; [apply H|apply H|exact K']). Qed.

Lemma landed r x y z P d e : 0 < r -> landmark r P e -> distance (x, y, z) P <= d -> d <= e -> d <= r / 100 ->
  exists lon lat, @xyz2lonlat_at _ RN (Some r) (Some (8 / 10)) true (Some x, Some y, Some z) = (Some lon, Some lat) /\ distance (ground r lon lat) P <= 4 * d.
Proof.
  destruct P as [[X Y] Z]. intros Hr [S L] D De Dr. cbn [fst snd] in L. apply C112_ground; auto.
  assert (Dy : Rabs (y - Y) <= d).
  { eapply Rle_trans; [|exact D]. unfold distance. rewrite <- (sqrt_Rsqr_abs (y - Y)). apply sqrt_le_1_alt. unfold Rsqr. pose proof (pow2_ge_0 (x - X)). pose proof (pow2_ge_0 (z - Z)). lra. }
  assert (Dx : Rabs (x - X) <= d).
  { eapply Rle_trans; [|exact D]. unfold distance. rewrite <- (sqrt_Rsqr_abs (x - X)). apply sqrt_le_1_alt. unfold Rsqr. pose proof (pow2_ge_0 (y - Y)). pose proof (pow2_ge_0 (z - Z)). lra. }
  apply Rabs_le_inv in Dx, Dy. destruct L as [L|L]; [left|right; lra]. intros ->. unfold Rabs in L. destruct (Rcase_abs Y); lra.
Qed.
Lemma inner_weights t : 0 <= t <= 1 -> Rabs (1 - t) + Rabs t <= 1.
Proof. intros H. rewrite !Rabs_pos_eq by lra. lra. Qed.

(** ** GeoGridInterpolator *)
Theorem C157_grid : forall i ys xs lons lats fy fx,
  axes ys xs -> Spec.shaped (length ys) (length xs) lons -> Spec.shaped (length ys) (length xs) lats -> Forall (inside ys) fy -> Forall (inside xs) fx ->
  exists olon olat, geo_grid i ys xs lons lats fy fx = Ok (olon, olat) /\
    forall m n r c P d, (m < length fy)%nat -> (n < length fx)%nat -> (S r < length ys)%nat -> (S c < length xs)%nat ->
      nth r ys 0 <= nth m fy 0 <= nth (S r) ys 0 -> nth c xs 0 <= nth n fx 0 <= nth (S c) xs 0 ->
      landmark earth P d -> d <= earth / 100 ->
      (forall a b, a = r \/ a = S r -> b = c \/ b = S c -> distance (ground earth (at2 0 lons a b) (at2 0 lats a b)) P <= d) ->
      exists lon lat, at2 None olon m n = Some lon /\ at2 None olat m n = Some lat /\ distance (ground earth lon lat) P <= 4 * d.
Proof.
  intros i ys xs lons lats fy fx Ha S1 S2 Iy Ix.
  destruct (C91_position i ys xs lons lats fy fx Ha S1 S2 (or_intror (conj Iy Ix))) as (olon & olat & E & _ & _ & Px). destruct Ha as (Uy & Ux & Ly & Lx).
  exists olon, olat. split; [exact E|]. intros m n r c P d Hm Hn Hr Hc Hy Hx L Hd H.
  specialize (Px m n r c Hm Hn (conj Hr (conj (or_intror (proj1 Hy)) (or_intror (proj2 Hy)))) (conj Hc (conj (or_intror (proj1 Hx)) (or_intror (proj2 Hx))))). cbv beta zeta in Px.
  destruct (line_weights (nth r ys 0) (nth (S r) ys 0) (nth m fy 0) ltac:(apply Uy; lia) Hy) as (t & Ht & Et).
  destruct (line_weights (nth c xs 0) (nth (S c) xs 0) (nth n fx 0) ltac:(apply Ux; lia) Hx) as (u & Hu & Eu).
  set (row := fun a : bool => if a then S r else r). set (col := fun b : bool => if b then S c else c).
  assert (B : forall g, PropsGridLinear.bilinear ys xs (fun a b => g (PropsGridLinear.tie_xyz lons lats a b)) r c (nth m fy 0) (nth n fx 0) =
    four t u (fun a b => g (PropsGridLinear.tie_xyz lons lats (row a) (col b)))).
  { intros g. unfold PropsGridLinear.bilinear. cbv zeta. rewrite Et, !Eu. reflexivity. }
  rewrite !(B (fun p => fst (fst p))), !(B (fun p => snd (fst p))), !(B snd) in Px.
  pose proof (mixed4 t u (fun a b => fst (fst (PropsGridLinear.tie_xyz lons lats (row a) (col b)))) (fun a b => snd (fst (PropsGridLinear.tie_xyz lons lats (row a) (col b))))
    (fun a b => snd (PropsGridLinear.tie_xyz lons lats (row a) (col b))) P d 1 1) as D.
  assert (D' := D ltac:(intros a b; unfold PropsGridLinear.tie_xyz; rewrite legacy_place; cbn [fst snd]; apply (H (row a) (col b)); [destruct a|destruct b]; auto) (inner_weights t Ht) (inner_weights u Hu)). clear D.
  destruct (landed earth _ _ _ P _ d ltac:(unfold earth; lra) L D' ltac:(lra) ltac:(lra)) as (lon & lat & E1 & G).
  exists lon, lat. unfold xyz2lonlat, EARTH_RADIUS in Px. cbn [nz RN ndiv] in Px. rewrite RNdiv_some in Px by lra. fold earth in Px. rewrite E1 in Px.
  apply pair_inj in Px. destruct Px as [-> ->]. split; [reflexivity|]. split; [reflexivity|lra].
Qed.
Print Assumptions C157_grid.

(** ** The simple MODIS interpolation: also the pixels beyond the outermost tie points, by the factor of C125 *)
Lemma outer_weights n c x : (0 <= c <= n - 2)%Z -> (c = 0%Z \/ IZR c <= x) -> (c = (n - 2)%Z \/ x <= IZR c + 1) ->
  Rabs (1 - (x - IZR c)) + Rabs (x - IZR c) <= 1 + 2 * overhang n x.
Proof.
  intros Hc A B. unfold overhang.
  pose proof (Rmax_l 0 (Rmax (- x) (x - IZR (n - 1)))) as O1. pose proof (Rmax_r 0 (Rmax (- x) (x - IZR (n - 1)))) as O2.
  pose proof (Rmax_l (- x) (x - IZR (n - 1))) as O3. pose proof (Rmax_r (- x) (x - IZR (n - 1))) as O4.
  destruct (Rlt_dec x (IZR c)) as [L|L].
  - destruct A as [->|A]; [|lra]. rewrite (Rabs_pos_eq (1 - _)), (Rabs_left (x - _)) by lra. lra.
  - destruct (Rlt_dec (IZR c + 1) x) as [M|M].
    + destruct B as [->|B]; [|lra]. rewrite (Rabs_left (1 - _)), (Rabs_pos_eq (x - _)) by lra. rewrite !minus_IZR in *. lra.
    + rewrite !Rabs_pos_eq by lra. lra.
Qed.
Theorem C157_simple : forall k g dt n w (lon lat olon olat : ndarray (option R)) (lo la : Z -> Z -> R) s,
  dt <> OtherDtype -> (2 <= w)%Z -> shaped2 dt n w lon lat ->
  (forall a b, (0 <= a < n)%Z -> (0 <= b < w)%Z -> aat lon a b = Some (lo a b) /\ aat lat a b = Some (la a b)) ->
  @simple _ RN k g lon lat = Ok (olon, olat) -> (0 <= s)%Z -> ((s + 1) * 10 <= n)%Z ->
  forall r i A C P d, (0 <= r < fac2 k * 10)%Z -> (0 <= i < fac2 k * w)%Z -> let y := row_pos k r in let x := col_pos k i in
    (0 <= A <= 8)%Z -> (A = 0%Z \/ IZR A <= y) -> (A = 8%Z \/ y <= IZR A + 1) ->
    (0 <= C <= w - 2)%Z -> (C = 0%Z \/ IZR C <= x) -> (C = (w - 2)%Z \/ x <= IZR C + 1) ->
    let e := (1 + 2 * overhang 10 y) * ((1 + 2 * overhang w x) * d) in landmark 6370997 P e -> e <= 6370997 / 100 ->
    (forall a b, (a = A \/ a = A + 1)%Z -> (b = C \/ b = C + 1)%Z -> distance (ground 6370997 (lo (s * 10 + a)%Z b) (la (s * 10 + a)%Z b)) P <= d) ->
    exists l p, aat olon (s * (fac2 k * 10) + r)%Z i = Some l /\ aat olat (s * (fac2 k * 10) + r)%Z i = Some p /\
      distance (ground 6370997 l p) P <= 4 * e.
Proof.
  intros k g dt n w lon lat olon olat lo la s Hdt Hw S F O Hs Hsn r i A C P d Hr Hi y x HA A1 A2 HC C1 C2 e L He H.
  pose proof (C56_bilinear k g dt n w lon lat olon olat lo la Hdt Hw S F O s r i Hs Hsn Hr Hi) as Q. cbv beta zeta in Q. fold y x in Q.
  set (row := fun a : bool => if a then (A + 1)%Z else A). set (col := fun b : bool => if b then (C + 1)%Z else C).
  assert (B : forall coordinate : R -> R -> R, PropsSimple.bilinear 10 w (fun a b => coordinate (lo (s * 10 + a)%Z b) (la (s * 10 + a)%Z b)) y x =
    four (y - IZR A) (x - IZR C) (fun a b => coordinate (lo (s * 10 + row a)%Z (col b)) (la (s * 10 + row a)%Z (col b)))).
  { intros coordinate. unfold PropsSimple.bilinear. rewrite (pwl_piece 10 _ y A) by (assumption || lia). rewrite !(pwl_piece w _ x C) by assumption. unfold four, row, col. ring. }
  rewrite !(B at_x), !(B at_y), !(B at_z) in Q.
  pose proof (mixed4 (y - IZR A) (x - IZR C) (fun a b => at_x (lo (s * 10 + row a)%Z (col b)) (la (s * 10 + row a)%Z (col b)))
    (fun a b => at_y (lo (s * 10 + row a)%Z (col b)) (la (s * 10 + row a)%Z (col b))) (fun a b => at_z (lo (s * 10 + row a)%Z (col b)) (la (s * 10 + row a)%Z (col b))) P d
    (1 + 2 * overhang 10 y) (1 + 2 * overhang w x)) as D.
  assert (D' := D ltac:(intros a b; apply (H (row a) (col b)); [destruct a|destruct b]; unfold row, col; auto) (outer_weights 10 A y ltac:(lia) A1 A2) (outer_weights w C x HC C1 C2)). clear D. fold e in D'.
  destruct (landed 6370997 _ _ _ P e e ltac:(lra) L D' ltac:(lra) He) as (l & p & E1 & G).
  exists l, p. rewrite C20_cython_partial in Q. unfold EARTH_RADIUS in Q. cbn [nz RN] in Q. rewrite E1 in Q. apply pair_inj in Q. destruct Q as [-> ->]. auto.
Qed.
Print Assumptions C157_simple.

(** ** tie_points_geo_interpolation by way of cartesian coordinates *)
Theorem C157_vii : forall nan lon lat vlon vlat s f n_scans thr,
  finite_da lon vlon -> finite_da lat vlat -> args_ok [lon; lat] s f n_scans -> ~ safe_lonlat lon vlon vlat thr ->
  exists olon olat, @tie_points_geo_interpolation _ RN nan lon lat s f (Some thr) (Some (8 / 10)) = Ok (olon, olat) /\
    forall j r a c b P d, (j < n_scans)%nat -> (r < s - 1)%nat -> (a < f)%nat -> (c < ncols lon - 1)%nat -> (b < f)%nat ->
      landmark mean_earth P d -> d <= mean_earth / 100 ->
      (forall di dc, (di <= 1)%nat -> (dc <= 1)%nat -> distance (ground mean_earth (vlon (j * s + r + di)%nat (c + dc)%nat) (vlat (j * s + r + di)%nat (c + dc)%nat)) P <= d) ->
      exists l p, at_ olon (j * (s - 1) * f + r * f + a)%nat (c * f + b)%nat = Some l /\ at_ olat (j * (s - 1) * f + r * f + a)%nat (c * f + b)%nat = Some p /\
        distance (ground mean_earth l p) P <= 4 * d.
Proof.
  intros nan lon lat vlon vlat s f n_scans thr F1 F2 Ha Hs.
  destruct (C39_cartesian_when_unsafe nan lon lat vlon vlat s f n_scans thr (Some (8 / 10)) F1 F2 Ha Hs)
    as (x & y & z & ox & oy & oz & olon & olat & Exyz & X1 & X2 & Y1 & Y2 & Z1 & Z2 & Px & Py & Pz & E & _ & _ & O).
  exists olon, olat. split; [exact E|]. intros j r a c b P d Hj Hr Hfa Hc Hfb L Hd H.
  assert (HN : nrows lon = (n_scans * s)%nat) by (destruct Ha as (first & rest & E1 & _ & _ & _ & Hn & _); now injection E1 as <- <-).
  set (pos := fun i k => ground mean_earth (vlon i k) (vlat i k)).
  assert (Fin : finite_da x (fun i k => fst (fst (pos i k))) /\ finite_da y (fun i k => snd (fst (pos i k))) /\ finite_da z (fun i k => snd (pos i k))).
  { split; [|split]; intros i k Hi Hk; rewrite ?X1, ?Y1, ?Z1 in Hi; rewrite ?X2, ?Y2, ?Z2 in Hk; specialize (Exyz i k Hi Hk); rewrite vii_lonlat2xyz_RN in Exyz; injection Exyz as E1 E2 E3; assumption. }
  destruct Fin as (Gx & Gy & Gz).
  pose proof (C37_bilinear nan _ s f n_scans x ox _ j r a c b Px Gx Hj Hr Hfa ltac:(now rewrite X2) Hfb) as Ex.
  pose proof (C37_bilinear nan _ s f n_scans y oy _ j r a c b Py Gy Hj Hr Hfa ltac:(now rewrite Y2) Hfb) as Ey.
  pose proof (C37_bilinear nan _ s f n_scans z oz _ j r a c b Pz Gz Hj Hr Hfa ltac:(now rewrite Z2) Hfb) as Ez. cbv beta zeta in Ex, Ey, Ez.
  assert (T : forall q, (q < f)%nat -> 0 <= INR q / INR f <= 1).
  { intros q Hq. assert (0 < INR f) by (apply lt_0_INR; lia). assert (INR q <= INR f) by (apply le_INR; lia). pose proof (pos_INR q).
    split; [apply Rmult_le_pos; [assumption|left; now apply Rinv_0_lt_compat]|]. apply Rmult_le_reg_r with (INR f); [assumption|]. unfold Rdiv. rewrite Rmult_assoc, Rinv_l by lra. lra. }
  pose proof (T a Hfa) as Ht. pose proof (T b Hfb) as Hu. set (t := INR a / INR f) in *. set (u := INR b / INR f) in *.
  set (row := fun q : bool => (j * s + r + (if q then 1 else 0))%nat). set (col := fun q : bool => (c + (if q then 1 else 0))%nat).
  assert (B : forall h : R * R * R -> R,
    (1 - t) * (1 - u) * h (pos (j * s + r)%nat c) + (1 - t) * u * h (pos (j * s + r)%nat (c + 1)%nat) + t * (1 - u) * h (pos (j * s + r + 1)%nat c) + t * u * h (pos (j * s + r + 1)%nat (c + 1)%nat) =
    four t u (fun p q => h (pos (row p) (col q)))).
  { intros h. unfold four, row, col. rewrite !Nat.add_0_r. ring. }
  rewrite (B (fun p => fst (fst p))) in Ex. rewrite (B (fun p => snd (fst p))) in Ey. rewrite (B snd) in Ez.
  pose proof (mixed4 t u (fun p q => fst (fst (pos (row p) (col q)))) (fun p q => snd (fst (pos (row p) (col q)))) (fun p q => snd (pos (row p) (col q))) P d 1 1) as D.
  assert (D' := D ltac:(intros p q; apply (H (if p then 1 else 0)%nat (if q then 1 else 0)%nat); [destruct p|destruct q]; lia) (inner_weights t Ht) (inner_weights u Hu)). clear D.
  destruct (landed mean_earth _ _ _ P _ d ltac:(unfold mean_earth; lra) L D' ltac:(lra) ltac:(lra)) as (l & p & E1 & G).
  exists l, p. specialize (O (j * (s - 1) * f + r * f + a)%nat (c * f + b)%nat). rewrite Ex, Ey, Ez, C20_vii in O.
  unfold MEAN_EARTH_RADIUS in O. cbn [nz RN ndiv] in O. rewrite RNdiv_some in O by lra. fold mean_earth in O. rewrite E1 in O. apply pair_inj in O. destruct O as [-> ->].
  split; [reflexivity|]. split; [reflexivity|lra].
Qed.
Print Assumptions C157_vii.

(** four tie points a tenth of a degree apart, 30 km around the first, and the pixel in the middle *)
Lemma nearby lo la : 0 <= lo <= 1 / 10 -> 0 <= la <= 1 / 10 -> distance (ground earth lo la) (earth, 0, 0) <= 30000.
Proof.
  intros Ho Ha. unfold ground, distance. set (a := la * (PI / 180)). set (b := lo * (PI / 180)). pose proof PI_4 as PB. pose proof PI_RGT_0 as PB0.
  assert (Ba : 0 <= a <= 1 / 400) by (unfold a; split; nra). assert (Bb : 0 <= b <= 1 / 400) by (unfold b; split; nra).
  pose proof (cos_ge a ltac:(lra)) as Ca. pose proof (cos_ge b ltac:(lra)) as Cb. pose proof (COS_bound a) as Ua. pose proof (COS_bound b) as Ub.
  pose proof (sin2_cos2 a) as Pa. pose proof (sin2_cos2 b) as Pb. unfold Rsqr in Pa, Pb.
  replace 30000 with (sqrt (30000 ^ 2)) by (apply sqrt_pow2; lra). apply sqrt_le_1_alt.
  replace (_ + _ + _) with (earth ^ 2 * (cos a * cos a * (cos b * cos b + sin b * sin b) - 2 * (cos a * cos b) + 1 + sin a * sin a)) by (unfold earth; ring).
  assert (Q : cos a * cos a * (cos b * cos b + sin b * sin b) - 2 * (cos a * cos b) + 1 + sin a * sin a <= 16 / 1000000).
  { replace (cos b * cos b + sin b * sin b) with 1 by lra. assert (a ^ 2 <= (1 / 400) ^ 2) by (apply pow_incr; lra). assert (b ^ 2 <= (1 / 400) ^ 2) by (apply pow_incr; lra). nra. }
  unfold earth in *. nra.
Qed.
Example C157_case : landmark earth (earth, 0, 0) 30000 /\
  exists olon olat lon lat, geo_grid {| bounds_error := true; fill_value := Some None |} [0; 1] [0; 1] [[0; 1 / 10]; [0; 1 / 10]] [[0; 0]; [1 / 10; 1 / 10]] [1 / 2] [1 / 2] = Ok (olon, olat) /\
    at2 None olon 0 0 = Some lon /\ at2 None olat 0 0 = Some lat /\ distance (ground earth lon lat) (earth, 0, 0) <= 120000.
Proof.
  assert (L : landmark earth (earth, 0, 0) 30000) by (split; [unfold on_sphere; ring|right; cbn [fst snd]; unfold earth; lra]).
  split; [exact L|].
  assert (Ax : axes [0; 1] [0; 1]) by (repeat split; cbn; try lia; intros i j H; cbn in H; assert (i = 0%nat /\ j = 1%nat) as [-> ->] by lia; cbn; lra).
  assert (S1 : Spec.shaped 2 2 [[0; 1 / 10]; [0; 1 / 10]]) by (split; [reflexivity|repeat constructor]).
  assert (S2 : Spec.shaped 2 2 [[0; 0]; [1 / 10; 1 / 10]]) by (split; [reflexivity|repeat constructor]).
  assert (In : Forall (inside [0; 1]) [1 / 2]) by (repeat constructor; cbn; lra).
  destruct (C157_grid {| bounds_error := true; fill_value := Some None |} _ _ _ _ _ _ Ax S1 S2 In In) as (olon & olat & E & H).
  destruct (H 0%nat 0%nat 0%nat 0%nat (earth, 0, 0) 30000) as (lon & lat & E1 & E2 & D); try (cbn; lia); try (cbn; lra); try exact L; [unfold earth; lra| |].
  - intros a b [-> | ->] [-> | ->]; cbn [at2 nth]; apply nearby; lra.
  - exists olon, olat, lon, lat. split; [exact E|]. split; [exact E1|]. split; [exact E2|lra].
Qed.
