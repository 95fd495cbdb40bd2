(** C154: results do not depend on the orientation of the arrays. *)
From Coq Require Import ZArith QArith List Lia Bool Reals Lra Arith.
From Verif Require Import Spec Base Num Geo GeoProofs Interp Chunks ChunksProofs PropsChunks GridLinear PropsGridLinear
  Modis SimpleModis ModisProofs SimpleModisReal PropsSimple PropsModis PropsModisValues Basic PropsBasic.
Import ListNotations.
Open Scope Z_scope.

(** ** Simple MODIS: a swath given upside down *)
Lemma pwl_flip n v x : 2 <= n -> pwl n (fun c => v (n - 1 - c)) (IZR (n - 1) - x)%R = pwl n v x.
Proof.
  intros Hn. pose proof (Rfloor_spec x) as F. set (c := Z.max 0 (Z.min (Rfloor x) (n - 2))).
  assert (H1 : c = 0 \/ (IZR c <= x)%R). { destruct (Z_le_gt_dec (Rfloor x) 0); [left; lia|right]. assert (IZR c <= IZR (Rfloor x))%R by (apply IZR_le; lia). lra. }
  assert (H2 : c = n - 2 \/ (x <= IZR c + 1)%R). { destruct (Z_le_gt_dec (n - 2) (Rfloor x)); [left; lia|right]. assert (IZR (Rfloor x) <= IZR c)%R by (apply IZR_le; lia). lra. }
  assert (Hc : 0 <= c <= n - 2) by lia. clearbody c. rewrite (pwl_piece n v x c Hc H1 H2).
  assert (E : IZR (n - 2 - c) = (IZR (n - 1) - 1 - IZR c)%R) by (rewrite !minus_IZR; lra).
  rewrite (pwl_piece n _ _ (n - 2 - c)); [|lia|destruct H2 as [H2|H2]; [left; lia|right; lra]|destruct H1 as [H1|H1]; [left; lia|right; lra]].
  rewrite E. replace (n - 1 - (n - 2 - c)) with (c + 1) by ring. replace (n - 1 - (n - 2 - c + 1)) with c by ring. ring.
Qed.
Lemma row_flip k r : row_pos k (fac2 k * 10 - 1 - r) = (9 - row_pos k r)%R.
Proof. unfold row_pos. destruct k; cbn [fac2]; [change (2 * 10 - 1) with 19|change (4 * 10 - 1) with 39]; rewrite !minus_IZR; lra. Qed.
Lemma bilinear_flip k w v v' r x : (forall a b, v' a b = v (9 - a) b) ->
  bilinear 10 w v' (row_pos k (fac2 k * 10 - 1 - r)) x = bilinear 10 w v (row_pos k r) x.
Proof.
  intros H. unfold bilinear. rewrite row_flip. change 9%R with (IZR (10 - 1)). rewrite <- (pwl_flip 10 (fun a => pwl w (v a) x) (row_pos k r)) by lia.
  unfold pwl at 1 3. cbv zeta. unfold pwl. cbv zeta. rewrite !H. replace (10 - 1) with 9 by reflexivity. reflexivity.
Qed.

Theorem C154_simple : forall k g g' dt m w (lon lat lon' lat' olon olat olon' olat' : ndarray (option R)) (lo la : Z -> Z -> R),
  dt <> OtherDtype -> 2 <= w -> shaped2 dt (m * 10) w lon lat -> shaped2 dt (m * 10) w lon' lat' ->
  (forall a b, 0 <= a < m * 10 -> 0 <= b < w -> aat lon a b = Some (lo a b) /\ aat lat a b = Some (la a b)) ->
  (forall a b, 0 <= a < m * 10 -> 0 <= b < w -> aat lon' a b = aat lon (m * 10 - 1 - a) b /\ aat lat' a b = aat lat (m * 10 - 1 - a) b) ->
  @simple _ RN k g lon lat = Ok (olon, olat) -> @simple _ RN k g' lon' lat' = Ok (olon', olat') ->
  forall y i, 0 <= y < fac2 k * (m * 10) -> 0 <= i < fac2 k * w ->
    aat olon' y i = aat olon (fac2 k * (m * 10) - 1 - y) i /\ aat olat' y i = aat olat (fac2 k * (m * 10) - 1 - y) i.
Proof.
  intros k g g' dt m w lon lat lon' lat' olon olat olon' olat' lo la Hdt Hw S S' V V' E E' y i Hy Hi.
  assert (Hf : 0 < fac2 k * 10) by (destruct k; cbn [fac2]; lia).
  set (s := y / (fac2 k * 10)). set (r := y mod (fac2 k * 10)).
  assert (Ey : y = s * (fac2 k * 10) + r) by (unfold s, r; pose proof (Z.div_mod y (fac2 k * 10) ltac:(lia)); lia).
  assert (Hr : 0 <= r < fac2 k * 10) by (apply Z.mod_pos_bound; lia).
  assert (Hs : 0 <= s < m) by (split; [apply Z.div_pos; lia|apply Z.div_lt_upper_bound; lia]). clearbody s r. subst y.
  assert (W' : forall a b, 0 <= a < m * 10 -> 0 <= b < w -> aat lon' a b = Some (lo (m * 10 - 1 - a) b) /\ aat lat' a b = Some (la (m * 10 - 1 - a) b)).
  { intros a b Ha Hb. destruct (V' a b Ha Hb) as [-> ->]. apply V; lia. }
  pose proof (C56_bilinear k g' dt (m * 10) w lon' lat' olon' olat' (fun a b => lo (m * 10 - 1 - a) b) (fun a b => la (m * 10 - 1 - a) b) Hdt Hw S' W' E' s r i ltac:(lia) ltac:(lia) Hr Hi) as P'.
  pose proof (C56_bilinear k g dt (m * 10) w lon lat olon olat lo la Hdt Hw S V E (m - 1 - s) (fac2 k * 10 - 1 - r) i ltac:(lia) ltac:(lia) ltac:(lia) Hi) as P.
  cbv beta zeta in P, P'.
  assert (B : forall coordinate : R -> R -> R,
    bilinear 10 w (fun a b => coordinate (lo (m * 10 - 1 - (s * 10 + a)) b) (la (m * 10 - 1 - (s * 10 + a)) b)) (row_pos k r) (col_pos k i) =
    bilinear 10 w (fun a b => coordinate (lo ((m - 1 - s) * 10 + a) b) (la ((m - 1 - s) * 10 + a) b)) (row_pos k (fac2 k * 10 - 1 - r)) (col_pos k i)).
  { intros coordinate. symmetry. apply bilinear_flip. intros a b.
    replace ((m - 1 - s) * 10 + a) with (m * 10 - 1 - (s * 10 + (9 - a))) by ring. reflexivity. }
  rewrite (B at_x), (B at_y), (B at_z) in P'. rewrite <- P in P'.
  replace ((m - 1 - s) * (fac2 k * 10) + (fac2 k * 10 - 1 - r)) with (fac2 k * (m * 10) - 1 - (s * (fac2 k * 10) + r)) in P' by ring.
  injection P' as -> ->. auto.
Qed.
Print Assumptions C154_simple.

(** ** MODIS with zenith angles: the same, where the angles are the same in all tie rows of a scan (they are read in the upper row of a cell) *)
Lemma row_cell_flip k j : even_grid k -> 0 <= j < fine_len k -> row_cell k (fine_len k - 1 - j) = scan_len k - 2 - row_cell k j.
Proof.
  intros Hk Hj. destruct Hk as [-> |[-> | ->]]; unfold fine_len, row_cell in *; cbn [scan_len factor] in *.
  - Z.to_euclidean_division_equations. lia.
  - Z.to_euclidean_division_equations. lia.
  - lia.
Qed.
Lemma track_flip k j : even_grid k -> track_pos k (fine_len k - 1 - j) = (IZR (scan_len k - 1) - track_pos k j)%R.
Proof.
  intros Hk. unfold track_pos, fine_len. rewrite !minus_IZR, mult_IZR. destruct Hk as [-> |[-> | ->]]; cbn [scan_len factor]; field.
Qed.
Theorem C154_angles : forall k g g' m w (lon lat satz lon' lat' satz' olon olat olon' olat' : ndarray (option R)) (lo la : Z -> Z -> R) (z : Z -> Z -> R),
  even_grid k -> std_width k w -> let n := m * scan_len k in 0 <= m ->
  PropsModis.shaped Float32 n w lon lat satz -> PropsModis.shaped Float32 n w lon' lat' satz' ->
  (forall a b, 0 <= a < n -> 0 <= b < w -> aat lon a b = Some (lo a b) /\ aat lat a b = Some (la a b) /\ aat satz a b = Some (z (a / scan_len k)%Z b) /\ (0 <= z (a / scan_len k)%Z b <= 89)%R) ->
  (forall a b, 0 <= a < n -> 0 <= b -> b + 1 < w -> ~ (z (a / scan_len k)%Z b = 0 /\ z (a / scan_len k)%Z (b + 1)%Z = 0)%R) ->
  (forall a b, 0 <= a < n -> 0 <= b < w -> aat lon' a b = aat lon (n - 1 - a) b /\ aat lat' a b = aat lat (n - 1 - a) b /\ aat satz' a b = aat satz (n - 1 - a) b) ->
  @modis _ RN k g lon lat satz = Ok (olon, olat) -> @modis _ RN k g' lon' lat' satz' = Ok (olon', olat') ->
  forall y i, 0 <= y < m * fine_len k -> 0 <= i < fine_width k ->
    aat olon' y i = aat olon (m * fine_len k - 1 - y) i /\ aat olat' y i = aat olat (m * fine_len k - 1 - y) i.
Proof.
  intros k g g' m w lon lat satz lon' lat' satz' olon olat olon' olat' lo la z Hk Hw n Hm S S' V NZ V' E E' y i Hy Hi.
  assert (K : 2 <= scan_len k) by (destruct Hk as [-> |[-> | ->]]; cbn [scan_len]; lia).
  assert (HF : 0 < fine_len k) by (destruct Hk as [-> |[-> | ->]]; reflexivity).
  assert (W2 : 2 <= w) by (destruct k; cbn [std_width] in Hw; lia).
  set (s := y / fine_len k). set (j := y mod fine_len k).
  assert (Ey : y = s * fine_len k + j) by (unfold s, j; pose proof (Z.div_mod y (fine_len k) ltac:(lia)); lia).
  assert (Hj : 0 <= j < fine_len k) by (apply Z.mod_pos_bound; lia).
  assert (Hs : 0 <= s < m) by (split; [apply Z.div_pos; lia|apply Z.div_lt_upper_bound; lia]). clearbody s j. subst y.
  assert (D : forall a, 0 <= a < n -> (n - 1 - a) / scan_len k = m - 1 - a / scan_len k).
  { intros a Ha. symmetry. apply Z.div_unique with (scan_len k - 1 - a mod scan_len k).
    - left. pose proof (Z.mod_pos_bound a (scan_len k) ltac:(lia)). lia.
    - unfold n. pose proof (Z.div_mod a (scan_len k) ltac:(lia)). lia. }
  assert (Q : forall a, 0 <= a < n -> 0 <= n - 1 - a < n) by (intros; lia).
  pose proof (C69_pixels k g' n w lon' lat' satz' olon' olat' (fun a b => lo (n - 1 - a) b) (fun a b => la (n - 1 - a) b) (fun a b => z (m - 1 - a / scan_len k)%Z b) Hk ltac:(unfold n; nia) Hw S') as P'.
  assert (P1 : forall a b, 0 <= a < n -> 0 <= b < w -> aat lon' a b = Some (lo (n - 1 - a) b) /\ aat lat' a b = Some (la (n - 1 - a) b) /\ aat satz' a b = Some (z (m - 1 - a / scan_len k)%Z b) /\ (0 <= z (m - 1 - a / scan_len k)%Z b <= 89)%R).
  { intros a b Ha Hb. destruct (V' a b Ha Hb) as (-> & -> & ->). rewrite <- D by exact Ha. apply V; auto. }
  assert (P2 : forall a b, 0 <= a < n -> 0 <= b -> b + 1 < w -> ~ (z (m - 1 - a / scan_len k)%Z b = 0 /\ z (m - 1 - a / scan_len k)%Z (b + 1)%Z = 0)%R).
  { intros a b Ha Hb Hb1. rewrite <- D by exact Ha. apply NZ; auto. }
  assert (RC : 0 <= row_cell k j <= scan_len k - 2) by (unfold row_cell; lia).
  destruct (P' P1 P2 E' s j i ltac:(lia) ltac:(unfold n; nia) Hj Hi) as (e' & l' & X' & Y'). clear P' P1 P2.
  destruct (C69_pixels k g n w lon lat satz olon olat lo la (fun a b => z (a / scan_len k)%Z b) Hk ltac:(unfold n; nia) Hw S V NZ E (m - 1 - s) (fine_len k - 1 - j) i ltac:(lia) ltac:(unfold n; nia) ltac:(lia) Hi) as (e & l & X & Y).
  cbv beta zeta in X, Y, X', Y'. rewrite row_cell_flip in X, Y by assumption. rewrite track_flip in Y by exact Hk.
  assert (Z1 : (s * scan_len k + row_cell k j) / scan_len k = s) by (symmetry; apply Z.div_unique with (row_cell k j); lia).
  assert (Z2 : ((m - 1 - s) * scan_len k + (scan_len k - 2 - row_cell k j)) / scan_len k = m - 1 - s) by (symmetry; apply Z.div_unique with (scan_len k - 2 - row_cell k j); lia).
  rewrite Z1 in X'. rewrite Z2 in X. rewrite X in X'. injection X' as <- <-.
  set (u := (scan_pos k i - IZR (col_cell k w i))%R) in *. set (v := (track_pos k j - IZR (row_cell k j))%R) in *.
  replace (IZR (scan_len k - 1) - track_pos k j - IZR (scan_len k - 2 - row_cell k j))%R with (1 - v)%R in Y by (unfold v; rewrite !minus_IZR; ring).
  assert (B : forall coordinate : R -> R -> R,
    corners (fun a b => coordinate (lo (n - 1 - a) b) (la (n - 1 - a) b)) (s * scan_len k + row_cell k j) (col_cell k w i) v (u + u * (1 - u) * e + v * (1 - v) * l) =
    corners (fun a b => coordinate (lo a b) (la a b)) ((m - 1 - s) * scan_len k + (scan_len k - 2 - row_cell k j)) (col_cell k w i) (1 - v) (u + u * (1 - u) * e + (1 - v) * (1 - (1 - v)) * l)).
  { intros coordinate. unfold corners.
    replace (n - 1 - (s * scan_len k + row_cell k j)) with ((m - 1 - s) * scan_len k + (scan_len k - 2 - row_cell k j) + 1) by (unfold n; ring).
    replace (n - 1 - (s * scan_len k + row_cell k j + 1)) with ((m - 1 - s) * scan_len k + (scan_len k - 2 - row_cell k j)) by (unfold n; ring). ring. }
  rewrite (B at_x), (B at_y), (B at_z) in Y'. rewrite <- Y in Y'.
  replace ((m - 1 - s) * fine_len k + (fine_len k - 1 - j)) with (m * fine_len k - 1 - (s * fine_len k + j)) in Y' by ring.
  injection Y' as -> ->. auto.
Qed.
Print Assumptions C154_angles.

(** ** Grid interpolators: exchanged axes *)
Theorem C154_grid : forall i ys xs w w' y x,
  axes ys xs -> Spec.shaped (length ys) (length xs) w -> Spec.shaped (length xs) (length ys) w' ->
  (forall r c, (r < length ys)%nat -> (c < length xs)%nat -> at2 0%R w' c r = at2 0%R w r c) ->
  extrapolates i \/ (inside ys y /\ inside xs x) ->
  grid i (points_of xs ys) (finite w') tt (Some x) (Some y) = grid i (points_of ys xs) (finite w) tt (Some y) (Some x).
Proof.
  intros i ys xs w w' y x Ha Sw Sw' T He. pose proof Ha as (Iy & Ix & Ly & Lx).
  destruct (C90_cells ys y Iy Ly) as (r & Hr). destruct (C90_cells xs x Ix Lx) as (k & Hk).
  rewrite (C90_bilinear i ys xs w r k y x Ha Sw Hr Hk He).
  rewrite (C90_bilinear i xs ys w' k r x y ltac:(repeat split; assumption) Sw' Hk Hr ltac:(tauto)). do 2 f_equal. destruct Hr as [Hr _], Hk as [Hk _].
  pose proof (step_pos ys r Iy Hr). pose proof (step_pos xs k Ix Hk).
  unfold PropsGridLinear.bilinear, straight_line. rewrite !T by lia. field. lra.
Qed.
Print Assumptions C154_grid.

(** ** BasicSatelliteInterpolator: exchanged axes *)
Theorem C154_basic : forall cols rows (lat lon lat' lon' : frame R) va vo oa oo oa' oo',
  indices cols -> indices rows -> ties cols rows lat va -> ties cols rows lon vo ->
  ties rows cols lat' (fun q p => va p q) -> ties rows cols lon' (fun q p => vo p q) ->
  @basic_interpolate R RT true cols rows lat lon = Ok (oa, oo) -> @basic_interpolate R RT true rows cols lat' lon' = Ok (oa', oo') ->
  forall p q i j, 0 <= p -> p + 1 < lenz rows -> 0 <= q -> q + 1 < lenz cols ->
    nthz rows p <= i <= nthz rows (p + 1) -> nthz cols q <= j <= nthz cols (q + 1) ->
    f_at oa' j i = f_at oa i j /\ f_at oo' j i = f_at oo i j.
Proof.
  intros cols rows lat lon lat' lon' va vo oa oo oa' oo' Hc Hr T1 T2 T3 T4 E E' p q i j Hp Hp1 Hq Hq1 Hi Hj.
  destruct (C59_bilinear _ _ _ _ _ _ _ _ Hc Hr T1 T2 E p q i j Hp Hp1 Hq Hq1 Hi Hj) as [A1 A2].
  destruct (C59_bilinear _ _ _ _ _ _ _ _ Hr Hc T3 T4 E' q p j i Hq Hq1 Hp Hp1 Hj Hi) as [B1 B2]. cbv zeta in *.
  rewrite A1, A2, B1, B2. unfold lerp, Rdiv. split; f_equal; ring.
Qed.
Print Assumptions C154_basic.

(** the hypotheses: ten tie rows and two tie columns, and the same upside down; a grid of three rows and two columns *)
Example C154_case : (exists lon lat lon' lat' : ndarray (option R), shaped2 Float32 (1 * 10) 2 lon lat /\ shaped2 Float32 (1 * 10) 2 lon' lat' /\
    (forall a b, 0 <= a < 1 * 10 -> 0 <= b < 2 -> aat lon a b = Some (IZR b) /\ aat lat a b = Some (IZR a)) /\
    (forall a b, 0 <= a < 1 * 10 -> 0 <= b < 2 -> aat lon' a b = aat lon (1 * 10 - 1 - a) b /\ aat lat' a b = aat lat (1 * 10 - 1 - a) b)) /\
  axes [0; 2; 6]%R [1; 3]%R /\ Spec.shaped 3 2 [[1; 2]; [3; 4]; [5; 9]]%R /\ Spec.shaped 2 3 [[1; 3; 5]; [2; 4; 9]]%R /\
  (forall r c, (r < 3)%nat -> (c < 2)%nat -> at2 0%R [[1; 3; 5]; [2; 4; 9]]%R c r = at2 0%R [[1; 2]; [3; 4]; [5; 9]]%R r c).
Proof.
  split.
  - exists {| adt := Float32; arows := 10; acols := 2; aat := fun a b => Some (IZR b) |}, {| adt := Float32; arows := 10; acols := 2; aat := fun a b => Some (IZR a) |},
      {| adt := Float32; arows := 10; acols := 2; aat := fun a b => Some (IZR b) |}, {| adt := Float32; arows := 10; acols := 2; aat := fun a b => Some (IZR (1 * 10 - 1 - a)) |}.
    repeat split.
  - split; [exact (proj1 C90_nonvacuous)|]. split; [repeat constructor|]. split; [repeat constructor|].
    intros r c Hr Hc. destruct r as [|[|[|r]]]; [| | |lia]; (destruct c as [|[|c]]; [| |lia]); reflexivity.
Qed.
(** those of C154_angles: one scan of ten tie rows, zenith angles growing along the rows *)
Example C154_angles_case : let f dt v := {| adt := dt; arows := 10; acols := 1354; aat := v |} : ndarray (option R) in
  let lon := f Float32 (fun a b => Some (IZR b / 100)%R) in let lat := f Float32 (fun a b => Some (IZR a / 100)%R) in
  let satz := f Float32 (fun a b => Some (1 + IZR b / 20)%R) in let lat' := f Float32 (fun a b => Some (IZR (9 - a) / 100)%R) in
  even_grid M1km_500m /\ std_width M1km_500m 1354 /\ PropsModis.shaped Float32 (1 * scan_len M1km_500m) 1354 lon lat satz /\ PropsModis.shaped Float32 (1 * scan_len M1km_500m) 1354 lon lat' satz /\
  (forall a b, 0 <= a < 1 * scan_len M1km_500m -> 0 <= b < 1354 -> aat lon a b = Some (IZR b / 100)%R /\ aat lat a b = Some (IZR a / 100)%R /\ aat satz a b = Some (1 + IZR b / 20)%R /\ (0 <= 1 + IZR b / 20 <= 89)%R) /\
  (forall a b, 0 <= a < 1 * scan_len M1km_500m -> 0 <= b < 1354 -> aat lon a b = aat lon (1 * scan_len M1km_500m - 1 - a) b /\ aat lat' a b = aat lat (1 * scan_len M1km_500m - 1 - a) b /\ aat satz a b = aat satz (1 * scan_len M1km_500m - 1 - a) b).
Proof.
  cbv zeta. split; [right; left; reflexivity|]. split; [reflexivity|]. split; [repeat split|]. split; [repeat split|]. split.
  - intros a b _ Hb. assert (0 <= IZR b <= 1353)%R by (split; apply IZR_le; lia). repeat split; lra.
  - intros a b _ _. repeat split.
Qed.
