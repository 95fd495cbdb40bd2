(** C33 - C40, C65: VII interpolation.

    Pixels are addressed as in the product description: scan j, tie row r of the scan and a pixels further
    (row j*(s-1)*f + r*f + a), tie column c and b pixels further (column c*f + b). With r < s-1, a < f,
    b < f every pixel has exactly one such address. s tie rows per scan, factor f.
    [args_ok datas s f n_scans] (ViiProofs.v): s >= 2, f >= 1, n_scans >= 1 scans, >= 2 columns, arrays of the
    same shape and dimensions. *)
From Coq Require Import ZArith List Bool Arith Lia QArith Reals Lra.
From Verif Require Import Base Num Geo GeoProofs GeoAgree Vii ViiProofs PropsGeo.
Import ListNotations.
Open Scope nat_scope.

(** every pixel has an address *)
Lemma address s f n_scans i : 2 <= s -> 1 <= f -> i < n_scans * (s - 1) * f ->
  exists j r a, i = j * (s - 1) * f + r * f + a /\ j < n_scans /\ r < s - 1 /\ a < f.
Proof.
  intros Hs Hf Hi. exists (i / ((s - 1) * f)), ((i mod ((s - 1) * f)) / f), (i mod ((s - 1) * f) mod f).
  assert (P : 1 <= (s - 1) * f) by (assert (1 <= s - 1) by lia; nia).
  pose proof (Nat.div_mod i ((s - 1) * f) ltac:(lia)) as D1.
  pose proof (Nat.mod_upper_bound i ((s - 1) * f) ltac:(lia)) as M1.
  pose proof (Nat.div_mod (i mod ((s - 1) * f)) f ltac:(lia)) as D2.
  pose proof (Nat.mod_upper_bound (i mod ((s - 1) * f)) f ltac:(lia)) as M2.
  set (q := i / ((s - 1) * f)) in *. set (m := i mod ((s - 1) * f)) in *. set (r := m / f) in *. set (a := m mod f) in *.
  clearbody q m r a. repeat split; [lia| | |exact M2].
  - apply Nat.nle_gt. intros H. assert (n_scans * ((s - 1) * f) <= q * ((s - 1) * f)) by (apply Nat.mul_le_mono_r; exact H). lia.
  - apply Nat.nle_gt. intros H. assert ((s - 1) * f <= r * f) by (apply Nat.mul_le_mono_r; exact H). lia.
Qed.

(** C33, any arithmetic: shape of the results, exactly when the arguments are as described *)
Theorem C33_shape : forall {T} {N : NumOps T} nan (datas : list (darray T)) s f n_scans, args_ok datas s f n_scans ->
  exists outs, tie_points_interpolation nan datas s f = Ok outs /\
    Forall2 (fun data out => nrows out = n_scans * (s - 1) * f /\ ncols out = (ncols data - 1) * f /\ dims out = dims data) datas outs.
Proof.
  intros T N nan datas s f n_scans H. destruct (interpolation_ok nan datas s f n_scans H) as (outs & E & P).
  exists outs. split; [exact E|]. clear E H. induction P as [|d o datas outs (P1 & P2 & P3 & _) P IH]; constructor; auto.
Qed.
Print Assumptions C33_shape.
Theorem C33_only : forall {T} {N : NumOps T} nan (datas : list (darray T)) s f outs,
  tie_points_interpolation nan datas s f = Ok outs -> exists n_scans, args_ok datas s f n_scans.
Proof.
  intros T N nan datas s f outs H.
  destruct datas as [|first rest]; [discriminate|]. set (datas := first :: rest) in *.
  destruct s as [|s]; [discriminate|]. destruct f as [|f].
  { exfalso. unfold tie_points_interpolation, tie_points_with, datas in H. cbn [Nat.eqb] in H. destruct (negb _); discriminate. }
  set (n := nrows first / S s).
  assert (dec : args_ok datas (S s) (S f) n \/ ~ args_ok datas (S s) (S f) n).
  { unfold args_ok.
    destruct (le_lt_dec 2 (S s)); [|right; intros (? & ? & ? & ? & _); lia].
    destruct (le_lt_dec 1 n); [|right; intros (? & ? & ? & ? & ? & ? & _); lia].
    destruct (Nat.eq_dec (nrows first) (n * S s)); [|right; intros (? & ? & [= <- <-] & ? & ? & ? & ? & _); lia].
    destruct (le_lt_dec 2 (ncols first)); [|right; intros (? & ? & [= <- <-] & ? & ? & ? & ? & ? & _); lia].
    destruct (Forall_dec (fun d : darray T => shape_eqb d first = true /\ dims_eqb d first = true)) with (l := datas) as [F|F].
    { intros d. destruct (shape_eqb d first), (dims_eqb d first); [left; auto|right|right|right]; intros [? ?]; discriminate. }
    - left. exists first, rest. repeat split; auto; lia.
    - right. intros (? & ? & [= <- <-] & ? & ? & ? & ? & ? & ?). contradiction. }
  destruct dec as [D|D]; [eauto|]. exfalso.
  rewrite interpolation_refused in H; [discriminate|lia|lia|discriminate|].
  intros m Hm. apply D. pose proof Hm as (first' & rest' & [= <- <-] & ? & ? & ? & Hr & _).
  assert (E : n = m) by (unfold n; rewrite Hr; apply Nat.div_mul; lia). now rewrite E.
Qed.
Print Assumptions C33_only.

(** C38, any arithmetic: everything else raises ValueError *)
Theorem C38_rows : forall {T} {N : NumOps T} nan (first : darray T) rest s f, 1 <= s -> 1 <= f ->
  nrows first mod s <> 0 -> tie_points_interpolation nan (first :: rest) s f = Err ValueError.
Proof.
  intros T N nan first rest s f Hs Hf Hm. apply interpolation_refused; auto; [discriminate|].
  intros n (first' & rest' & [= <- <-] & ? & ? & ? & Hr & _). apply Hm. rewrite Hr. apply Nat.mod_mul. lia.
Qed.
Print Assumptions C38_rows.
Theorem C38_shapes : forall {T} {N : NumOps T} nan (first d : darray T) rest s f, 1 <= s -> 1 <= f ->
  In d rest -> (nrows d, ncols d) <> (nrows first, ncols first) \/ dims d <> dims first ->
  tie_points_interpolation nan (first :: rest) s f = Err ValueError.
Proof.
  intros T N nan first d rest s f Hs Hf Hd Hne. apply interpolation_refused; auto; [discriminate|].
  intros n (first' & rest' & [= <- <-] & _ & _ & _ & _ & _ & F). rewrite Forall_forall in F.
  destruct (F d (or_intror Hd)) as [F1 F2]. apply shape_eqb_eq in F1 as [A B]. apply dims_eqb_eq in F2. rewrite A, B in Hne. tauto.
Qed.
Print Assumptions C38_shapes.
Theorem C38_geo : forall {T} {N : NumOps T} nan (lon lat : darray T) s f lt zt,
  (nrows lon, ncols lon) <> (nrows lat, ncols lat) ->
  tie_points_geo_interpolation nan lon lat s f lt zt = Err ValueError.
Proof.
  intros T N nan lon lat s f lt zt H. unfold tie_points_geo_interpolation.
  destruct (shape_eqb lon lat) eqn:E; [|reflexivity]. apply shape_eqb_eq in E as [A B]. rewrite A, B in H. contradiction.
Qed.
Print Assumptions C38_geo.
Theorem C38_geo_rows : forall {T} {N : NumOps T} nan (lon lat : darray T) s f lt zt, 1 <= s -> 1 <= f ->
  nrows lon mod s <> 0 -> tie_points_geo_interpolation nan lon lat s f lt zt = Err ValueError.
Proof.
  intros T N nan lon lat s f lt zt Hs Hf H. unfold tie_points_geo_interpolation.
  destruct (shape_eqb lon lat) eqn:E; [|reflexivity]. cbn [negb].
  destruct (_ || _); [reflexivity|]. destruct (to_cart _ _ _).
  - apply shape_eqb_eq in E as [A _]. unfold align_longitude. destruct (dims_eqb lon lat).
    + cbn [bind]. rewrite C38_rows by auto. reflexivity.
    + destruct (_ && _); [|reflexivity]. cbn [bind]. rewrite C38_rows by (auto; cbn; congruence). reflexivity.
  - rewrite C38_rows by auto. reflexivity.
Qed.
Print Assumptions C38_geo_rows.
Example C38_case : 7 mod 2 <> 0. Proof. discriminate. Qed.

(** any arithmetic: the pixel of scan j is a function of the tie points in rows j*s + r - 1 ... j*s + r + 1 *)
Definition scan_agrees {T} (s j : nat) (d1 d2 : darray T) : Prop :=
  forall i k, j * s <= i < j * s + s -> k < ncols d1 -> at_ d1 i k = at_ d2 i k.

Section Finite.
Open Scope R_scope.
#[local] Existing Instance RN.
Variable nan : option R.

(** finite data: v i k is the value of tie point (i, k) *)
Lemma finite_pixel s f n_scans data out v j r a c b :
  pixels_of s f n_scans data out -> nrows data = (n_scans * s)%nat -> finite_da data v -> (1 <= f)%nat ->
  (j < n_scans)%nat -> (r < s - 1)%nat -> (a < f)%nat -> (c < ncols data - 1)%nat -> (b < f)%nat ->
  at_ out (j * (s - 1) * f + r * f + a)%nat (c * f + b)%nat = Some (bilin v (j * s + r) c (frac a f) (frac b f)).
Proof.
  intros (_ & _ & _ & P) Hr Hv Hf Hj Hrr Ha Hc Hb. rewrite P by auto. apply pixel_RN; auto.
  intros i k Hi Hk.
  destruct (lo_range (j * s + r) a (n_scans * s)) as [L1 L2]; [nia|].
  destruct (lo_range c b (ncols data)) as [L3 L4]; [lia|].
  apply Hv; destruct Hi as [->| ->], Hk as [->| ->]; lia.
Qed.

(** the setting of C34, C35, C37: one call on any list of arrays; [data], [out] an input and its output *)
Definition produced (datas : list (darray (option R))) (s f n_scans : nat) (data out : darray (option R)) : Prop :=
  args_ok datas s f n_scans /\
  exists outs k, tie_points_interpolation nan datas s f = Ok outs /\ nth_error datas k = Some data /\ nth_error outs k = Some out.

Lemma produced_pixels datas s f n_scans data out : produced datas s f n_scans data out ->
  pixels_of s f n_scans data out /\ nrows data = (n_scans * s)%nat /\ (2 <= ncols data)%nat /\ (1 <= f)%nat /\ (2 <= s)%nat.
Proof.
  intros (Ha & outs & k & E & H1 & H2). destruct (interpolation_ok nan datas s f n_scans Ha) as (outs' & E' & P).
  rewrite E in E'. injection E' as <-.
  destruct Ha as (first & rest & -> & Hs & Hf & Hn & Hr & Hc & Hd).
  assert (In data (first :: rest)) by (eapply nth_error_In; eauto).
  rewrite Forall_forall in Hd. destruct (Hd data H) as [D _]. apply shape_eqb_eq in D as [D1 D2].
  split; [|lia]. clear -P H1 H2. revert k H1 H2. induction P as [|d o ds os P0 P IH]; intros [|k] H1 H2; cbn in H1, H2; try discriminate.
  - injection H1 as ->. injection H2 as ->. exact P0.
  - exact (IH k H1 H2).
Qed.

(** C34: pixels on tie points *)
Theorem C34_tie_points : forall datas s f n_scans data out v j r c,
  produced datas s f n_scans data out -> finite_da data v ->
  (j < n_scans)%nat -> (r < s - 1)%nat -> (c < ncols data - 1)%nat ->
  at_ out (j * (s - 1) * f + r * f)%nat (c * f)%nat = at_ data (j * s + r)%nat c.
Proof.
  intros datas s f n_scans data out v j r c HP Hv Hj Hr Hc.
  destruct (produced_pixels _ _ _ _ _ _ HP) as (P & Hrow & Hcol & Hf & Hs).
  replace (j * (s - 1) * f + r * f)%nat with (j * (s - 1) * f + r * f + 0)%nat by lia.
  replace (c * f)%nat with (c * f + 0)%nat by lia.
  rewrite (finite_pixel s f n_scans data out v) by (auto; lia). rewrite Hv by nia. f_equal.
  unfold bilin, lin, frac. cbn [INR]. field. apply not_0_INR. lia.
Qed.

(** C35: only the own scan matters, for finite data *)
Theorem C35_own_scan : forall datas1 datas2 s f n_scans data1 data2 out1 out2 v1 v2 j r a c b,
  produced datas1 s f n_scans data1 out1 -> produced datas2 s f n_scans data2 out2 ->
  finite_da data1 v1 -> finite_da data2 v2 -> ncols data1 = ncols data2 -> scan_agrees s j data1 data2 ->
  (j < n_scans)%nat -> (r < s - 1)%nat -> (a < f)%nat -> (c < ncols data1 - 1)%nat -> (b < f)%nat ->
  at_ out1 (j * (s - 1) * f + r * f + a)%nat (c * f + b)%nat = at_ out2 (j * (s - 1) * f + r * f + a)%nat (c * f + b)%nat.
Proof.
  intros datas1 datas2 s f n_scans data1 data2 out1 out2 v1 v2 j r a c b HP1 HP2 F1 F2 E A Hj Hr Ha Hc Hb.
  destruct (produced_pixels _ _ _ _ _ _ HP1) as (P1 & Hrow1 & Hcol1 & Hf & Hs).
  destruct (produced_pixels _ _ _ _ _ _ HP2) as (P2 & Hrow2 & Hcol2 & _ & _).
  rewrite (finite_pixel s f n_scans data1 out1 v1) by (auto; lia).
  rewrite (finite_pixel s f n_scans data2 out2 v2) by (auto; lia). f_equal.
  assert (V : forall i k, (j * s <= i < j * s + s)%nat -> (k < ncols data1)%nat -> v1 i k = v2 i k).
  { intros i k Hi Hk. specialize (A i k Hi Hk). rewrite F1, F2 in A by nia. now injection A. }
  unfold bilin. rewrite !V by lia. reflexivity.
Qed.

(** C36, the part that holds: a scan without missing tie points has no missing pixels, except possibly in its
    first row. Missing: the first pixel row (of every scan but the first), where it is false. *)
Theorem C36_missing_partial : forall datas s f n_scans data out j r a c b,
  produced datas s f n_scans data out ->
  (forall i k, (j * s <= i < j * s + s)%nat -> (k < ncols data)%nat -> at_ data i k <> None) ->
  (j < n_scans)%nat -> (r < s - 1)%nat -> (a < f)%nat -> (c < ncols data - 1)%nat -> (b < f)%nat ->
  (j = 0 \/ 0 < r * f + a)%nat ->
  at_ out (j * (s - 1) * f + r * f + a)%nat (c * f + b)%nat <> None.
Proof.
  intros datas s f n_scans data out j r a c b HP Hn Hj Hr Ha Hc Hb H0.
  destruct (produced_pixels _ _ _ _ _ _ HP) as ((_ & _ & _ & P) & Hrow & Hcol & Hf & Hs).
  rewrite P by auto. rewrite (pixel_RN f _ (fun i k => match at_ data i k with Some x => x | None => 0 end)); [discriminate|auto|auto|auto|].
  intros i k Hi Hk. assert (X : at_ data i k <> None).
  { apply Hn.
    - unfold lo_of in Hi. destruct (Nat.eqb_spec a 0), (Nat.leb_spec 1 (j * s + r)); cbn [andb] in Hi; destruct H0 as [->|H0]; try lia;
      assert (1 <= r)%nat by nia; lia.
    - destruct (lo_range c b (ncols data)); lia. }
  destruct (at_ data i k); [reflexivity|contradiction].
Qed.

(** C37: the pixel is the bilinear interpolation of the four surrounding tie points (of its own scan) *)
Theorem C37_bilinear : forall datas s f n_scans data out v j r a c b,
  produced datas s f n_scans data out -> finite_da data v ->
  (j < n_scans)%nat -> (r < s - 1)%nat -> (a < f)%nat -> (c < ncols data - 1)%nat -> (b < f)%nat ->
  let t := INR a / INR f in let u := INR b / INR f in let i := (j * s + r)%nat in
  at_ out (j * (s - 1) * f + r * f + a)%nat (c * f + b)%nat =
  Some ((1 - t) * (1 - u) * v i c + (1 - t) * u * v i (c + 1)%nat + t * (1 - u) * v (i + 1)%nat c + t * u * v (i + 1)%nat (c + 1)%nat).
Proof.
  intros datas s f n_scans data out v j r a c b HP Hv Hj Hr Ha Hc Hb t u i.
  destruct (produced_pixels _ _ _ _ _ _ HP) as (P & Hrow & Hcol & Hf & Hs).
  rewrite (finite_pixel s f n_scans data out v) by auto. f_equal. unfold bilin, lin, frac. fold t u i. ring.
Qed.

Lemma lin_bounds lo hi u v t : 0 <= t < 1 -> lo <= u <= hi -> lo <= v <= hi -> lo <= lin u v t <= hi.
Proof. unfold lin. intros. split; nra. Qed.

Theorem C37_between : forall datas s f n_scans data out v j r a c b lo hi,
  produced datas s f n_scans data out -> finite_da data v ->
  (j < n_scans)%nat -> (r < s - 1)%nat -> (a < f)%nat -> (c < ncols data - 1)%nat -> (b < f)%nat ->
  (forall di dc, (di <= 1)%nat -> (dc <= 1)%nat -> lo <= v (j * s + r + di)%nat (c + dc)%nat <= hi) ->
  exists x, at_ out (j * (s - 1) * f + r * f + a)%nat (c * f + b)%nat = Some x /\ lo <= x <= hi.
Proof.
  intros datas s f n_scans data out v j r a c b lo hi HP Hv Hj Hr Ha Hc Hb HB.
  destruct (produced_pixels _ _ _ _ _ _ HP) as (P & Hrow & Hcol & Hf & Hs).
  rewrite (finite_pixel s f n_scans data out v) by auto. eexists; split; [reflexivity|].
  pose proof (HB 0 0 ltac:(lia) ltac:(lia))%nat as B00. pose proof (HB 0 1 ltac:(lia) ltac:(lia))%nat as B01.
  pose proof (HB 1 0 ltac:(lia) ltac:(lia))%nat as B10. pose proof (HB 1 1 ltac:(lia) ltac:(lia))%nat as B11.
  rewrite !Nat.add_0_r in *.
  unfold bilin. repeat apply lin_bounds; auto using frac_bounds.
Qed.

(** data affine in row and column (or with a product term) within the scan are reproduced *)
Theorem C37_affine : forall datas s f n_scans data out v j r a c b p q w z,
  produced datas s f n_scans data out -> finite_da data v ->
  (j < n_scans)%nat -> (r < s - 1)%nat -> (a < f)%nat -> (c < ncols data - 1)%nat -> (b < f)%nat ->
  (forall i k, (j * s <= i < j * s + s)%nat -> (k < ncols data)%nat -> v i k = p + q * INR i + w * INR k + z * INR i * INR k) ->
  let y := INR (j * s + r) + INR a / INR f in let x := INR c + INR b / INR f in
  at_ out (j * (s - 1) * f + r * f + a)%nat (c * f + b)%nat = Some (p + q * y + w * x + z * y * x).
Proof.
  intros datas s f n_scans data out v j r a c b p q w z HP Hv Hj Hr Ha Hc Hb HA y x.
  destruct (produced_pixels _ _ _ _ _ _ HP) as (P & Hrow & Hcol & Hf & Hs).
  rewrite (finite_pixel s f n_scans data out v) by auto. f_equal. unfold bilin. rewrite !HA by lia.
  unfold lin, frac, y, x. rewrite !(plus_INR _ 1). cbn [INR]. ring.
Qed.

(** C39: the mode *)
Definition safe_lonlat (lon : darray (option R)) (vlon vlat : nat -> nat -> R) (thr : R) : Prop :=
  (forall i j, (i < nrows lon)%nat -> (j < ncols lon)%nat -> Rabs (vlat i j) <= thr) /\
  (forall i j k l, (i < nrows lon)%nat -> (j < ncols lon)%nat -> (k < nrows lon)%nat -> (l < ncols lon)%nat -> vlon i j - vlon k l <= 180).

(** what the geodetic and the cartesian branch compute *)
Lemma unsafe_cart lon lat vlon vlat thr : finite_da lon vlon -> finite_da lat vlat -> nrows lon = nrows lat -> ncols lon = ncols lat ->
  (1 <= nrows lon)%nat -> (1 <= ncols lon)%nat ->
  (to_cart lon lat (Some thr) = false <-> safe_lonlat lon vlon vlat thr).
Proof.
  intros F1 F2 E1 E2 H1 H2. pose proof (to_cart_spec lon lat vlon vlat thr F1 F2 H1 H2 E1 E2) as S. split.
  - intros T. split.
    + intros i j Hi Hj. apply Rnot_lt_le. intros L. assert (X : to_cart lon lat (Some thr) = true) by (apply S; left; exists i, j; auto). congruence.
    + intros i j k l Hi Hj Hk Hl. apply Rnot_lt_le. intros L. assert (X : to_cart lon lat (Some thr) = true) by (apply S; right; exists i, j, k, l; auto 6). congruence.
  - intros [A B]. apply not_true_iff_false. intros T. apply S in T as [(i & j & Hi & Hj & L)|(i & j & k & l & Hi & Hj & Hk & Hl & L)].
    + specialize (A i j Hi Hj). lra.
    + specialize (B i j k l Hi Hj Hk Hl). lra.
Qed.

Theorem C39_geodetic_when_safe : forall lon lat vlon vlat s f n_scans thr zt,
  finite_da lon vlon -> finite_da lat vlat -> args_ok [lon; lat] s f n_scans -> safe_lonlat lon vlon vlat thr ->
  exists olon olat, tie_points_geo_interpolation nan lon lat s f (Some thr) zt = Ok (olon, olat) /\
    produced [lon; lat] s f n_scans lon olon /\ produced [lon; lat] s f n_scans lat olat /\
    forall i k, (i < nrows olon)%nat -> (k < ncols olon)%nat ->
      exists x y, at_ olon i k = Some x /\ at_ olat i k = Some y /\
        (exists i1 k1 i2 k2, (i1 < nrows lon)%nat /\ (k1 < ncols lon)%nat /\ (i2 < nrows lon)%nat /\ (k2 < ncols lon)%nat /\ vlon i1 k1 <= x <= vlon i2 k2) /\
        (exists i1 k1 i2 k2, (i1 < nrows lon)%nat /\ (k1 < ncols lon)%nat /\ (i2 < nrows lon)%nat /\ (k2 < ncols lon)%nat /\ vlat i1 k1 <= y <= vlat i2 k2).
Proof.
  intros lon lat vlon vlat s f n_scans thr zt F1 F2 Ha Hs.
  pose proof Ha as (first & rest & [= <- <-] & Hs2 & Hf & Hn & Hr & Hc & Hd).
  assert (D : shape_eqb lat lon = true) by (rewrite Forall_forall in Hd; apply (Hd lat); right; now left).
  apply shape_eqb_eq in D as [D1 D2].
  assert (R1 : (1 <= nrows lon)%nat) by nia.
  pose proof (proj2 (unsafe_cart lon lat vlon vlat thr F1 F2 (eq_sym D1) (eq_sym D2) R1 ltac:(lia)) Hs) as TC.
  destruct (interpolation_ok nan _ _ _ _ Ha) as (outs & E & P).
  inversion P as [|? olon ? ? P1 P']; subst. inversion P' as [|? olat ? ? P2 P'']; subst. inversion P''; subst.
  exists olon, olat.
  assert (G : tie_points_geo_interpolation nan lon lat s f (Some thr) zt = Ok (olon, olat)).
  { unfold tie_points_geo_interpolation. rewrite (proj2 (shape_eqb_eq lon lat)) by auto. cbn [negb].
    destruct (Nat.eqb_spec (nrows lat) 0); [lia|]. destruct (Nat.eqb_spec (ncols lat) 0); [lia|]. cbn [orb].
    rewrite TC, E. reflexivity. }
  assert (Q1 : produced [lon; lat] s f n_scans lon olon) by (split; [exact Ha|]; exists [olon; olat], 0%nat; auto).
  assert (Q2 : produced [lon; lat] s f n_scans lat olat) by (split; [exact Ha|]; exists [olon; olat], 1%nat; auto).
  split; [exact G|]. split; [exact Q1|]. split; [exact Q2|]. intros i k Hi Hk.
  pose proof P1 as (_ & N1 & N2 & _). rewrite N1 in Hi. rewrite N2 in Hk.
  destruct (address s f n_scans i Hs2 Hf Hi) as (j & r & a & -> & Hj & Hrr & Haf).
  set (c := (k / f)%nat). set (b := (k mod f)%nat).
  assert (Ek : k = (c * f + b)%nat) by (unfold c, b; rewrite (Nat.div_mod k f) at 1; lia).
  assert (Hb : (b < f)%nat) by (unfold b; apply Nat.mod_upper_bound; lia).
  assert (Hcc : (c < ncols lon - 1)%nat) by (unfold c; apply Nat.div_lt_upper_bound; lia).
  clearbody c b. subst k.
  assert (four : forall v : nat -> nat -> R, exists i1 k1 i2 k2, (i1 < nrows lon)%nat /\ (k1 < ncols lon)%nat /\ (i2 < nrows lon)%nat /\ (k2 < ncols lon)%nat /\
     forall di dc, (di <= 1)%nat -> (dc <= 1)%nat -> v i1 k1 <= v (j * s + r + di)%nat (c + dc)%nat <= v i2 k2).
  { intros v. 
    assert (IR : (j * s + r + 1 < nrows lon)%nat) by nia.
    assert (two : forall (g : nat -> R), exists m M, (m <= 1)%nat /\ (M <= 1)%nat /\ forall d, (d <= 1)%nat -> g m <= g d <= g M).
    { intros g. destruct (Rle_dec (g 0%nat) (g 1%nat)).
      - exists 0%nat, 1%nat. repeat split; try lia; destruct d as [|[|d]]; try lia; lra.
      - exists 1%nat, 0%nat. repeat split; try lia; destruct d as [|[|d]]; try lia; lra. }
    destruct (two (fun dc => v (j * s + r + 0)%nat (c + dc)%nat)) as (m0 & M0 & Hm0 & HM0 & B0).
    destruct (two (fun dc => v (j * s + r + 1)%nat (c + dc)%nat)) as (m1 & M1 & Hm1 & HM1 & B1).
    cbv beta in B0, B1.
    exists (if Rle_dec (v (j * s + r + 0)%nat (c + m0)%nat) (v (j * s + r + 1)%nat (c + m1)%nat) then (j * s + r + 0)%nat else (j * s + r + 1)%nat).
    exists (if Rle_dec (v (j * s + r + 0)%nat (c + m0)%nat) (v (j * s + r + 1)%nat (c + m1)%nat) then (c + m0)%nat else (c + m1)%nat).
    exists (if Rle_dec (v (j * s + r + 0)%nat (c + M0)%nat) (v (j * s + r + 1)%nat (c + M1)%nat) then (j * s + r + 1)%nat else (j * s + r + 0)%nat).
    exists (if Rle_dec (v (j * s + r + 0)%nat (c + M0)%nat) (v (j * s + r + 1)%nat (c + M1)%nat) then (c + M1)%nat else (c + M0)%nat).
    destruct (Rle_dec (v (j * s + r + 0)%nat (c + m0)%nat) (v (j * s + r + 1)%nat (c + m1)%nat));
    destruct (Rle_dec (v (j * s + r + 0)%nat (c + M0)%nat) (v (j * s + r + 1)%nat (c + M1)%nat));
    (split; [lia|]; split; [lia|]; split; [lia|]; split; [lia|]); intros di dc Hdi Hdc;
    specialize (B0 dc Hdc); specialize (B1 dc Hdc); destruct di as [|[|di]]; try lia; lra. }
  destruct (four vlon) as (i1 & k1 & i2 & k2 & Q3 & Q4 & Q5 & Q6 & Q7).
  destruct (four vlat) as (i3 & k3 & i4 & k4 & Q8 & Q9 & Q10 & Q11 & Q12).
  destruct (C37_between _ _ _ _ _ _ vlon j r a c b _ _ Q1 F1 Hj Hrr Haf Hcc Hb Q7) as (x & X1 & X2).
  destruct (C37_between _ _ _ _ _ _ vlat j r a c b _ _ Q2 F2 Hj Hrr Haf ltac:(lia) Hb Q12) as (y & Y1 & Y2).
  exists x, y. split; [exact X1|]. split; [exact Y1|].
  split; [exists i1, k1, i2, k2; auto|exists i3, k3, i4, k4; auto].
Qed.

(** outside the safe case the cartesian branch is taken *)
Lemma vii_lonlat2xyz_RN lo la : @vii_lonlat2xyz _ RN (Some lo) (Some la) =
  (Some (fst (fst (@vii_lonlat2xyz _ RT lo la))), Some (snd (fst (@vii_lonlat2xyz _ RT lo la))), Some (snd (@vii_lonlat2xyz _ RT lo la))).
Proof.
  unfold vii_lonlat2xyz. rewrite mean_radius_RN. unfold deg2rad. cbn [nmul ndiv ncos nsin npi nz RN RT lift1 lift2 RNdiv fst snd].
  destruct (Req_EM_T 180 0); [lra|]. cbn [lift1 lift2]. unfold MEAN_EARTH_RADIUS. cbn [ndiv nz RT]. reflexivity.
Qed.

Theorem C39_cartesian_when_unsafe : forall lon lat vlon vlat s f n_scans thr zt,
  finite_da lon vlon -> finite_da lat vlat -> args_ok [lon; lat] s f n_scans -> ~ safe_lonlat lon vlon vlat thr ->
  exists x y z ox oy oz olon olat,
    (forall i j, (i < nrows lon)%nat -> (j < ncols lon)%nat ->
       (at_ x i j, at_ y i j, at_ z i j) = vii_lonlat2xyz (Some (vlon i j)) (Some (vlat i j))) /\
    nrows x = nrows lon /\ ncols x = ncols lon /\ nrows y = nrows lon /\ ncols y = ncols lon /\ nrows z = nrows lon /\ ncols z = ncols lon /\
    produced [x; y; z] s f n_scans x ox /\ produced [x; y; z] s f n_scans y oy /\ produced [x; y; z] s f n_scans z oz /\
    tie_points_geo_interpolation nan lon lat s f (Some thr) zt = Ok (olon, olat) /\
    nrows olon = nrows ox /\ ncols olon = ncols ox /\
    forall i j, (at_ olon i j, at_ olat i j) = vii_xyz2lonlat zt (at_ ox i j, at_ oy i j, at_ oz i j).
Proof.
  intros lon lat vlon vlat s f n_scans thr zt F1 F2 Ha Hs.
  pose proof Ha as (first & rest & [= <- <-] & Hs2 & Hf & Hn & Hr & Hc & Hd).
  assert (D : shape_eqb lat lon = true /\ dims_eqb lat lon = true) by (rewrite Forall_forall in Hd; apply (Hd lat); right; now left).
  destruct D as [D0 D3]. apply shape_eqb_eq in D0 as [D1 D2]. apply dims_eqb_eq in D3.
  assert (R1 : (1 <= nrows lon)%nat) by nia.
  assert (TC : to_cart lon lat (Some thr) = true).
  { destruct (to_cart lon lat (Some thr)) eqn:T; [reflexivity|exfalso]. apply Hs.
    apply (unsafe_cart lon lat vlon vlat thr F1 F2 (eq_sym D1) (eq_sym D2) R1 ltac:(lia)). exact T. }
  set (xyz := zip_da vii_lonlat2xyz lon lat).
  set (x := map_da (fun p => fst (fst p)) xyz). set (y := map_da (fun p => snd (fst p)) xyz). set (z := map_da snd xyz).
  assert (Hx : args_ok [x; y; z] s f n_scans).
  { exists x, [y; z]. repeat split; auto. repeat constructor; try (apply shape_eqb_eq; auto); apply dims_eqb_eq; reflexivity. }
  destruct (interpolation_ok nan _ _ _ _ Hx) as (outs & E & P).
  inversion P as [|? ox ? ? P1 P']; subst. inversion P' as [|? oy ? ? P2 P'']; subst. inversion P'' as [|? oz ? ? P3 P3']; subst. inversion P3'; subst.
  exists x, y, z, ox, oy, oz. eexists. eexists.
  split. { intros i j Hi Hj. unfold x, y, z, xyz. cbn [map_da zip_da at_]. rewrite F1, F2 by lia. destruct (vii_lonlat2xyz _ _) as [[u v] w]. reflexivity. }
  split; [reflexivity|]. split; [reflexivity|]. split; [reflexivity|]. split; [reflexivity|]. split; [reflexivity|]. split; [reflexivity|].
  split. { split; [exact Hx|]. exists [ox; oy; oz], 0%nat. auto. }
  split. { split; [exact Hx|]. exists [ox; oy; oz], 1%nat. auto. }
  split. { split; [exact Hx|]. exists [ox; oy; oz], 2%nat. auto. }
  split.
  { unfold tie_points_geo_interpolation, align_longitude. rewrite (proj2 (shape_eqb_eq lon lat)), (proj2 (dims_eqb_eq lon lat)) by auto. cbn [negb].
    destruct (Nat.eqb_spec (nrows lat) 0); [lia|]. destruct (Nat.eqb_spec (ncols lat) 0); [lia|]. cbn [orb].
    rewrite TC. cbn [bind]. fold xyz. fold x y z. rewrite E. cbn [bind]. reflexivity. }
  split; [reflexivity|]. split; [reflexivity|].
  intros i j. cbn [map_da zip_da at_ fst snd]. destruct (vii_xyz2lonlat zt (at_ ox i j, at_ oy i j, at_ oz i j)). reflexivity.
Qed.

(** C40: cartesian mode, pixels on tie points *)
Theorem C40_cartesian_tie_points : forall lon lat vlon vlat s f n_scans thr zt j r c,
  finite_da lon vlon -> finite_da lat vlat -> args_ok [lon; lat] s f n_scans -> ~ safe_lonlat lon vlon vlat thr ->
  (j < n_scans)%nat -> (r < s - 1)%nat -> (c < ncols lon - 1)%nat ->
  -180 < vlon (j * s + r)%nat c < 180 -> -90 < vlat (j * s + r)%nat c < 90 ->
  exists olon olat, tie_points_geo_interpolation nan lon lat s f (Some thr) (Some zt) = Ok (olon, olat) /\
    at_ olon (j * (s - 1) * f + r * f)%nat (c * f)%nat = Some (vlon (j * s + r)%nat c) /\
    at_ olat (j * (s - 1) * f + r * f)%nat (c * f)%nat = Some (vlat (j * s + r)%nat c).
Proof.
  intros lon lat vlon vlat s f n_scans thr zt j r c F1 F2 Ha Hs Hj Hr Hc Hlon Hlat.
  destruct (C39_cartesian_when_unsafe lon lat vlon vlat s f n_scans thr (Some zt) F1 F2 Ha Hs)
    as (x & y & z & ox & oy & oz & olon & olat & Exyz & X1 & X2 & Y1 & Y2 & Z1 & Z2 & Px & Py & Pz & E & _ & _ & O).
  exists olon, olat. split; [exact E|].
  pose proof Ha as (first & rest & [= <- <-] & Hs2 & Hf & Hn & Hrow & Hcol & Hd).
  assert (G : forall i k, (i < nrows lon)%nat -> (k < ncols lon)%nat ->
     at_ x i k = Some (fst (fst (@vii_lonlat2xyz _ RT (vlon i k) (vlat i k)))) /\
     at_ y i k = Some (snd (fst (@vii_lonlat2xyz _ RT (vlon i k) (vlat i k)))) /\
     at_ z i k = Some (snd (@vii_lonlat2xyz _ RT (vlon i k) (vlat i k)))).
  { intros i k Hi Hk. specialize (Exyz i k Hi Hk). rewrite vii_lonlat2xyz_RN in Exyz. now injection Exyz as -> -> ->. }
  assert (Ox : at_ ox (j * (s - 1) * f + r * f)%nat (c * f)%nat = at_ x (j * s + r)%nat c).
  { eapply C34_tie_points; eauto; [|lia]. intros i k Hi Hk. rewrite X1 in Hi. rewrite X2 in Hk. exact (proj1 (G i k Hi Hk)). }
  assert (Oy : at_ oy (j * (s - 1) * f + r * f)%nat (c * f)%nat = at_ y (j * s + r)%nat c).
  { eapply C34_tie_points; eauto; [|lia]. intros i k Hi Hk. rewrite Y1 in Hi. rewrite Y2 in Hk. exact (proj1 (proj2 (G i k Hi Hk))). }
  assert (Oz : at_ oz (j * (s - 1) * f + r * f)%nat (c * f)%nat = at_ z (j * s + r)%nat c).
  { eapply C34_tie_points; eauto; [|lia]. intros i k Hi Hk. rewrite Z1 in Hi. rewrite Z2 in Hk. exact (proj2 (proj2 (G i k Hi Hk))). }
  specialize (O (j * (s - 1) * f + r * f)%nat (c * f)%nat). rewrite Ox, Oy, Oz in O.
  rewrite Exyz in O by nia. rewrite vii_agrees in O.
  change (@vii_lonlat2xyz _ RN (Some (vlon (j * s + r)%nat c)) (Some (vlat (j * s + r)%nat c)))
    with (@lonlat2xyz_at _ RN (@MEAN_EARTH_RADIUS _ RN) (Some (vlon (j * s + r)%nat c)) (Some (vlat (j * s + r)%nat c))) in O.
  rewrite mean_radius_RN in O. rewrite round_trip in O by (auto; lra). now injection O.
Qed.
End Finite.
Print Assumptions C34_tie_points.
Print Assumptions C35_own_scan.
Print Assumptions C36_missing_partial.
Print Assumptions C37_bilinear.
Print Assumptions C37_between.
Print Assumptions C37_affine.
Print Assumptions C39_geodetic_when_safe.
Print Assumptions C39_cartesian_when_unsafe.
Print Assumptions C40_cartesian_tie_points.

(** C36 is false: one missing tie point in the last row of a scan makes pixels of the first row of the next
    scan missing, whatever the rest of the data. *)
Lemma gen1_None f c b (y : nat -> option R) :
  y (lo_of c b) = None \/ y (lo_of c b + 1) = None -> @gen1 _ RN f c b y = None.
Proof.
  intros H. unfold gen1. cbv zeta. cbn [nadd nmul ndiv nsub RN]. destruct H as [H|H]; rewrite H.
  - destruct (lift2 Rmult _ _); reflexivity.
  - cbn [lift2 RNdiv]. destruct (y (lo_of c b)); reflexivity.
Qed.
Theorem C36_leak : forall nan datas s f n_scans data out j c b,
  produced nan datas s f n_scans data out -> 1 <= j < n_scans -> c < ncols data - 1 -> b < f ->
  at_ data (j * s - 1) (lo_of c b) = None \/ at_ data (j * s - 1) (lo_of c b + 1) = None ->
  at_ out (j * (s - 1) * f) (c * f + b) = None.
Proof.
  intros nan datas s f n_scans data out j c b HP Hj Hc Hb H.
  destruct (produced_pixels nan _ _ _ _ _ _ HP) as ((_ & _ & _ & P) & Hrow & Hcol & Hf & Hs).
  replace (j * (s - 1) * f) with (j * (s - 1) * f + 0 * f + 0) by lia. rewrite P by lia.
  assert (L : lo_of (j * s + 0) 0 = j * s - 1).
  { unfold lo_of. rewrite Nat.add_0_r. destruct (Nat.leb_spec 1 (j * s)); [reflexivity|nia]. }
  unfold pixel. apply gen1_None.
  destruct H as [H|H]; [left|right]; apply gen1_None; left; rewrite L; exact H.
Qed.
Print Assumptions C36_leak.

Definition leak_data : darray (option R) :=
  {| dims := (0, 1); nrows := 4; ncols := 2; at_ := fun i k => if (i =? 1) && (k =? 0) then None else Some 1%R |}.
Theorem C36_refuted : exists nan datas s f n_scans data out j i k,
  produced nan datas s f n_scans data out /\ j < n_scans /\
  (forall i k, j * s <= i < j * s + s -> k < ncols data -> at_ data i k <> None) /\
  j * (s - 1) * f <= i < (j + 1) * (s - 1) * f /\ k < ncols out /\ at_ out i k = None.
Proof.
  assert (A : args_ok [leak_data] 2 3 2).
  { exists leak_data, []. repeat split; cbn; try lia. repeat constructor. }
  destruct (@interpolation_ok _ RN None [leak_data] 2 3 2 A) as (outs & E & P).
  inversion P as [|? out ? ? P1 P']; subst. inversion P'; subst.
  assert (HP : produced None [leak_data] 2 3 2 leak_data out) by (split; [exact A|]; exists [out], 0; auto).
  exists None, [leak_data], 2, 3, 2, leak_data, out, 1, 3, 0.
  split; [exact HP|]. split; [lia|]. split.
  { intros i k Hi Hk. cbn [leak_data at_]. destruct (Nat.eqb_spec i 1); [lia|]. discriminate. }
  split; [cbn; lia|]. split; [destruct P1 as (_ & _ & -> & _); cbn; lia|].
  apply (C36_leak None [leak_data] 2 3 2 leak_data out 1 0 0 HP); cbn; auto; lia.
Qed.
Print Assumptions C36_refuted.

(** the hypotheses of C33 - C40: two scans of 2 x 3 tie points *)
Definition ex_lon : darray (option R) := {| dims := (0, 1); nrows := 4; ncols := 3; at_ := fun i k => Some (INR (i + k)) |}.
Definition ex_lat : darray (option R) := {| dims := (0, 1); nrows := 4; ncols := 3; at_ := fun i k => Some (INR i) |}.
Example C33_case : args_ok [ex_lon; ex_lat] 2 8 2 /\ finite_da ex_lon (fun i k => INR (i + k)) /\
  safe_lonlat ex_lon (fun i k => INR (i + k)) (fun i k => INR i) 60 /\ ~ safe_lonlat ex_lon (fun i k => INR (i + k)) (fun i k => INR i) 1.
Proof.
  split; [|split; [|split]].
  - exists ex_lon, [ex_lat]. repeat split; cbn; try lia. repeat constructor.
  - intros i j _ _. reflexivity.
  - split.
    + intros i j Hi _. cbn in Hi. rewrite Rabs_pos_eq by apply pos_INR. apply (Rle_trans _ (INR 4)); [apply le_INR; lia|cbn; lra].
    + intros i j k l Hi Hj _ _. cbn in Hi, Hj. pose proof (pos_INR (k + l)).
      assert (B : (INR (i + j) <= INR 6)%R) by (apply le_INR; lia). cbn [INR] in B. cbn. lra.
  - intros [A _]. specialize (A 2 0 ltac:(cbn; lia) ltac:(cbn; lia)). cbn in A. rewrite Rabs_pos_eq in A; lra.
Qed.
Example C33_run : match @tie_points_interpolation Q QT 0%Q
     [{| dims := (0, 1); nrows := 4; ncols := 2; at_ := fun i k => inject_Z (Z.of_nat (10 * i + k)) |}] 2 2 with
  | Ok [o] => (nrows o, ncols o, map (fun i => map (at_ o i) (seq 0 2)) (seq 0 4))
  | _ => (0, 0, []) end = (4, 2, [[0; 1 # 2]; [5; 11 # 2]; [20; 41 # 2]; [25; 51 # 2]]%Q).
Proof. vm_compute. reflexivity. Qed.

(** C65: longitudes of cartesian mode point to the interpolated position, except exactly opposite to the
    prime meridian (y = 0, x < 0). *)
Theorem C65_direction_partial : forall nan lon lat vlon vlat s f n_scans thr zt,
  finite_da lon vlon -> finite_da lat vlat -> args_ok [lon; lat] s f n_scans -> ~ safe_lonlat lon vlon vlat thr ->
  exists x y z ox oy oz olon olat,
    (forall i j, i < nrows lon -> j < ncols lon ->
       (at_ x i j, at_ y i j, at_ z i j) = @vii_lonlat2xyz _ RN (Some (vlon i j)) (Some (vlat i j))) /\
    produced nan [x; y; z] s f n_scans x ox /\ produced nan [x; y; z] s f n_scans y oy /\ produced nan [x; y; z] s f n_scans z oz /\
    @tie_points_geo_interpolation _ RN nan lon lat s f (Some thr) zt = Ok (olon, olat) /\
    forall i j px py, at_ ox i j = Some px -> at_ oy i j = Some py -> (px * px + py * py <> 0)%R -> ~ (py = 0 /\ px < 0)%R ->
      exists l, at_ olon i j = Some l /\ (-180 <= l <= 180)%R /\ points_to l px py.
Proof.
  intros nan lon lat vlon vlat s f n_scans thr zt F1 F2 Ha Hs.
  destruct (C39_cartesian_when_unsafe nan lon lat vlon vlat s f n_scans thr zt F1 F2 Ha Hs)
    as (x & y & z & ox & oy & oz & olon & olat & Exyz & X1 & X2 & Y1 & Y2 & Z1 & Z2 & Px & Py & Pz & E & _ & _ & O).
  exists x, y, z, ox, oy, oz, olon, olat. repeat (split; [assumption|]).
  intros i j px py Hx Hy Hne Hd. specialize (O i j). rewrite Hx, Hy in O.
  destruct (C18_direction_partial (Some 1%R) zt true px py (at_ oz i j) Hne Hd) as (l & L1 & L2 & _ & _ & L3).
  exists l. split; [|split; [exact L1|exact L2]]. rewrite <- L3. apply (f_equal fst) in O. exact O.
Qed.
Print Assumptions C65_direction_partial.

(** Half way between the longitudes l and -l (90 < l < 180: across the antimeridian) at equal latitude the
    longitude is 0, on the other side of the Earth. *)
Definition am_lon (l : R) : darray (option R) := {| dims := (0, 1); nrows := 2; ncols := 2; at_ := fun i k => Some (if k =? 0 then l else (- l)%R) |}.
Definition am_lat (p : R) : darray (option R) := {| dims := (0, 1); nrows := 2; ncols := 2; at_ := fun i k => Some p |}.
Theorem C65_antimeridian : forall nan l p thr zt, (90 < l < 180)%R -> (-90 < p < 90)%R ->
  exists olon olat, @tie_points_geo_interpolation _ RN nan (am_lon l) (am_lat p) 2 2 (Some thr) zt = Ok (olon, olat) /\
    at_ olon 0 1 = Some 0%R.
Proof.
  intros nan l p thr zt Hl Hp.
  assert (A : args_ok [am_lon l; am_lat p] 2 2 1).
  { exists (am_lon l), [am_lat p]. repeat split; cbn; try lia. repeat constructor. }
  assert (U : ~ safe_lonlat (am_lon l) (fun i k => if k =? 0 then l else (- l)%R) (fun i k => p) thr).
  { intros [_ B]. specialize (B 0 0 0 1 ltac:(cbn; lia) ltac:(cbn; lia) ltac:(cbn; lia) ltac:(cbn; lia)). cbn in B. lra. }
  destruct (C39_cartesian_when_unsafe nan (am_lon l) (am_lat p) (fun i k => if k =? 0 then l else (- l)%R) (fun i k => p) 2 2 1 thr zt)
    as (x & y & z & ox & oy & oz & olon & olat & Exyz & X1 & X2 & Y1 & Y2 & Z1 & Z2 & Px & Py & Pz & E & _ & _ & O);
    [intros i j _ _; reflexivity|intros i j _ _; reflexivity|exact A|exact U|].
  exists olon, olat. split; [exact E|].
  set (vx := fun i k : nat => fst (fst (@vii_lonlat2xyz _ RT (if k =? 0 then l else (- l)%R) p))).
  set (vy := fun i k : nat => snd (fst (@vii_lonlat2xyz _ RT (if k =? 0 then l else (- l)%R) p))).
  assert (Fx : finite_da x vx).
  { intros i k Hi Hk. rewrite X1 in Hi. rewrite X2 in Hk. specialize (Exyz i k Hi Hk). rewrite vii_lonlat2xyz_RN in Exyz. now injection Exyz. }
  assert (Fy : finite_da y vy).
  { intros i k Hi Hk. rewrite Y1 in Hi. rewrite Y2 in Hk. specialize (Exyz i k Hi Hk). rewrite vii_lonlat2xyz_RN in Exyz. now injection Exyz. }
  pose proof (C37_bilinear nan _ 2 2 1 x ox vx 0 0 0 0 1 Px Fx ltac:(lia) ltac:(lia) ltac:(lia) ltac:(rewrite X2; cbn; lia) ltac:(lia)) as Bx.
  pose proof (C37_bilinear nan _ 2 2 1 y oy vy 0 0 0 0 1 Py Fy ltac:(lia) ltac:(lia) ltac:(lia) ltac:(rewrite Y2; cbn; lia) ltac:(lia)) as By.
  cbv zeta in Bx, By. cbn [Nat.mul Nat.add Nat.sub] in Bx, By.
  specialize (O 0 1). rewrite Bx, By in O. apply (f_equal fst) in O. cbn [fst] in O. rewrite O.
  unfold vx, vy. cbn [Nat.eqb]. unfold vii_lonlat2xyz, deg2rad, MEAN_EARTH_RADIUS. cbn [fst snd nmul ndiv ncos nsin npi nz RT INR].
  set (lam := (l * (PI / 180))%R). set (phi := (p * (PI / 180))%R).
  replace (- l * (PI / 180))%R with (- lam)%R by (unfold lam; ring). rewrite cos_neg, sin_neg.
  match goal with |- fst (vii_xyz2lonlat _ (Some ?a, Some ?b, _)) = _ => replace b with 0%R by field;
    replace a with (63710087714 / 10000 * cos phi * cos lam)%R by field end.
  apply (C18_antimeridian_value (Some 1%R) zt true).
  pose proof (cos_lat_pos p Hp) as Cp. fold phi in Cp.
  assert (Cl : (cos lam < 0)%R).
  { unfold lam. pose proof PI_RGT_0. apply cos_lt_0; nra. }
  assert (0 < 63710087714 / 10000 * cos phi)%R by (apply Rmult_lt_0_compat; lra). nra.
Qed.
Print Assumptions C65_antimeridian.
Theorem C65_refuted : exists nan lon lat s f thr zt olon olat i k, 
  @tie_points_geo_interpolation _ RN nan lon lat s f (Some thr) zt = Ok (olon, olat) /\
  (forall i k l, at_ lon i k = Some l -> 170 <= Rabs l)%R /\ at_ olon i k = Some 0%R.
Proof.
  destruct (C65_antimeridian None 175 10 60 (Some (8 / 10))%R) as (olon & olat & E & H); [lra|lra|].
  exists None, (am_lon 175), (am_lat 10), 2, 2, 60%R, (Some (8 / 10))%R, olon, olat, 0, 1. split; [exact E|]. split; [|exact H].
  intros i k l Hl. cbn in Hl. injection Hl as <-. destruct (k =? 0); [rewrite Rabs_pos_eq|rewrite Rabs_left]; lra.
Qed.
Print Assumptions C65_refuted.
