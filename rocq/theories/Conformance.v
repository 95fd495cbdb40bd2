(** The model run on inputs of the project's own tests (geotiepoints/tests), compared with the results expected there. These are
    tests of the model, not proofs: they show that the definitions of this directory behave like the program on data
    for which the program's results are known. *)
From Coq Require Import ZArith List Bool Lia QArith.
From Verif Require Import Base Num Approx Splits Geo Mem Interp Modis ModisProofs PropsModis SimpleModis SimpleModisProofs PropsSimple ConformanceData.
Import ListNotations.
Open Scope Z_scope.

(** ** MODIS scans (test_modisinterpolator.py, test_simple_modis_interpolator.py)
    testdata/modis_test_data.h5 holds two scans of MODIS geolocation at 1 km and the 500 m and 250 m longitudes and latitudes that
    modisinterpolator.py computed from them (testdata/create_modis_test_data.py:34, 58-62). ConformanceData.v has some of its columns; the other
    elements are set to not-a-number here, so the pixels compared also do not depend on them. *)
Definition deg (z : Z) : Z := Z.shiftl z (prec - 30).
Definition pick (sel : Z * Z * Z -> Z) (t : list (Z * list (Z * Z * Z))) (r i : Z) : option Z :=
  match find (fun e => fst e =? i) t with
  | Some (_, l) => match nth_error l (Z.to_nat r) with Some p => Some (deg (sel p)) | None => None end
  | None => None
  end.
Definition table (sel : Z * Z * Z -> Z) (t : list (Z * list (Z * Z * Z))) (n w : Z) : ndarray (option Z) :=
  {| adt := Float32; arows := n; acols := w; aat := pick sel t |}.
Definition lon_of (p : Z * Z * Z) : Z := fst (fst p).
Definition lat_of (p : Z * Z * Z) : Z := snd (fst p).
Definition satz_of (p : Z * Z * Z) : Z := snd p.

(** less than [cm] centimetres apart, with 111.32 km for a degree (test_modisinterpolator.py:assert_geodetic_distance) *)
Definition apart (cm : Z) (p : option Z * option Z) (e : Z * Z) : bool :=
  match p with
  | (Some lon, Some lat) =>
    let '(elon, elat) := e in
    let dx := fx_mul (lon - deg elon) (fx_cos (fx_mul (deg elat) (fx_div fx_pi (fx_of 180)))) in
    let dy := lat - deg elat in
    let t := fx_frac cm 11132000 in
    fx_mul dx dx + fx_mul dy dy <? fx_mul t t
  | _ => false
  end.

#[local] Existing Instance FX.
Definition checked (cm nr w : Z) (pix : Z -> Z -> option Z * option Z) (expected : list (Z * Z * (Z * Z))) : bool :=
  forallb (fun '(r, i, e) => (0 <=? r) && (r <? nr) && (0 <=? i) && (i <? w) && apart cm (pix r i) e) expected.
Definition agrees (cm : Z) (olon olat : ndarray (option Z)) (expected : list (Z * Z * (Z * Z))) : Prop :=
  forall r i e, In (r, i, e) expected -> apart cm (aat olon r i, aat olat r i) e = true.
Lemma checked_agrees cm nr w pix expected olon olat : checked cm nr w pix expected = true ->
  (forall r i, 0 <= r < nr -> 0 <= i < w -> (aat olon r i, aat olat r i) = pix r i) -> agrees cm olon olat expected.
Proof.
  intros H V r i e Hin. unfold checked in H. rewrite forallb_forall in H. specialize (H _ Hin). cbv beta iota in H.
  apply andb_prop in H as [H1 H2]. rewrite V; [exact H2| |]; lia.
Qed.

(** the arrays are a whole number of scans *)
Lemma modis_conforms cm k g n w (lon lat satz : ndarray (option Z)) expected c :
  cinit (coarse_of k) (fine_of k) (if is_1km k then 0 else w) = Ok c ->
  0 <= n -> n mod scan_len k = 0 -> std_width k w -> shaped Float32 n w lon lat satz ->
  checked cm (n * factor k) (fine_width k) (fun r i => pixel c lon lat satz (r / fine_len k) (r mod fine_len k) i) expected = true ->
  exists olon olat, modis k g lon lat satz = Ok (olon, olat) /\ agrees cm olon olat expected.
Proof.
  intros Hc Hn Hm Hw S H. rewrite (modis_shaped k g Float32 n w) by (auto using std_is; discriminate). rewrite Hc. cbn [bind].
  destruct (cinit_std k w Hw) as (c' & p & E & L & E1 & E2 & E3 & E4 & E5). assert (c' = c) by congruence. subst c'.
  destruct S as (D1 & D2 & D3 & R1 & R2 & R3 & C1 & C2 & C3).
  destruct (interpolate_cfg_ok c p L g lon lat satz n Hn R1 R2 R3) as (olon & olat & O & _ & _ & _ & _ & _ & _ & V); try congruence.
  exists olon, olat. split; [exact O|]. apply (checked_agrees _ _ _ _ _ _ _ H). intros r i Hr Hi.
  rewrite V by (rewrite ?E2, ?E3; assumption). unfold fine_len in *. rewrite E1, E2.
  assert (0 < scan_len k) by (destruct k; reflexivity).
  assert (n / scan_len k * scan_len k = n) by (pose proof (Z.div_mod n (scan_len k)); lia).
  destruct (Z.ltb_spec r (n / scan_len k * (scan_len k * factor k))); [reflexivity|].
  replace (n / scan_len k * (scan_len k * factor k)) with (n * factor k) in * by (rewrite Z.mul_assoc; congruence). lia.
Qed.
Lemma simple_conforms cm k g n w (lon lat : ndarray (option Z)) expected :
  0 <= n -> n mod 10 = 0 -> 2 <= w -> shaped2 Float32 n w lon lat ->
  checked cm (fac2 k * n) (fac2 k * w) (fun r i => ll_scan (fac2 k) 10 w lon lat (r / (fac2 k * 10)) (r mod (fac2 k * 10)) i) expected = true ->
  exists olon olat, simple k g lon lat = Ok (olon, olat) /\ agrees cm olon olat expected.
Proof.
  intros Hn Hm Hw S H. destruct (simple_run k g Float32 n w lon lat ltac:(discriminate) Hn Hw S) as (olon & olat & E & _ & V).
  exists olon, olat. split; [exact E|]. apply (checked_agrees _ _ _ _ _ _ _ H). intros r i Hr Hi. rewrite V by assumption.
  assert (n / 10 * 10 = n) by (pose proof (Z.div_mod n 10); lia).
  destruct (Z.ltb_spec r (n / 10 * (fac2 k * 10))); [reflexivity|]. lia.
Qed.

(** test_modisinterpolator.py:119-144, the first four cases, with the distances of the tests *)
Example test_1km_to_500m : forall g, exists olon olat,
  modis M1km_500m g (table lon_of tie_1km 20 1354) (table lat_of tie_1km 20 1354) (table satz_of tie_1km 20 1354) = Ok (olon, olat) /\
  agrees 500 olon olat fine_500m.
Proof. intros g. eapply (modis_conforms 500 M1km_500m g 20 1354); [reflexivity|lia|reflexivity|reflexivity|repeat split|vm_compute; reflexivity]. Qed.
Example test_1km_to_250m : forall g, exists olon olat,
  modis M1km_250m g (table lon_of tie_1km 20 1354) (table lat_of tie_1km 20 1354) (table satz_of tie_1km 20 1354) = Ok (olon, olat) /\
  agrees 830 olon olat fine_250m.
Proof. intros g. eapply (modis_conforms 830 M1km_250m g 20 1354); [reflexivity|lia|reflexivity|reflexivity|repeat split|vm_compute; reflexivity]. Qed.
Example test_5km_to_1km : forall g, exists olon olat,
  modis M5km_1km g (table lon_of tie_5km 4 271) (table lat_of tie_5km 4 271) (table satz_of tie_5km 4 271) = Ok (olon, olat) /\
  agrees 2500 olon olat fine_1km.
Proof. intros g. eapply (modis_conforms 2500 M5km_1km g 4 271); [reflexivity|lia|reflexivity|now right|repeat split|vm_compute; reflexivity]. Qed.
Example test_5km_to_1km_270 : forall g, exists olon olat,
  modis M5km_1km g (table lon_of tie_5km 4 270) (table lat_of tie_5km 4 270) (table satz_of tie_5km 4 270) = Ok (olon, olat) /\
  agrees 11000 olon olat fine_1km.
Proof. intros g. eapply (modis_conforms 11000 M5km_1km g 4 270); [reflexivity|lia|reflexivity|now left|repeat split|vm_compute; reflexivity]. Qed.
(** test_simple_modis_interpolator.py:21-45 *)
Example test_simple_500m : forall g, exists olon olat,
  simple To500m g (table lon_of tie_1km 20 1354) (table lat_of tie_1km 20 1354) = Ok (olon, olat) /\ agrees 1600 olon olat fine_500m.
Proof. intros g. apply (simple_conforms 1600 To500m g 20 1354); [lia|reflexivity|lia|repeat split|vm_compute; reflexivity]. Qed.
Example test_simple_250m : forall g, exists olon olat,
  simple To250m g (table lon_of tie_1km 20 1354) (table lat_of tie_1km 20 1354) = Ok (olon, olat) /\ agrees 2735 olon olat fine_250m.
Proof. intros g. apply (simple_conforms 2735 To250m g 20 1354); [lia|reflexivity|lia|repeat split|vm_compute; reflexivity]. Qed.
