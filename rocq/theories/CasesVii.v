(** Concrete cases of the theorems C34 to C40 and C65: two scans of 2 x 3 tie points ([ex_lon], [ex_lat] of PropsVii.v). *)
From Coq Require Import ZArith List Bool Lia Reals Lra.
From Verif Require Import Base Num Geo Vii ViiProofs PropsGeo PropsVii.
Import ListNotations.
Open Scope nat_scope.
#[local] Existing Instance RN.

Definition ex_out (nan : option R) (d : darray (option R)) (f : nat) : darray (option R) :=
  match tie_points_interpolation nan [d] 2 f with Ok [o] => o | _ => d end.
Lemma ex_produced nan d f : nrows d = 4 -> ncols d = 3 -> 1 <= f -> produced nan [d] 2 f 2 d (ex_out nan d f).
Proof.
  intros Hr Hc Hf. assert (A : args_ok [d] 2 f 2).
  { exists d, []. repeat split; try lia. constructor; [|constructor]. split; [now apply shape_eqb_eq|now apply dims_eqb_eq]. }
  destruct (interpolation_ok nan [d] 2 f 2 A) as (outs & E & P). inversion P as [|? out ? ? _ P']; subst. inversion P'; subst.
  split; [exact A|]. exists [out], 0. unfold ex_out. rewrite E. auto.
Qed.
Lemma ex_finite : finite_da ex_lon (fun i k => INR (i + k)). Proof. intros i j _ _. reflexivity. Qed.
Lemma ex_finite_lat : finite_da ex_lat (fun i k => INR i). Proof. intros i j _ _. reflexivity. Qed.

(** the second scan starts at row 8: its tie point (0, 1) is the value of pixel (8, 8) *)
Example C34_case : forall nan, at_ (ex_out nan ex_lon 8) 8 8 = Some 3%R.
Proof.
  intros nan. pose proof (C34_tie_points nan [ex_lon] 2 8 2 ex_lon _ _ 1 0 1 (ex_produced nan ex_lon 8 eq_refl eq_refl ltac:(lia)) ex_finite
    ltac:(lia) ltac:(lia) ltac:(cbn; lia)) as H.
  change (at_ (ex_out nan ex_lon 8) 8 8 = Some (INR 3)) in H. rewrite H. cbn [INR]. f_equal. lra.
Qed.
(** other values in the first scan: pixel (11, 3) of the second one stays *)
Definition ex_other : darray (option R) := {| dims := (0, 1); nrows := 4; ncols := 3; at_ := fun i k => Some (if i <? 2 then 100 else INR (i + k))%R |}.
Example C35_case : forall nan, at_ (ex_out nan ex_lon 8) 11 3 = at_ (ex_out nan ex_other 8) 11 3.
Proof.
  intros nan.
  apply (C35_own_scan nan [ex_lon] [ex_other] 2 8 2 ex_lon ex_other _ _ (fun i k => INR (i + k)) (fun i k => if i <? 2 then 100 else INR (i + k))%R 1 0 3 0 3
    (ex_produced nan ex_lon 8 eq_refl eq_refl ltac:(lia)) (ex_produced nan ex_other 8 eq_refl eq_refl ltac:(lia))); try (cbn; lia).
  - apply ex_finite.
  - intros i j _ _. reflexivity.
  - intros i k Hi _. cbn [at_ ex_lon ex_other]. destruct (Nat.ltb_spec i 2); [lia|reflexivity].
Qed.
(** [leak_data] misses values in the first scan: the second one is complete from its second row on *)
Example C36_case : forall nan, at_ (match tie_points_interpolation nan [leak_data] 2 3 with Ok [o] => o | _ => leak_data end) 4 1 <> None.
Proof.
  intros nan. assert (A : args_ok [leak_data] 2 3 2).
  { exists leak_data, []. repeat split; cbn; try lia. repeat constructor. }
  destruct (interpolation_ok nan [leak_data] 2 3 2 A) as (outs & E & P). inversion P as [|? out ? ? _ P']; subst. inversion P'; subst.
  assert (HP : produced nan [leak_data] 2 3 2 leak_data out) by (split; [exact A|]; exists [out], 0; auto).
  rewrite E. apply (C36_missing_partial nan [leak_data] 2 3 2 leak_data out 1 0 1 0 1 HP); try (cbn; lia).
  intros i k Hi Hk. cbn [leak_data at_]. destruct (Nat.eqb_spec i 1); [lia|]. discriminate.
Qed.
(** row 2 + 4/8, column 1 + 2/8 *)
Example C37_case : forall nan, at_ (ex_out nan ex_lon 8) 12 10 = Some 3.75%R.
Proof.
  intros nan. pose proof (C37_affine nan [ex_lon] 2 8 2 ex_lon _ (fun i k => INR (i + k)) 1 0 4 1 2 0%R 1%R 1%R 0%R (ex_produced nan ex_lon 8 eq_refl eq_refl ltac:(lia)) ex_finite
    ltac:(lia) ltac:(lia) ltac:(lia) ltac:(cbn; lia) ltac:(lia) ltac:(intros; cbv beta; rewrite plus_INR; ring)) as H.
  cbv zeta in H. cbn [Nat.mul Nat.add Nat.sub INR] in H. rewrite H. f_equal. lra.
Qed.
Example C39_case : forall nan zt, exists olon olat, tie_points_geo_interpolation nan ex_lon ex_lat 2 8 (Some 60%R) zt = Ok (olon, olat) /\
  produced nan [ex_lon; ex_lat] 2 8 2 ex_lon olon /\ produced nan [ex_lon; ex_lat] 2 8 2 ex_lat olat.
Proof.
  intros nan zt. destruct C33_case as (A & _ & S & _).
  destruct (C39_geodetic_when_safe nan ex_lon ex_lat _ _ 2 8 2 60%R zt ex_finite ex_finite_lat A S) as (olon & olat & E & P1 & P2 & _). eauto.
Qed.
(** latitudes beyond the threshold of 1 degree: cartesian; the tie point (0, 1) of the second scan is at 3 degrees east, 2 degrees north *)
Example C40_case : forall nan, exists olon olat, tie_points_geo_interpolation nan ex_lon ex_lat 2 8 (Some 1%R) (Some 0.8%R) = Ok (olon, olat) /\
  at_ olon 8 8 = Some 3%R /\ at_ olat 8 8 = Some 2%R.
Proof.
  intros nan. destruct C33_case as (A & _ & _ & U).
  destruct (C40_cartesian_tie_points nan ex_lon ex_lat _ _ 2 8 2 1%R 0.8%R 1 0 1 ex_finite ex_finite_lat A U) as (olon & olat & E & P1 & P2);
    try (cbn; lia); try (cbn [Nat.mul Nat.add INR]; lra).
  exists olon, olat. split; [exact E|]. cbn [Nat.mul Nat.add Nat.sub INR] in P1, P2. rewrite P1, P2. split; f_equal; lra.
Qed.
(** ... and the longitudes of all pixels with a position off the axis point to it *)
Example C65_case : forall nan zt, exists ox oy olon olat, tie_points_geo_interpolation nan ex_lon ex_lat 2 8 (Some 1%R) zt = Ok (olon, olat) /\
  forall i j px py, at_ ox i j = Some px -> at_ oy i j = Some py -> (px * px + py * py <> 0)%R -> ~ (py = 0 /\ px < 0)%R ->
    exists l, at_ olon i j = Some l /\ (-180 <= l <= 180)%R /\ points_to l px py.
Proof.
  intros nan zt. destruct C33_case as (A & _ & _ & U).
  destruct (C65_direction_partial nan ex_lon ex_lat _ _ 2 8 2 1%R zt ex_finite ex_finite_lat A U) as (x & y & z & ox & oy & oz & olon & olat & _ & _ & _ & _ & E & H).
  exists ox, oy, olon, olat. auto.
Qed.
