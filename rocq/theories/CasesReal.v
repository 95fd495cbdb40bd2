(** Concrete cases of C88, C105, C121, C125. *)
From Coq Require Import ZArith List Bool Lia Reals Lra.
From Flocq.Core Require Import Core.
From Verif Require Import Spec Base Num Float Vii ViiProofs PropsVii FloatVii PropsFloatVii PropsAccuracy PropsScanAcc.
From Verif Require Import Chunks GridLinear SplineGrid PropsGridLinear PropsSplineGrid PropsSymmetry.
From Verif Require PropsSimple.
Import ListNotations.
#[local] Existing Instance RT.
Open Scope R_scope.

(** the second scan again after a change in the first one: only its first pixel row may differ *)
Example C88_case : forall m, exists out1 out2, yields (F64 m) None [two_scans 45] 2 8 2 (two_scans 45) out1 /\ yields (F64 m) None [two_scans (bpow radix2 60)] 2 8 2 (two_scans (bpow radix2 60)) out2 /\
  forall a b, (1 <= a < 8)%nat -> (b < 8)%nat -> at_ out1 (8 + a) b = at_ out2 (8 + a) b.
Proof.
  intros m. destruct (two_scans_yields m 45) as (out1 & Y1 & _). destruct (two_scans_yields m (bpow radix2 60)) as (out2 & Y2 & _).
  exists out1, out2. split; [exact Y1|]. split; [exact Y2|]. intros a b Ha Hb.
  apply (C88_own_scan_partial _ (F64 m) None _ _ 2 8 2 _ _ out1 out2 1 0 a 0 b Y1 Y2); try reflexivity; try (cbn; lia).
  intros i k Hi Hk. cbn [two_scans at_]. destruct (Nat.eqb_spec i 1); [lia|reflexivity].
Qed.

(** the values 0, 0, 1, 1 along every row stay between -14 and 15 *)
Example C105_case : forall other, exists v,
  rbs other Spline default_degrees ([0; 1; 2; 3], [0; 1; 2; 3]) (double_data (repeat [0; 0; 1; 1] 4)) tt (1 / 2) (5 / 2) = Some v /\ -15 < v < 16.
Proof.
  intros other. assert (Ev : evenly 1 [0; 1; 2; 3]). { split; [lra|]. cbn [length]. intros i Hi. destruct i as [|[|[|i]]]; cbn [nth]; [lra..|lia]. }
  destruct (C105_excess_partial other 1 1 [0; 1; 2; 3] [0; 1; 2; 3] (repeat [0; 0; 1; 1] 4) 0 1 0 2 (1 / 2) (5 / 2) Ev Ev ltac:(cbn; lia) ltac:(cbn; lia)) as (v & E & B).
  - split; [reflexivity|repeat constructor].
  - unfold between, all2. cbn [repeat]. repeat (apply Forall_cons || apply Forall_nil); lra.
  - cbn; lia.
  - cbn [nth]; lra.
  - cbn; lia.
  - cbn [nth]; lra.
  - exists v. split; [exact E|]. cbv zeta in B. lra.
Qed.

(** Both runs in the cartesian mode: tie points beyond 60 degrees, turned by 100 degrees. *)
Example C121_case_cartesian : forall nan zt, exists olon olat olon' olat',
  let lon' := {| dims := (0, 1)%nat; nrows := 2; ncols := 2; at_ := fun i k => Some (if (k =? 0)%nat then 110 else 90) |} in
  @tie_points_geo_interpolation _ RN nan (am_lon 10) (am_lat 70) 2 2 (Some 60) (Some zt) = Ok (olon, olat) /\ @tie_points_geo_interpolation _ RN nan lon' (am_lat 70) 2 2 (Some 60) (Some zt) = Ok (olon', olat') /\
  forall i k, (i < nrows olon)%nat -> (k < ncols olon)%nat -> moved_pixel (Turn 100) (at_ olon i k, at_ olat i k) (at_ olon' i k, at_ olat' i k).
Proof.
  intros nan zt. set (lon' := {| dims := (0, 1)%nat; nrows := 2; ncols := 2; at_ := fun i k => Some (if (k =? 0)%nat then 110 else 90) |}).
  assert (U : forall lon v, nrows lon = 2%nat -> ncols lon = 2%nat -> ~ safe_lonlat lon v (fun _ _ => 70) 60).
  { intros lon v H1 H2 [A _]. specialize (A 0%nat 0%nat). rewrite H1, H2 in A. specialize (A ltac:(lia) ltac:(lia)). rewrite Rabs_pos_eq in A; lra. }
  apply (C121_cartesian_partial nan (Turn 100) (am_lon 10) (am_lat 70) lon' (am_lat 70) (fun i k => if (k =? 0)%nat then 10 else - 10) (fun _ _ => 70)
    (fun i k => if (k =? 0)%nat then 110 else 90) (fun _ _ => 70) 2 2 1 60 zt).
  - intros i j _ _. reflexivity.
  - intros i j _ _. reflexivity.
  - intros i j _ _. reflexivity.
  - intros i j _ _. reflexivity.
  - exists (am_lon 10), [am_lat 70]. repeat split; cbn; try lia. repeat constructor.
  - exists lon', [am_lat 70]. repeat split; cbn; try lia. repeat constructor.
  - reflexivity.
  - intros i j _ _. cbn [moved]. split; [|reflexivity]. exists 0%Z. destruct (j =? 0)%nat; lra.
  - now apply U.
  - now apply U.
Qed.
(** Both in the geodetic mode: the southern image of a swath. *)
Example C121_case_geodetic : forall nan zt, exists olon olat olon' olat',
  @tie_points_geo_interpolation _ RN nan (am_lon 10) (am_lat 40) 2 2 (Some 60) zt = Ok (olon, olat) /\ @tie_points_geo_interpolation _ RN nan (am_lon 10) (am_lat (-40)) 2 2 (Some 60) zt = Ok (olon', olat') /\
  forall i k, (i < nrows olon)%nat -> (k < ncols olon)%nat -> exists x y x' y', at_ olon i k = Some x /\ at_ olat i k = Some y /\ at_ olon' i k = Some x' /\ at_ olat' i k = Some y' /\ moved NorthSouth x y x' y'.
Proof.
  intros nan zt.
  assert (S : forall p, -50 < p < 50 -> safe_lonlat (am_lon 10) (fun i k => if (k =? 0)%nat then 10 else - 10) (fun _ _ => p) 60).
  { intros p Hp. split; [intros; apply Rabs_le; lra|]. intros i j k l _ _ _ _. destruct (j =? 0)%nat, (l =? 0)%nat; lra. }
  apply (C121_geodetic_partial nan NorthSouth (am_lon 10) (am_lat 40) (am_lon 10) (am_lat (-40)) (fun i k => if (k =? 0)%nat then 10 else - 10) (fun _ _ => 40)
    (fun i k => if (k =? 0)%nat then 10 else - 10) (fun _ _ => -40) 2 2 1 60 zt).
  - intros i j _ _. reflexivity.
  - intros i j _ _. reflexivity.
  - intros i j _ _. reflexivity.
  - intros i j _ _. reflexivity.
  - exists (am_lon 10), [am_lat 40]. repeat split; cbn; try lia. repeat constructor.
  - exists (am_lon 10), [am_lat (-40)]. repeat split; cbn; try lia. repeat constructor.
  - reflexivity.
  - intros i j _ _. cbn [moved]. split; [exists 0%Z; lra|lra].
  - apply S; lra.
  - apply S; lra.
  - intros i j k l _ _ _ _. destruct (j =? 0)%nat, (l =? 0)%nat; lra.
Qed.

(** the field sin y + cos x on ten rows of five tie points: at the row position 1/2 and the column position 5 (one pixel beyond) *)
Example C125_case : Rabs (PropsSimple.bilinear 10 5 (fun a c => sin (IZR a) + cos (IZR c)) (1 / 2) 5 - (sin (1 / 2) + cos 5)) <= 9 / 8.
Proof.
  eapply Rle_trans; [apply (C125_bilinear 10 5 _ (fun y x => sin y + cos x) 1 1 (1 / 2) 5)|]; try lia; try lra.
  - split.
    + intros a _. exists (fun x => - sin x), (fun x => - cos x). intros t _. split; [|split].
      * replace (- sin t) with (0 + - sin t) by ring. apply derivable_pt_lim_plus; [apply derivable_pt_lim_const|apply derivable_pt_lim_cos].
      * apply derivable_pt_lim_opp, derivable_pt_lim_sin.
      * rewrite Rabs_Ropp. apply Rabs_le, COS_bound.
    + intros x _. exists cos, (fun y => - sin y). intros t _. split; [|split].
      * replace (cos t) with (cos t + 0) by ring. apply derivable_pt_lim_plus; [apply derivable_pt_lim_sin|apply derivable_pt_lim_const].
      * apply derivable_pt_lim_cos.
      * rewrite Rabs_Ropp. apply Rabs_le, SIN_bound.
  - intros. reflexivity.
  - assert (A : overhang 10 (1 / 2) = 0) by (apply overhang_in; cbn; lra). assert (B : overhang 5 5 = 1).
    { unfold overhang. rewrite (Rmax_right (- (5))) by (cbn; lra). rewrite Rmax_right by (cbn; lra). cbn. lra. }
    unfold order2. rewrite A, B. rewrite (Rmax_left (1 / 8)) by lra. rewrite Rmax_right by lra. lra.
Qed.
