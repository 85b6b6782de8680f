(** C84: guesses without rotation. Spec/DerivativeSpec.v has the vocabulary. *)
From Coq Require Import Reals List.
From Verif.Base Require Import Geom Outcome Matrix.
From Verif.Model Require Import Pose Solver HandEye BlockSolver MultiCamera DhChain Kinematic Pnp Jet Functors.
From Verif.Spec Require Import DerivativeSpec.
From Verif.Proofs Require Import DerivProofs KinDerivProofs ZeroTurnProofs DerivExample.
Import ListNotations.
Local Open Scope R_scope.

(** The solver gets the derivatives of the residuals at guesses without rotation, by the rotation too. *)
Theorem C84_hand_eye_partial :
  forall e dirs x c intr camera_guess target_guess,
  lin camera_guess = I3 -> lin target_guess = I3 ->
  read_pose x 0 = poseEigenToCal (iso_inv camera_guess) -> read_pose x 1 = poseEigenToCal target_guess ->
  vz (getTargetPointInCamera c (read_pose x 0) (read_pose x 1)) <> 0 ->
  gives_derivatives (fun y => cost2D3D c intr (read_pose y 0, read_pose y 1)) x
    (gcost2D3D (jet_num e dirs) c intr (seed x)).
Proof. exact hand_eye_start. Qed.
Print Assumptions C84_hand_eye_partial.
Theorem C84_hand_eye_3D_partial :
  forall e dirs x c camera_guess target_guess,
  lin camera_guess = I3 -> lin target_guess = I3 ->
  read_pose x 0 = poseEigenToCal (iso_inv camera_guess) -> read_pose x 1 = poseEigenToCal target_guess ->
  gives_derivatives (fun y => cost3D3D c (read_pose y 0, read_pose y 1)) x (gcost3D3D (jet_num e dirs) c (seed x)).
Proof. exact hand_eye3D_start. Qed.
Print Assumptions C84_hand_eye_3D_partial.
Theorem C84_static_partial :
  forall e dirs x obs intr w p base_guess wrist_guess,
  lin base_guess = I3 -> lin wrist_guess = I3 ->
  read_pose x 0 = poseEigenToCal (iso_inv base_guess) -> read_pose x 1 = poseEigenToCal wrist_guess ->
  vz (poseTransformPoint (read_pose x 0) (poseTransformPoint (poseEigenToCal w) (poseTransformPoint (read_pose x 1) p))) <> 0 ->
  gives_derivatives (fun y => static_cost obs intr w p (read_pose y 0) (read_pose y 1)) x
    (gstatic_cost (jet_num e dirs) obs intr w p (seed x)).
Proof. exact static_start. Qed.
Print Assumptions C84_static_partial.
(** The correction of a calibrated set of cameras always starts without rotation. *)
Theorem C84_wrist_partial :
  forall e dirs pr obs intr w c p, let x := wrist_start pr in
  lin (wp_wrist_to_target_guess pr) = I3 \/ off_switch (pose_aa (read_pose x 1)) ->
  vz (poseTransformPoint (poseEigenToCal (iso_inv c))
        (poseTransformPoint (read_pose x 0) (poseTransformPoint (poseEigenToCal w) (poseTransformPoint (read_pose x 1) p)))) <> 0 ->
  gives_derivatives (fun y => wrist_cost obs intr w c p (read_pose y 0) (read_pose y 1)) x
    (gwrist_cost (jet_num e dirs) obs intr w c p (seed x)).
Proof. exact wrist_start_derivatives. Qed.
Print Assumptions C84_wrist_partial.
Theorem C84_multi_camera_pnp_partial :
  forall e dirs x obs intr camera_to_base p guess, lin guess = I3 -> read_pose x 0 = poseEigenToCal guess ->
  vz (poseTransformPoint (poseEigenToCal camera_to_base) (poseTransformPoint (read_pose x 0) p)) <> 0 ->
  gives_derivatives (fun y => mpnp_cost obs intr camera_to_base p (read_pose y 0)) x
    (gfixed_cost (jet_num e dirs) obs intr (poseEigenToCal camera_to_base) p (seed x)).
Proof. exact mpnp_start_derivatives. Qed.
Print Assumptions C84_multi_camera_pnp_partial.

(** PnP with such a guess: the residuals have derivatives, but what the solver gets in their place are not numbers, by
    every unknown and for every problem. *)
Theorem C84_pnp_refuted :
  forall e dirs x intr guess, lin guess = I3 -> (read3 x 0, read3 x 1) = pnp_start guess ->
  forall p obs, vz (iso_app guess p) <> 1 / 10 ^ 10 ->
  differentiable (fun y => pnp_cost intr p obs (read3 y 0, read3 y 1)) x /\
  no_derivatives (gpnp_cost (jet_num e dirs) intr p obs (seed x)).
Proof. exact pnp_start_flat. Qed.
Print Assumptions C84_pnp_refuted.
Theorem C84_pnp_3D_refuted :
  forall e dirs x guess, lin guess = I3 -> (read3 x 0, read3 x 1) = pnp_start guess ->
  forall p obs,
  differentiable (fun y => pnp_cost3D p obs (read3 y 0, read3 y 1)) x /\
  no_derivatives (gpnp_cost3D (jet_num e dirs) p obs (seed x)).
Proof. exact pnp3D_start_flat. Qed.
Print Assumptions C84_pnp_3D_refuted.
(** With every other guess they are the derivatives. *)
Theorem C84_pnp_partial :
  forall e dirs x intr guess, is_rot (lin guess) -> lin guess <> I3 -> (read3 x 0, read3 x 1) = pnp_start guess ->
  forall p obs, vz (iso_app guess p) <> 1 / 10 ^ 10 ->
  gives_derivatives (fun y => pnp_cost intr p obs (read3 y 0, read3 y 1)) x
    (gpnp_cost (jet_num e dirs) intr p obs (seed x)).
Proof. exact pnp_start_derivatives. Qed.
Print Assumptions C84_pnp_partial.
Theorem C84_pnp_3D_partial :
  forall e dirs x guess, is_rot (lin guess) -> lin guess <> I3 -> (read3 x 0, read3 x 1) = pnp_start guess ->
  forall p obs, gives_derivatives (fun y => pnp_cost3D p obs (read3 y 0, read3 y 1)) x
    (gpnp_cost3D (jet_num e dirs) p obs (seed x)).
Proof. exact pnp3D_start_derivatives. Qed.
Print Assumptions C84_pnp_3D_partial.

(** The kinematic calibration with such a guess: the rotation vector starts at zero. *)
Theorem C84_kinematic_start :
  forall com b, turn_block b -> lin (guess_of com b) = I3 -> read3 (kin_memory0 com) b = V3 0 0 0.
Proof. exact kin_start_zero. Qed.
Print Assumptions C84_kinematic_start.
(** Around zero the residual does not depend on the rotation vector, so the solver gets derivatives of zero for it. *)
Theorem C84_kinematic_plateau :
  forall cc tc jc jt obs p intr x b, turn_block b -> read3 x b = V3 0 0 0 ->
  forall y, equal_outside b x y -> norm (read3 y b) <= DBL_EPS ->
  dualCost2D3D obs p intr cc tc jc jt (constructParameters 0 1 2 3 4 5 6 7) y =
  dualCost2D3D obs p intr cc tc jc jt (constructParameters 0 1 2 3 4 5 6 7) x.
Proof. exact kinematic_plateau. Qed.
Print Assumptions C84_kinematic_plateau.
Theorem C84_kinematic_flat :
  forall e dirs cc tc jc jt obs p intr x b, 0 <= e <= DBL_EPS ->
  clear_turn (read3 x 3) -> clear_turn (read3 x 5) -> clear_turn (read3 x 7) ->
  forall C, dual_camera_to_target cc tc jc jt x (constructParameters 0 1 2 3 4 5 6 7) = Ok C ->
  vz (iso_app C p) <> 1 / 10 ^ 10 ->
  turn_block b -> read3 x b = V3 0 0 0 ->
  exists L, gdualCost2D3D (jet_num e dirs) obs p intr cc tc jc jt (seed x) = Ok L /\
  forall k j, nth_error L k = Some j -> forall i, (i < 3)%nat -> jv j (b, i) = Fin 0.
Proof. exact kinematic_flat. Qed.
Print Assumptions C84_kinematic_flat.
(** A target straight ahead that may turn about the axis of the camera: its point moves sideways when it turns, yet the
    derivatives by its rotation are zero. *)
Theorem C84_kinematic_refuted :
  turning_derivative ex_flat_residual ex_flat 5 2 1 /\
  forall e dirs, 0 <= e <= DBL_EPS ->
  exists L, gdualCost2D3D (jet_num e dirs) (V2 0 0) (V3 1 0 0) ex_intr1 ex_empty ex_empty [] [] (seed ex_flat) = Ok L /\
  forall k j, nth_error L k = Some j -> forall i, (i < 3)%nat -> jv j (5%nat, i) = Fin 0.
Proof. exact ex_flat_refuted. Qed.
Print Assumptions C84_kinematic_refuted.

Example C84_nonvacuous_pnp_refuted : lin ex_ahead = I3 /\ vz (iso_app ex_ahead (V3 1 0 0)) <> 1 / 10 ^ 10.
Proof. exact ex_ahead_holds. Qed.
Example C84_nonvacuous_pnp :
  is_rot (lin ex_turned) /\ lin ex_turned <> I3 /\ vz (iso_app ex_turned (V3 1 0 0)) <> 1 / 10 ^ 10.
Proof. exact ex_turned_ok. Qed.
