(** C83: the derivatives that the solver gets are those of the residuals. The cost functors are evaluated on jets
    (Model/Jet.v, Model/Functors.v); Spec/DerivativeSpec.v says what it means for the results to be derivatives. [e] is
    numeric_limits<Jet>::epsilon() and [dirs] are the parameters a jet has derivatives for. *)
From Coq Require Import Reals List.
From Verif.Base Require Import Geom Outcome Matrix.
From Verif.Model Require Import Pose Solver HandEye BlockSolver MultiCamera Intrinsic CircleFit MaxLikelihood DhChain Kinematic Pnp LocalParam Jet Functors.
From Verif.Spec Require Import KinSpec DerivativeSpec.
From Verif.Proofs Require Import DerivProofs KinDerivProofs PoseDerivProofs ZeroTurnProofs DerivExample.
Import ListNotations.
Local Open Scope R_scope.

Theorem C83_hand_eye :
  forall e dirs x c intr,
  off_switch (pose_aa (read_pose x 0)) -> off_switch (pose_aa (read_pose x 1)) ->
  vz (getTargetPointInCamera c (read_pose x 0) (read_pose x 1)) <> 0 ->
  gives_derivatives (fun y => cost2D3D c intr (read_pose y 0, read_pose y 1)) x
    (gcost2D3D (jet_num e dirs) c intr (seed x)).
Proof. exact hand_eye_derivatives. Qed.
Print Assumptions C83_hand_eye.
Theorem C83_hand_eye_3D :
  forall e dirs x c,
  off_switch (pose_aa (read_pose x 0)) -> off_switch (pose_aa (read_pose x 1)) ->
  gives_derivatives (fun y => cost3D3D c (read_pose y 0, read_pose y 1)) x (gcost3D3D (jet_num e dirs) c (seed x)).
Proof. exact hand_eye3D_derivatives. Qed.
Print Assumptions C83_hand_eye_3D.

(** Several cameras *)
Theorem C83_static :
  forall e dirs x obs intr w p,
  off_switch (pose_aa (read_pose x 0)) -> off_switch (pose_aa (read_pose x 1)) ->
  vz (poseTransformPoint (read_pose x 0) (poseTransformPoint (poseEigenToCal w) (poseTransformPoint (read_pose x 1) p))) <> 0 ->
  gives_derivatives (fun y => static_cost obs intr w p (read_pose y 0) (read_pose y 1)) x
    (gstatic_cost (jet_num e dirs) obs intr w p (seed x)).
Proof. exact static_derivatives. Qed.
Print Assumptions C83_static.
Theorem C83_free_camera :
  forall e dirs x obs intr p,
  off_switch (pose_aa (read_pose x 0)) -> off_switch (pose_aa (read_pose x 1)) ->
  vz (poseTransformPoint (read_pose x 0) (poseTransformPoint (read_pose x 1) p)) <> 0 ->
  gives_derivatives (fun y => free_camera_cost obs intr p (read_pose y 0) (read_pose y 1)) x
    (gfree_camera_cost (jet_num e dirs) obs intr p (seed x)).
Proof. exact free_derivatives. Qed.
Print Assumptions C83_free_camera.
Theorem C83_fixed_camera :
  forall e dirs x obs intr base_to_camera p,
  off_switch (pose_aa (read_pose x 0)) ->
  vz (poseTransformPoint (poseEigenToCal (iso_inv base_to_camera)) (poseTransformPoint (read_pose x 0) p)) <> 0 ->
  gives_derivatives (fun y => fixed_camera_cost obs intr base_to_camera p (read_pose y 0)) x
    (gfixed_cost (jet_num e dirs) obs intr (poseEigenToCal (iso_inv base_to_camera)) p (seed x)).
Proof. exact fixed_camera_derivatives. Qed.
Print Assumptions C83_fixed_camera.
Theorem C83_wrist :
  forall e dirs x obs intr w c p,
  off_switch (pose_aa (read_pose x 0)) -> off_switch (pose_aa (read_pose x 1)) ->
  vz (poseTransformPoint (poseEigenToCal (iso_inv c))
        (poseTransformPoint (read_pose x 0) (poseTransformPoint (poseEigenToCal w) (poseTransformPoint (read_pose x 1) p)))) <> 0 ->
  gives_derivatives (fun y => wrist_cost obs intr w c p (read_pose y 0) (read_pose y 1)) x
    (gwrist_cost (jet_num e dirs) obs intr w c p (seed x)).
Proof. exact wrist_derivatives. Qed.
Print Assumptions C83_wrist.
Theorem C83_multi_camera_pnp :
  forall e dirs x obs intr camera_to_base p,
  off_switch (pose_aa (read_pose x 0)) ->
  vz (poseTransformPoint (poseEigenToCal camera_to_base) (poseTransformPoint (read_pose x 0) p)) <> 0 ->
  gives_derivatives (fun y => mpnp_cost obs intr camera_to_base p (read_pose y 0)) x
    (gfixed_cost (jet_num e dirs) obs intr (poseEigenToCal camera_to_base) p (seed x)).
Proof. exact mpnp_derivatives. Qed.
Print Assumptions C83_multi_camera_pnp.

(** Intrinsics: the pose of the target in block 0, the intrinsics with the distortion in block 1 *)
Theorem C83_intrinsic :
  forall e dirs x p obs,
  off_switch (pose_aa (read_pose x 0)) -> vz (poseTransformPoint (read_pose x 0) p) <> 0 ->
  gives_derivatives (fun y => intrinsic_cost p obs (read_pose y 0) (y 1%nat)) x
    (gintrinsic_cost (jet_num e dirs) p obs (seed x)).
Proof. exact intrinsic_derivatives. Qed.
Print Assumptions C83_intrinsic.
Theorem C83_circle :
  forall e dirs x px py,
  gives_derivatives (fun y => [circle_cost px py (CirP (y 0 0) (y 0 1) (y 0 2))%nat]) x
    (gcircle_cost (jet_num e dirs) px py (seed x)).
Proof. exact circle_derivatives. Qed.
Print Assumptions C83_circle.
Theorem C83_prior :
  forall e dirs x ml,
  rows (ml_mean ml) = rows (ml_stdev ml) -> cols (ml_mean ml) = cols (ml_stdev ml) ->
  (forall i j, (i < rows (ml_stdev ml))%nat -> (j < cols (ml_stdev ml))%nat -> ent (ml_stdev ml) i j <> 0) ->
  gives_derivatives_res (fun y => ml_residual ml (y 0%nat)) x (gml_residual (jet_num e dirs) ml (seed x)).
Proof. exact ml_derivatives. Qed.
Print Assumptions C83_prior.

(** PnP: a target that is turned *)
Theorem C83_pnp :
  forall e dirs x intr p obs,
  read3 x 0 <> V3 0 0 0 -> vz (iso_app (pnp_transform (read3 x 0, read3 x 1)) p) <> 1 / 10 ^ 10 ->
  gives_derivatives (fun y => pnp_cost intr p obs (read3 y 0, read3 y 1)) x (gpnp_cost (jet_num e dirs) intr p obs (seed x)).
Proof. exact pnp_derivatives. Qed.
Print Assumptions C83_pnp.
Theorem C83_pnp_3D :
  forall e dirs x p obs,
  read3 x 0 <> V3 0 0 0 ->
  gives_derivatives (fun y => pnp_cost3D p obs (read3 y 0, read3 y 1)) x (gpnp_cost3D (jet_num e dirs) p obs (seed x)).
Proof. exact pnp3D_derivatives. Qed.
Print Assumptions C83_pnp_3D.

(** Kinematic calibration *)
Theorem C83_kinematic :
  forall e dirs x, 0 <= e <= DBL_EPS ->
  clear_turn (read3 x 3) -> clear_turn (read3 x 5) -> clear_turn (read3 x 7) ->
  forall cc tc jc jt obs p intr C,
  dual_camera_to_target cc tc jc jt x (constructParameters 0 1 2 3 4 5 6 7) = Ok C -> vz (iso_app C p) <> 1 / 10 ^ 10 ->
  gives_derivatives_res (dualCost2D3D obs p intr cc tc jc jt (constructParameters 0 1 2 3 4 5 6 7)) x
    (gdualCost2D3D (jet_num e dirs) obs p intr cc tc jc jt (seed x)).
Proof. exact dual_derivatives. Qed.
Print Assumptions C83_kinematic.
Theorem C83_kinematic_pose :
  forall e dirs x, 0 <= e <= DBL_EPS ->
  clear_turn (read3 x 3) -> clear_turn (read3 x 5) -> clear_turn (read3 x 7) ->
  forall cc tc me w, rigid (base_offset cc) -> rigid (base_offset tc) -> rigid (km_camera_to_target me) ->
  forall C, dual_camera_to_target cc tc (km_camera_chain_joints me) (km_target_chain_joints me) x
              (constructParameters 0 1 2 3 4 5 6 7) = Ok C ->
  forall a, angle_between (lin (km_camera_to_target me)) (lin C) a -> 0 < a < PI ->
  gives_derivatives_res (dualCostPose6D me cc tc w (constructParameters 0 1 2 3 4 5 6 7)) x
    (gdualCostPose6D (jet_num e dirs) me cc tc w (seed x)).
Proof. exact pose_derivatives. Qed.
Print Assumptions C83_kinematic_pose.
(** When the measured and the predicted orientation agree, the derivatives of the angle between them would not be numbers;
    the cost replaces the angle by zero, without derivatives. *)
Theorem C83_kinematic_pose_agreement :
  forall e dirs x, 0 <= e <= DBL_EPS ->
  clear_turn (read3 x 3) -> clear_turn (read3 x 5) -> clear_turn (read3 x 7) ->
  forall cc tc me w, rigid (base_offset cc) -> rigid (base_offset tc) -> rigid (km_camera_to_target me) ->
  forall C, dual_camera_to_target cc tc (km_camera_chain_joints me) (km_target_chain_joints me) x
              (constructParameters 0 1 2 3 4 5 6 7) = Ok C ->
  dirs <> [] -> lin (km_camera_to_target me) = lin C ->
  exists tx ty tz, gdualCostPose6D (jet_num e dirs) me cc tc w (seed x) = Ok [tx; ty; tz; jet_lit 0].
Proof. exact pose_agreement. Qed.
Print Assumptions C83_kinematic_pose_agreement.

(** The quaternion parameterization: block 0 holds the quaternion, block 1 the change *)
Theorem C83_quaternion_plus :
  forall e dirs x,
  gives_derivatives (fun y => coeffs (quaternion_plus (stored_quat y 0) (read3 y 1))) x
    (gplus_arrays (jet_num e dirs) (seed x)).
Proof. exact plus_derivatives. Qed.
Print Assumptions C83_quaternion_plus.

(** A camera turned by 1 about its axis in front of a target *)
Example C83_nonvacuous_hand_eye :
  off_switch (pose_aa (read_pose ex_he 0)) /\ off_switch (pose_aa (read_pose ex_he 1)) /\
  vz (getTargetPointInCamera ex_he_cost (read_pose ex_he 0) (read_pose ex_he 1)) <> 0.
Proof. exact ex_he_ok. Qed.
Example C83_nonvacuous_pnp :
  read3 ex_pnp_at 0 <> V3 0 0 0 /\
  vz (iso_app (pnp_transform (read3 ex_pnp_at 0, read3 ex_pnp_at 1)) (V3 1 0 0)) <> 1 / 10 ^ 10.
Proof. exact ex_pnp_at_ok. Qed.
Example C83_nonvacuous_kinematic :
  clear_turn (read3 ex_kin_at 3) /\ clear_turn (read3 ex_kin_at 5) /\ clear_turn (read3 ex_kin_at 7) /\
  dual_camera_to_target ex_empty ex_empty [] [] ex_kin_at (constructParameters 0 1 2 3 4 5 6 7) = Ok ex_kin_camera /\
  vz (iso_app ex_kin_camera (V3 1 0 0)) <> 1 / 10 ^ 10.
Proof. exact ex_kin_at_ok. Qed.
Example C83_nonvacuous_kinematic_pose :
  angle_between (lin (km_camera_to_target ex_kin_measured)) (lin ex_kin_camera) 1 /\ 0 < 1 < PI.
Proof. exact ex_kin_angle. Qed.
