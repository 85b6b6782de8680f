(** C47: kinematic calibration residuals. *)
From Coq Require Import Reals ZArith List.
From Verif.Base Require Import Geom Outcome Matrix.
From Verif.Model Require Import Pose HandEye DhChain Kinematic.
From Verif.Spec Require Import KinSpec.
From Verif.Proofs Require Import DhProofs KinematicProofs.
Import ListNotations.
Local Open Scope R_scope.

(** Memory [m] holds the parameter blocks at p0 ... p7: offsets of both chains, then translation and
    axis-angle vector of the camera mount, the target mount and the base-to-base transform. *)
Theorem C47_stored_transform :
  forall t w, w = vzero \/ DBL_EPS < norm w ->
  createTransform t w = Iso (aa_matrix (norm w) (normalized w)) t.
Proof. exact createTransform_rotation. Qed.
Print Assumptions C47_stored_transform.

(** 2D-3D: projection of the target point, minus the measured pixel. *)
Theorem C47_value_2d3d :
  forall cam tgt m p0 p1 p2 p3 p4 p5 p6 p7 measured pt k qc qt Fc Ft,
  getFK cam qc (map_offsets m p0 (dof cam)) = Ok Fc ->
  getFK tgt qt (map_offsets m p1 (dof tgt)) = Ok Ft ->
  let q := projectPoint_eig k (iso_app (kin_target_in_camera Fc
      (createTransform (read3 m p2) (read3 m p3)) (createTransform (read3 m p6) (read3 m p7)) Ft
      (createTransform (read3 m p4) (read3 m p5))) pt) in
  dualCost2D3D measured pt k cam tgt qc qt (constructParameters p0 p1 p2 p3 p4 p5 p6 p7) m
  = Ok [px q - px measured; py q - py measured].
Proof. exact kin_cost2_value. Qed.
Print Assumptions C47_value_2d3d.

Theorem C47_zero_2d3d :
  forall cam tgt m p0 p1 p2 p3 p4 p5 p6 p7 measured pt k qc qt Fc Ft,
  getFK cam qc (map_offsets m p0 (dof cam)) = Ok Fc ->
  getFK tgt qt (map_offsets m p1 (dof tgt)) = Ok Ft ->
  (dualCost2D3D measured pt k cam tgt qc qt (constructParameters p0 p1 p2 p3 p4 p5 p6 p7) m = Ok [0; 0] <->
   measured = projectPoint_eig k (iso_app (kin_target_in_camera Fc
      (createTransform (read3 m p2) (read3 m p3)) (createTransform (read3 m p6) (read3 m p7)) Ft
      (createTransform (read3 m p4) (read3 m p5))) pt)).
Proof. exact kin_cost2_zero. Qed.
Print Assumptions C47_zero_2d3d.

(** 6-D poses: translation of measured * predicted^-1 and weighted angle between them. *)
Theorem C47_value_pose :
  forall cam tgt m p0 p1 p2 p3 p4 p5 p6 p7 meas w Fc Ft,
  getFK cam (km_camera_chain_joints meas) (map_offsets m p0 (dof cam)) = Ok Fc ->
  getFK tgt (km_target_chain_joints meas) (map_offsets m p1 (dof tgt)) = Ok Ft ->
  rigid (base_offset cam) -> rigid (base_offset tgt) -> rigid (km_camera_to_target meas) ->
  let P := kin_target_in_camera Fc (createTransform (read3 m p2) (read3 m p3))
             (createTransform (read3 m p6) (read3 m p7)) Ft (createTransform (read3 m p4) (read3 m p5)) in
  let E := iso_mul (km_camera_to_target meas) (iso_inv P) in
  exists angle, angle_between (lin (km_camera_to_target meas)) (lin P) angle /\
    dualCostPose6D meas cam tgt w (constructParameters p0 p1 p2 p3 p4 p5 p6 p7) m
    = Ok [vx (tr E); vy (tr E); vz (tr E); w * angle].
Proof. exact kin_costP_value. Qed.
Print Assumptions C47_value_pose.

Theorem C47_zero_pose :
  forall cam tgt m p0 p1 p2 p3 p4 p5 p6 p7 meas w Fc Ft,
  getFK cam (km_camera_chain_joints meas) (map_offsets m p0 (dof cam)) = Ok Fc ->
  getFK tgt (km_target_chain_joints meas) (map_offsets m p1 (dof tgt)) = Ok Ft ->
  rigid (base_offset cam) -> rigid (base_offset tgt) -> rigid (km_camera_to_target meas) -> w <> 0 ->
  (dualCostPose6D meas cam tgt w (constructParameters p0 p1 p2 p3 p4 p5 p6 p7) m = Ok [0; 0; 0; 0] <->
   km_camera_to_target meas =
   kin_target_in_camera Fc (createTransform (read3 m p2) (read3 m p3))
     (createTransform (read3 m p6) (read3 m p7)) Ft (createTransform (read3 m p4) (read3 m p5))).
Proof. exact kin_costP_zero. Qed.
Print Assumptions C47_zero_pose.

(** The angle is determined by the two orientations. *)
Theorem C47_angle_unique :
  forall A B a b, is_rot B -> angle_between A B a -> angle_between A B b -> a = b.
Proof. exact angle_between_unique. Qed.
Print Assumptions C47_angle_unique.

(** The residuals exist exactly if there are not more joint values than joints and every joint type
    that is used is supported. *)
Theorem C47_defined_2d3d :
  forall cam tgt m p0 p1 p2 p3 p4 p5 p6 p7 measured pt k qc qt,
  (exists r, dualCost2D3D measured pt k cam tgt qc qt (constructParameters p0 p1 p2 p3 p4 p5 p6 p7) m = Ok r) <->
  (length qc <= dof cam)%nat /\ known_types cam (length qc) /\
  (length qt <= dof tgt)%nat /\ known_types tgt (length qt).
Proof. exact kin_cost2_outcome. Qed.
Print Assumptions C47_defined_2d3d.

Theorem C47_defined_pose :
  forall cam tgt m p0 p1 p2 p3 p4 p5 p6 p7 meas w,
  (exists r, dualCostPose6D meas cam tgt w (constructParameters p0 p1 p2 p3 p4 p5 p6 p7) m = Ok r) <->
  (length (km_camera_chain_joints meas) <= dof cam)%nat /\ known_types cam (length (km_camera_chain_joints meas)) /\
  (length (km_target_chain_joints meas) <= dof tgt)%nat /\ known_types tgt (length (km_target_chain_joints meas)).
Proof. exact kin_costP_outcome. Qed.
Print Assumptions C47_defined_pose.

(** A two-joint chain whose forward kinematics exist for given joint values and offsets. *)
Example C47_example : exists T, getFK ex_chain [1; 1/2] ex_offsets = Ok T /\ rigid T.
Proof. exact ex_fk. Qed.
