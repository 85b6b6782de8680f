(** C04: the hand-eye residuals are the physical reprojection errors. *)
From Coq Require Import Reals List.
From Verif.Base Require Import Geom.
From Verif.Model Require Import Pose HandEye.
From Verif.Spec Require Import Frames.
From Verif.Proofs Require Import HandEyeProofs.
Import ListNotations.
Local Open Scope R_scope.

(** [cam] is camera_mount_to_camera (the optimizer's variable [pc] holds its inverse),
    [pt] is the variable for target_mount_to_target. Mount poses are [plain_pose]s:
    rigid, and not rotated by a non-zero angle below about 1.5e-8 rad. *)
Theorem C04_residual_2D3D :
  forall (obs : vec2) (to_cam to_tgt : iso) (p : vec3) (k : intrinsics) (cam : iso) (pc pt : pose6),
  plain_pose to_cam -> plain_pose to_tgt -> rigid cam -> poseCalToEigen pc = iso_inv cam ->
  let q := projectPoint_arr k (iso_app (target_in_camera cam to_cam to_tgt (poseCalToEigen pt)) p) in
  cost2D3D (mk_obs_cost obs (iso_inv to_cam) to_tgt p) k (pc, pt) = [px q - px obs; py q - py obs].
Proof. exact (fun obs tc tt p k cam pc pt => cost2D3D_physical obs tc tt p k cam pc pt). Qed.
Print Assumptions C04_residual_2D3D.

Theorem C04_zero_iff_ideal_2D3D :
  forall (obs : vec2) (to_cam to_tgt : iso) (p : vec3) (k : intrinsics) (cam : iso) (pc pt : pose6),
  plain_pose to_cam -> plain_pose to_tgt -> rigid cam -> poseCalToEigen pc = iso_inv cam ->
  cost2D3D (mk_obs_cost obs (iso_inv to_cam) to_tgt p) k (pc, pt) = [0; 0] <->
  obs = projectPoint_arr k (iso_app (target_in_camera cam to_cam to_tgt (poseCalToEigen pt)) p).
Proof. exact (fun obs tc tt p k cam pc pt => cost2D3D_zero obs tc tt p k cam pc pt). Qed.
Print Assumptions C04_zero_iff_ideal_2D3D.

Theorem C04_residual_3D3D :
  forall (obs : vec3) (to_cam to_tgt : iso) (p : vec3) (cam : iso) (pc pt : pose6),
  plain_pose to_cam -> plain_pose to_tgt -> rigid cam -> poseCalToEigen pc = iso_inv cam ->
  let q := iso_app (target_in_camera cam to_cam to_tgt (poseCalToEigen pt)) p in
  cost3D3D (mk_obs_cost obs (iso_inv to_cam) to_tgt p) (pc, pt)
  = [vx q - vx obs; vy q - vy obs; vz q - vz obs].
Proof. exact (fun obs tc tt p cam pc pt => cost3D3D_physical obs tc tt p cam pc pt). Qed.
Print Assumptions C04_residual_3D3D.

Theorem C04_zero_iff_ideal_3D3D :
  forall (obs : vec3) (to_cam to_tgt : iso) (p : vec3) (cam : iso) (pc pt : pose6),
  plain_pose to_cam -> plain_pose to_tgt -> rigid cam -> poseCalToEigen pc = iso_inv cam ->
  cost3D3D (mk_obs_cost obs (iso_inv to_cam) to_tgt p) (pc, pt) = [0; 0; 0] <->
  obs = iso_app (target_in_camera cam to_cam to_tgt (poseCalToEigen pt)) p.
Proof. exact (fun obs tc tt p cam pc pt => cost3D3D_zero obs tc tt p cam pc pt). Qed.
Print Assumptions C04_zero_iff_ideal_3D3D.

(** For arbitrary mount transforms: the same chain, with each mount transform replaced by
    what its pose vector stands for (within machine epsilon of it, C03). *)
Theorem C04_chain_as_stored :
  forall (I : Type) (obs : I) (camera_mount_to_base to_tgt : iso) (p : vec3) (pc pt : pose6),
  getTargetPointInCamera (mk_obs_cost obs camera_mount_to_base to_tgt p) pc pt =
  iso_app (iso_mul (poseCalToEigen pc)
          (iso_mul (poseCalToEigen (poseEigenToCal camera_mount_to_base))
          (iso_mul (poseCalToEigen (poseEigenToCal to_tgt)) (poseCalToEigen pt)))) p.
Proof. exact (fun I => @point_in_camera_stored I). Qed.
Print Assumptions C04_chain_as_stored.

(** A pose with a quarter turn is a plain pose, and its inverse can be stored. *)
Example C04_plain : plain_pose (Iso (aa_matrix (PI / 2) unitX) (V3 1 2 3)).
Proof. exact turned_plain. Qed.
Example C04_inverse_storable :
  let cam := Iso (aa_matrix (PI / 2) unitX) (V3 1 2 3) in
  rigid cam /\ poseCalToEigen (poseEigenToCal (iso_inv cam)) = iso_inv cam.
Proof. exact (conj (plain_rigid _ turned_plain) (plain_stored _ (plain_inv _ turned_plain))). Qed.
