(** C77: with perfect data, a PnP result without error is the true pose. [honest] says that the solver reports
    the cost of the point where it ends (Spec/UniqueSpec.v). *)
From Coq Require Import Reals Arith List.
From Verif.Base Require Import Geom Outcome.
From Verif.Model Require Import Pose Solver HandEye Pnp.
From Verif.Spec Require Import PinHole PnpSpec UniqueSpec.
From Verif.Proofs Require Import UniqueProofs UniqueExamples.
Import ListNotations.
Local Open Scope R_scope.

(** Images of a flat target: four of its points of which no three are on a line, seen by a camera outside the plane of
    the target; all points in front of the camera at the pose found. *)
Theorem C77_image_error_zero_iff_true_pose :
  forall u solve cov p r T,
  honest solve -> optimizePnP u solve cov p = Ok r ->
  rigid T -> ~ edge_on T -> fx (pnp_intr p) <> 0 -> fy (pnp_intr p) <> 0 ->
  four_flat_points (map in_target (pnp_correspondences p)) ->
  perfect_image (pnp_intr p) T (pnp_correspondences p) ->
  all_in_front (pnp_camera_to_target r) (pnp_correspondences p) ->
  (pnp_final_cost_per_obs r = 0 <-> pnp_camera_to_target r = T).
Proof. exact pnp_unique2. Qed.
Print Assumptions C77_image_error_zero_iff_true_pose.

(** Measured points: three that are not on a line. *)
Theorem C77_point_error_zero_iff_true_pose :
  forall u solve cov p r T,
  honest solve -> optimizePnP3D u solve cov p = Ok r ->
  rigid T -> not_on_a_line (map in_target (pnp3_correspondences p)) ->
  perfect_points T (pnp3_correspondences p) ->
  (pnp_final_cost_per_obs r = 0 <-> pnp_camera_to_target r = T).
Proof. exact pnp_unique3. Qed.
Print Assumptions C77_point_error_zero_iff_true_pose.

(** The condition that the target is in front of the camera is needed: the projection used does not divide by the depth
    of points that are not, and an honest solver may end there with no error at all. *)
Theorem C77_no_error_behind_the_camera :
  exists u solve cov p r T, honest solve /\ optimizePnP u solve cov p = Ok r /\
  rigid T /\ ~ edge_on T /\ fx (pnp_intr p) <> 0 /\ fy (pnp_intr p) <> 0 /\
  four_flat_points (map in_target (pnp_correspondences p)) /\
  perfect_image (pnp_intr p) T (pnp_correspondences p) /\
  pnp_final_cost_per_obs r = 0 /\ pnp_camera_to_target r <> T.
Proof. exact pnp_zero_cost_wrong. Qed.
Print Assumptions C77_no_error_behind_the_camera.

Example C77_image_applies :
  exists u solve cov p r T, honest solve /\ optimizePnP u solve cov p = Ok r /\
  rigid T /\ ~ edge_on T /\ fx (pnp_intr p) <> 0 /\ fy (pnp_intr p) <> 0 /\
  four_flat_points (map in_target (pnp_correspondences p)) /\
  perfect_image (pnp_intr p) T (pnp_correspondences p) /\
  all_in_front (pnp_camera_to_target r) (pnp_correspondences p) /\ pnp_final_cost_per_obs r = 0.
Proof. exact ex_pnp_unique. Qed.
Example C77_points_apply :
  exists u solve cov p r T, honest solve /\ optimizePnP3D u solve cov p = Ok r /\
  rigid T /\ not_on_a_line (map in_target (pnp3_correspondences p)) /\
  perfect_points T (pnp3_correspondences p) /\ pnp_final_cost_per_obs r = 0.
Proof. exact ex_pnp3_unique. Qed.
