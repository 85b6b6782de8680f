(** C110: the initial error that a calibration reports is the error of its guesses, and calibrating again from a result starts
    with the error that was reported at the end. The solvers are any that report the costs of the values they start from
    ([honest_start]) and end at ([honest]), see Spec/UniqueSpec.v and Spec/RestartSpec.v. [he2_again] and the like are the same
    problem with the result as the guess. *)
From Coq Require Import Reals List Arith.
From Verif.Base Require Import Geom Outcome.
From Verif.Model Require Import Pose Covariance Solver HandEye Pnp BlockSolver CircleFit MultiCamera DhChain LocalParam Kinematic.
From Verif.Spec Require Import CovarianceSpec Frames FreezeSpec PinHole OracleSpec PnpSpec MultiSpec UniqueSpec SameDataSpec KinSpec KinReport KinUniqueSpec KinFitSpec KinStartSpec ToolsAgreeSpec RestartSpec.
From Verif.Proofs Require Import RestartProofs RestartExample KinStartProofs.
Import ListNotations.
Local Open Scope R_scope.

(** Hand-eye calibration from images. What is reported of the guess. *)
Theorem C110_hand_eye_images_initial :
  forall u solve cov p r,
  honest_start solve -> optimize2D3D u solve cov p = Ok r -> plain_obs (h2_observations p) ->
  plain_pose (h2_camera_guess p) -> plain_pose (h2_target_guess p) ->
  he_initial_cost_per_obs r =
  image_error (h2_intr p) (sightings (h2_observations p)) (h2_camera_guess p) (h2_target_guess p) /
  INR (2 * length (sightings (h2_observations p))).
Proof. exact he_initial2. Qed.
Print Assumptions C110_hand_eye_images_initial.

(** The same again from the result. *)
Theorem C110_hand_eye_images_again :
  forall u solve cov p r u' solve' cov' r',
  honest solve -> honest_start solve' ->
  optimize2D3D u solve cov p = Ok r -> optimize2D3D u' solve' cov' (he2_again p r) = Ok r' -> plain_obs (h2_observations p) ->
  plain_pose (he_camera_mount_to_camera r) -> plain_pose (he_target_mount_to_target r) ->
  in_view (sightings (h2_observations p)) (he_camera_mount_to_camera r) (he_target_mount_to_target r) ->
  he_initial_cost_per_obs r' = he_final_cost_per_obs r /\
  (improving solve' -> he_final_cost_per_obs r' <= he_final_cost_per_obs r).
Proof. exact he_again2. Qed.
Print Assumptions C110_hand_eye_images_again.

(** Three images of a square. *)
Example C110_hand_eye_images_case : exists u solve cov p r r',
  honest solve /\ honest_start solve /\ improving solve /\
  optimize2D3D u solve cov p = Ok r /\ optimize2D3D u solve cov (he2_again p r) = Ok r' /\ plain_obs (h2_observations p) /\
  plain_pose (h2_camera_guess p) /\ plain_pose (h2_target_guess p) /\
  plain_pose (he_camera_mount_to_camera r) /\ plain_pose (he_target_mount_to_target r) /\
  in_view (sightings (h2_observations p)) (he_camera_mount_to_camera r) (he_target_mount_to_target r).
Proof. exact again_images. Qed.

(** Hand-eye calibration from measured points. What is reported of the guess. *)
Theorem C110_hand_eye_points_initial :
  forall u solve cov p r,
  honest_start solve -> optimize3D3D u solve cov p = Ok r -> plain_obs (h3_observations p) ->
  plain_pose (h3_camera_guess p) -> plain_pose (h3_target_guess p) ->
  he_initial_cost_per_obs r =
  space_error (sightings (h3_observations p)) (h3_camera_guess p) (h3_target_guess p) /
  INR (3 * length (sightings (h3_observations p))).
Proof. exact he_initial3. Qed.
Print Assumptions C110_hand_eye_points_initial.

(** The same again from the result. *)
Theorem C110_hand_eye_points_again :
  forall u solve cov p r u' solve' cov' r',
  honest solve -> honest_start solve' ->
  optimize3D3D u solve cov p = Ok r -> optimize3D3D u' solve' cov' (he3_again p r) = Ok r' -> plain_obs (h3_observations p) ->
  plain_pose (he_camera_mount_to_camera r) -> plain_pose (he_target_mount_to_target r) ->
  he_initial_cost_per_obs r' = he_final_cost_per_obs r /\
  (improving solve' -> he_final_cost_per_obs r' <= he_final_cost_per_obs r).
Proof. exact he_again3. Qed.
Print Assumptions C110_hand_eye_points_again.

(** Three measurements of a square. *)
Example C110_hand_eye_points_case : exists u solve cov p r r',
  honest solve /\ honest_start solve /\ improving solve /\
  optimize3D3D u solve cov p = Ok r /\ optimize3D3D u solve cov (he3_again p r) = Ok r' /\ plain_obs (h3_observations p) /\
  plain_pose (h3_camera_guess p) /\ plain_pose (h3_target_guess p) /\
  plain_pose (he_camera_mount_to_camera r) /\ plain_pose (he_target_mount_to_target r).
Proof. exact again_points. Qed.

(** The pose of a target in a picture. What is reported of the guess. *)
Theorem C110_pose_from_picture_initial :
  forall u solve cov p r,
  honest_start solve -> optimizePnP u solve cov p = Ok r -> rigid (pnp_guess p) ->
  all_in_front (pnp_guess p) (pnp_correspondences p) ->
  pnp_initial_cost_per_obs r = SameDataSpec.pose_error (pnp_intr p) (pnp_correspondences p) (pnp_guess p) / INR (2 * length (pnp_correspondences p)).
Proof. exact pnp_initial2. Qed.
Print Assumptions C110_pose_from_picture_initial.

(** The same again from the result. *)
Theorem C110_pose_from_picture_again :
  forall u solve cov p r u' solve' cov' r',
  honest solve -> honest_start solve' ->
  optimizePnP u solve cov p = Ok r -> optimizePnP u' solve' cov' (pnp_again p r) = Ok r' ->
  all_in_front (pnp_camera_to_target r) (pnp_correspondences p) ->
  pnp_initial_cost_per_obs r' = pnp_final_cost_per_obs r /\
  (improving solve' -> pnp_final_cost_per_obs r' <= pnp_final_cost_per_obs r).
Proof. exact pnp_again2. Qed.
Print Assumptions C110_pose_from_picture_again.

(** The first run moves from a guess that is too far away, the second stays. *)
Example C110_pose_from_picture_case : exists u solve solve' cov p r r',
  honest solve /\ honest_start solve /\ honest_start solve' /\ improving solve' /\
  optimizePnP u solve cov p = Ok r /\ optimizePnP u solve' cov (pnp_again p r) = Ok r' /\
  rigid (pnp_guess p) /\ all_in_front (pnp_guess p) (pnp_correspondences p) /\
  all_in_front (pnp_camera_to_target r) (pnp_correspondences p) /\ pnp_guess p <> pnp_camera_to_target r.
Proof. exact again_picture. Qed.

(** The pose of a target from measured points. What is reported of the guess. *)
Theorem C110_pose_from_points_initial :
  forall u solve cov p r,
  honest_start solve -> optimizePnP3D u solve cov p = Ok r -> rigid (pnp3_guess p) ->
  pnp_initial_cost_per_obs r = pose_error3 (pnp3_correspondences p) (pnp3_guess p) / INR (3 * length (pnp3_correspondences p)).
Proof. exact pnp_initial3. Qed.
Print Assumptions C110_pose_from_points_initial.

(** The same again from the result. *)
Theorem C110_pose_from_points_again :
  forall u solve cov p r u' solve' cov' r',
  honest solve -> honest_start solve' ->
  optimizePnP3D u solve cov p = Ok r -> optimizePnP3D u' solve' cov' (pnp3_again p r) = Ok r' ->
  pnp_initial_cost_per_obs r' = pnp_final_cost_per_obs r /\
  (improving solve' -> pnp_final_cost_per_obs r' <= pnp_final_cost_per_obs r).
Proof. exact pnp_again3. Qed.
Print Assumptions C110_pose_from_points_again.

(** The same with measured points. *)
Example C110_pose_from_points_case : exists u solve solve' cov p r r',
  honest solve /\ honest_start solve /\ honest_start solve' /\ improving solve' /\
  optimizePnP3D u solve cov p = Ok r /\ optimizePnP3D u solve' cov (pnp3_again p r) = Ok r' /\
  rigid (pnp3_guess p) /\ pnp3_guess p <> pnp_camera_to_target r.
Proof. exact again_cloud. Qed.

(** Cameras at rest that see a target on the wrist. What is reported of the guess. *)
Theorem C110_static_cameras_initial :
  forall u solve cov p r,
  honest_start_blocks solve -> optimizeStatic u solve cov p = Ok r ->
  static_sizes p -> plain_wrists p -> guesses_plain_static p -> rig_in_view (static_views p) (static_guessed p) ->
  sr_initial_cost_per_obs r = rig_error (camera_of (sp_intr p)) (static_views p) (static_guessed p) /
                              INR (2 * length (static_views p)).
Proof. exact static_initial. Qed.
Print Assumptions C110_static_cameras_initial.

(** The same again from the result. *)
Theorem C110_static_cameras_again :
  forall u solve cov p r u' solve' cov' r',
  honest_blocks solve -> honest_start_blocks solve' ->
  optimizeStatic u solve cov p = Ok r -> optimizeStatic u' solve' cov' (static_again p r) = Ok r' ->
  static_sizes p -> plain_wrists p ->
  (forall T, In T (sr_base_to_camera r) -> plain_pose T) -> plain_pose (sr_wrist_to_target r) ->
  rig_in_view (static_views p) (static_poses p r) ->
  sr_initial_cost_per_obs r' = sr_final_cost_per_obs r /\
  (improving_blocks solve' -> sr_final_cost_per_obs r' <= sr_final_cost_per_obs r).
Proof. exact static_restart. Qed.
Print Assumptions C110_static_cameras_again.

(** Two cameras with three images each. *)
Example C110_static_cameras_case : exists u solve cov p r r',
  honest_blocks solve /\ honest_start_blocks solve /\ improving_blocks solve /\
  optimizeStatic u solve cov p = Ok r /\ optimizeStatic u solve cov (static_again p r) = Ok r' /\
  static_sizes p /\ plain_wrists p /\ guesses_plain_static p /\ rig_in_view (static_views p) (static_guessed p) /\
  (forall T, In T (sr_base_to_camera r) -> plain_pose T) /\ plain_pose (sr_wrist_to_target r) /\
  rig_in_view (static_views p) (static_poses p r) /\ (length (static_views p) > 20)%nat.
Proof. exact again_static. Qed.

(** Cameras moved as a whole. What is reported of the guess. *)
Theorem C110_camera_rig_initial :
  forall solve p r,
  honest_start_blocks solve -> optimizeWrist solve p = Ok r ->
  wrist_sizes p -> (forall T, In T (wp_wrist_poses p) -> plain_pose T) ->
  (forall T, In T (wp_base_to_camera_guess p) -> plain_pose T) -> plain_pose (wp_wrist_to_target_guess p) ->
  rig_in_view (wrist_views p) (wrist_guessed p) ->
  wr_initial_cost_per_obs r = rig_error (camera_of (wp_intr p)) (wrist_views p) (wrist_guessed p) /
                              INR (2 * length (wrist_views p)).
Proof. exact wrist_initial. Qed.
Print Assumptions C110_camera_rig_initial.

(** The same again from the result. *)
Theorem C110_camera_rig_again :
  forall solve p r solve' r',
  honest_blocks solve -> honest_start_blocks solve' ->
  optimizeWrist solve p = Ok r -> optimizeWrist solve' (wrist_again p r) = Ok r' ->
  wrist_sizes p -> (forall T, In T (wp_wrist_poses p) -> plain_pose T) ->
  (forall T, In T (wp_base_to_camera_guess p) -> plain_pose T) ->
  (forall T, In T (wr_base_to_camera r) -> plain_pose T) -> plain_pose (wr_wrist_to_target r) ->
  rig_in_view (wrist_views p) (wrist_poses p r) ->
  wr_initial_cost_per_obs r' = wr_final_cost_per_obs r /\
  (improving_blocks solve' -> wr_final_cost_per_obs r' <= wr_final_cost_per_obs r).
Proof. exact wrist_restart. Qed.
Print Assumptions C110_camera_rig_again.

(** Two cameras with three images each. *)
Example C110_camera_rig_case : exists solve p r r',
  honest_blocks solve /\ honest_start_blocks solve /\ improving_blocks solve /\
  optimizeWrist solve p = Ok r /\ optimizeWrist solve (wrist_again p r) = Ok r' /\
  wrist_sizes p /\ (forall T, In T (wp_wrist_poses p) -> plain_pose T) /\
  (forall T, In T (wp_base_to_camera_guess p) -> plain_pose T) /\ plain_pose (wp_wrist_to_target_guess p) /\
  rig_in_view (wrist_views p) (wrist_guessed p) /\
  (forall T, In T (wr_base_to_camera r) -> plain_pose T) /\ plain_pose (wr_wrist_to_target r) /\
  rig_in_view (wrist_views p) (wrist_poses p r) /\ (length (wrist_views p) > 20)%nat.
Proof. exact again_wrist. Qed.

(** Cameras and a target moved by hand. What is reported of the guess. *)
Theorem C110_cameras_and_targets_initial :
  forall solve p r,
  honest_start_blocks solve -> optimizeOnly solve p = Ok r -> only_sizes p ->
  (forall T, In T (op_base_to_camera_guess p) -> plain_pose T) -> (forall T, In T (op_base_to_target_guess p) -> plain_pose T) ->
  rig_in_view (only_views p) (only_guessed p) ->
  or_initial_cost_per_obs r = rig_error (camera_of (op_intr p)) (only_views p) (only_guessed p) /
                              INR (2 * length (only_views p)).
Proof. exact only_initial. Qed.
Print Assumptions C110_cameras_and_targets_initial.

(** The same again from the result. *)
Theorem C110_cameras_and_targets_again :
  forall solve p r solve' r',
  honest_blocks solve -> leaves_others solve -> honest_start_blocks solve' ->
  optimizeOnly solve p = Ok r -> optimizeOnly solve' (only_again p r) = Ok r' -> only_sizes p ->
  (op_fix_first_camera p = true -> forall T, nth_error (op_base_to_camera_guess p) 0 = Some T -> plain_pose T) ->
  (forall T, In T (or_base_to_camera r) -> plain_pose T) -> (forall T, In T (or_base_to_target r) -> plain_pose T) ->
  rig_in_view (only_views p) (only_poses r) ->
  or_initial_cost_per_obs r' = or_final_cost_per_obs r /\
  (improving_blocks solve' -> or_final_cost_per_obs r' <= or_final_cost_per_obs r).
Proof. exact only_restart. Qed.
Print Assumptions C110_cameras_and_targets_again.

(** Two cameras with three images each, the first camera held still. *)
Example C110_cameras_and_targets_case : exists solve p r r',
  honest_blocks solve /\ leaves_others solve /\ honest_start_blocks solve /\ improving_blocks solve /\
  optimizeOnly solve p = Ok r /\ optimizeOnly solve (only_again p r) = Ok r' /\ only_sizes p /\ op_fix_first_camera p = true /\
  (forall T, In T (op_base_to_camera_guess p) -> plain_pose T) /\ (forall T, In T (op_base_to_target_guess p) -> plain_pose T) /\
  rig_in_view (only_views p) (only_guessed p) /\
  (forall T, In T (or_base_to_camera r) -> plain_pose T) /\ (forall T, In T (or_base_to_target r) -> plain_pose T) /\
  rig_in_view (only_views p) (only_poses r) /\ (length (only_views p) > 20)%nat.
Proof. exact again_only. Qed.

(** A target at rest seen by known cameras. What is reported of the guess. *)
Theorem C110_target_seen_by_cameras_initial :
  forall solve p r,
  honest_start_blocks solve -> optimizeMpnp solve p = Ok r -> mpnp_sizes p ->
  (forall T, In T (mp_base_to_camera p) -> plain_pose T) -> plain_pose (mp_base_to_target_guess p) ->
  rig_in_view (single_views p) (mpnp_guessed p) ->
  mr_initial_cost_per_obs r = rig_error (camera_of (mp_intr p)) (single_views p) (mpnp_guessed p) /
                              INR (2 * length (single_views p)).
Proof. exact mpnp_initial. Qed.
Print Assumptions C110_target_seen_by_cameras_initial.

(** The same again from the result. *)
Theorem C110_target_seen_by_cameras_again :
  forall solve p r solve' r',
  honest_blocks solve -> honest_start_blocks solve' ->
  optimizeMpnp solve p = Ok r -> optimizeMpnp solve' (mpnp_again p r) = Ok r' -> mpnp_sizes p ->
  (forall T, In T (mp_base_to_camera p) -> plain_pose T) -> plain_pose (mr_base_to_target r) ->
  rig_in_view (single_views p) (mpnp_poses p r) ->
  mr_initial_cost_per_obs r' = mr_final_cost_per_obs r /\
  (improving_blocks solve' -> mr_final_cost_per_obs r' <= mr_final_cost_per_obs r).
Proof. exact mpnp_restart. Qed.
Print Assumptions C110_target_seen_by_cameras_again.

(** Two cameras. *)
Example C110_target_seen_by_cameras_case : exists solve p r r',
  honest_blocks solve /\ honest_start_blocks solve /\ improving_blocks solve /\
  optimizeMpnp solve p = Ok r /\ optimizeMpnp solve (mpnp_again p r) = Ok r' /\ mpnp_sizes p /\
  (forall T, In T (mp_base_to_camera p) -> plain_pose T) /\ plain_pose (mp_base_to_target_guess p) /\
  rig_in_view (single_views p) (mpnp_guessed p) /\ plain_pose (mr_base_to_target r) /\
  rig_in_view (single_views p) (mpnp_poses p r) /\ (length (single_views p) > 7)%nat.
Proof. exact again_mpnp. Qed.

(** Circle fit. What is reported of the guess. *)
Theorem C110_circle_initial :
  forall u solve cov p r,
  honest_start solve -> optimizeCircle u solve cov p = Ok r ->
  0 <= cf_radius_initial p ->
  cf_initial_cost_per_obs r =
  circle_error (cf_observations p) (cf_x_center_initial p) (cf_y_center_initial p) (cf_radius_initial p) / INR (length (cf_observations p)).
Proof. exact circle_initial. Qed.
Print Assumptions C110_circle_initial.

(** The same again from the result. *)
Theorem C110_circle_again :
  forall u solve cov p r u' solve' cov' r',
  honest solve -> honest_start solve' ->
  optimizeCircle u solve cov p = Ok r -> optimizeCircle u' solve' cov' (circle_again p r) = Ok r' ->
  cf_initial_cost_per_obs r' = cf_final_cost_per_obs r /\
  (improving solve' -> cf_final_cost_per_obs r' <= cf_final_cost_per_obs r).
Proof. exact circle_restart. Qed.
Print Assumptions C110_circle_again.

(** From a circle that is too large to one that is too small, and again from there. *)
Example C110_circle_case : exists u solve solve' cov p r r',
  honest solve /\ honest_start solve /\ honest_start solve' /\ improving solve' /\
  optimizeCircle u solve cov p = Ok r /\ optimizeCircle u solve' cov (circle_again p r) = Ok r' /\
  0 <= cf_radius_initial p /\ cf_radius_initial p <> cf_radius r /\ 0 < cf_final_cost_per_obs r.
Proof. exact again_circle. Qed.

(** Kinematic calibration from images: the chains start as designed, without offsets. *)
Theorem C110_kinematic_images_initial :
  forall u solve cov p r,
  honest_start_kin solve -> lists_blocks cov -> masks_fit (k2_common p) -> guesses_plain (k2_common p) ->
  kin_optimize2D3D u solve cov p = Ok r -> reports_start (k2_common p) (image_errors p) (2 * length (kin_pairs (k2_observations p))) r.
Proof. exact images_start. Qed.
Print Assumptions C110_kinematic_images_initial.

(** Kinematic calibration from measured poses. *)
Theorem C110_kinematic_poses_initial :
  forall u solve cov p w r,
  honest_start_kin solve -> lists_blocks cov -> masks_fit (k6_common p) -> guesses_plain (k6_common p) ->
  kin_optimizePose6D u solve cov p w = Ok r -> reports_start (k6_common p) (pose_errors w p) (4 * length (k6_observations p)) r.
Proof. exact poses_start. Qed.
Print Assumptions C110_kinematic_poses_initial.

(** Both, with every parameter free. *)
Example C110_kinematic_case : exists u solve cov p r q w s,
  honest_start_kin solve /\ lists_blocks cov /\
  masks_fit (k2_common p) /\ guesses_plain (k2_common p) /\ kin_optimize2D3D u solve cov p = Ok r /\ k2_observations p <> [] /\
  masks_fit (k6_common q) /\ guesses_plain (k6_common q) /\ kin_optimizePose6D u solve cov q w = Ok s /\ k6_observations q <> [].
Proof. exact kin_start_case. Qed.
