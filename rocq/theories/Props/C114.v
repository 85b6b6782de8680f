(** C114: targets whose points lie on a line. [turn_about_line q w a] is the turn by the angle [a] about the line through [q] with
    direction [w]; [only_pose] says that no other pose explains the measurements without error (Spec/LineTargetSpec.v). *)
From Coq Require Import Reals Arith List.
From Verif.Base Require Import Geom Outcome.
From Verif.Model Require Import Pose Solver HandEye Pnp MultiCamera Intrinsic Targets.
From Verif.Spec Require Import Frames PinHole PnpSpec UniqueSpec MultiSpec SameDataSpec DeterminedSpec ToolsAgreeSpec LineTargetSpec.
From Verif.Spec Require LensChoicesSpec.
From Verif.Proofs Require LineTargetProofs LineTargetExample UniqueExamples.
Import ListNotations.
Local Open Scope R_scope.

(** The turn is rigid and moves no point of the line; it changes nothing at all only if it goes a whole number of times around. *)
Theorem C114_turn_about_the_line :
  forall q w a, dot w w = 1 ->
  rigid (turn_about_line q w a) /\ (forall x, on_line q w x -> iso_app (turn_about_line q w a) x = x) /\
  (turn_about_line q w a = iso_id <-> cos a = 1).
Proof.
  exact (fun q w a U => conj (LineTargetProofs.turn_rigid q w a U) (conj (LineTargetProofs.turn_fixes q w a U) (LineTargetProofs.turn_none q w a U))).
Qed.
Print Assumptions C114_turn_about_the_line.
(** Points lie on a line just if no three of them form a triangle. *)
Theorem C114_line_or_triangle :
  forall pts, ~ not_on_a_line pts <-> exists q w, dot w w = 1 /\ all_on_line q w pts.
Proof. exact LineTargetProofs.line_or_triangle. Qed.
Print Assumptions C114_line_or_triangle.

(** The pose of a target on a line, turned about the line, explains any measurements as well: if a pose is best, all turned ones are. *)
Theorem C114_image_pose_free_to_turn :
  forall q w a, dot w w = 1 -> forall k cs T, all_on_line q w (map in_target cs) ->
  pose_error k cs (iso_mul T (turn_about_line q w a)) = pose_error k cs T /\
  (best_pose k cs T -> best_pose k cs (iso_mul T (turn_about_line q w a))).
Proof.
  exact (fun q w a U k cs T A => conj (LineTargetProofs.line_pose_error q w a U k cs T A) (LineTargetProofs.line_best_pose q w a U k cs T A)).
Qed.
Print Assumptions C114_image_pose_free_to_turn.
Theorem C114_point_pose_free_to_turn :
  forall q w a, dot w w = 1 -> forall cs T, all_on_line q w (map in_target cs) ->
  pose_error3 cs (iso_mul T (turn_about_line q w a)) = pose_error3 cs T /\
  (best_pose3 cs T -> best_pose3 cs (iso_mul T (turn_about_line q w a))).
Proof.
  exact (fun q w a U cs T A => conj (LineTargetProofs.line_pose_error3 q w a U cs T A) (LineTargetProofs.line_best_pose3 q w a U cs T A)).
Qed.
Print Assumptions C114_point_pose_free_to_turn.
(** Two pose estimations that end at poses turned against each other report the same final cost. *)
Theorem C114_pnp_same_cost :
  forall q w a, dot w w = 1 ->
  forall u solve cov p r u' solve' cov' p' r',
  honest solve -> optimizePnP u solve cov p = Ok r -> all_in_front (pnp_camera_to_target r) (pnp_correspondences p) ->
  all_on_line q w (map in_target (pnp_correspondences p)) ->
  honest solve' -> optimizePnP u' solve' cov' p' = Ok r' ->
  pnp_intr p' = pnp_intr p -> pnp_correspondences p' = pnp_correspondences p ->
  pnp_camera_to_target r' = iso_mul (pnp_camera_to_target r) (turn_about_line q w a) ->
  pnp_final_cost_per_obs r' = pnp_final_cost_per_obs r.
Proof. exact LineTargetProofs.line_pnp2. Qed.
Print Assumptions C114_pnp_same_cost.
Theorem C114_pnp3_same_cost :
  forall q w a, dot w w = 1 ->
  forall u solve cov p r u' solve' cov' p' r',
  honest solve -> optimizePnP3D u solve cov p = Ok r ->
  all_on_line q w (map in_target (pnp3_correspondences p)) ->
  honest solve' -> optimizePnP3D u' solve' cov' p' = Ok r' ->
  pnp3_correspondences p' = pnp3_correspondences p ->
  pnp_camera_to_target r' = iso_mul (pnp_camera_to_target r) (turn_about_line q w a) ->
  pnp_final_cost_per_obs r' = pnp_final_cost_per_obs r.
Proof. exact LineTargetProofs.line_pnp3. Qed.
Print Assumptions C114_pnp3_same_cost.
(** A grid with one row of two circles: the true pose and the target turned over are both found without error. *)
Example C114_pnp_case : exists u solve cov p r p' r' T,
  honest solve /\ optimizePnP u solve cov p = Ok r /\ optimizePnP u solve cov p' = Ok r' /\
  all_in_front (pnp_camera_to_target r) (pnp_correspondences p) /\
  pnp_intr p' = pnp_intr p /\ pnp_correspondences p' = pnp_correspondences p /\
  map in_target (pnp_correspondences p) = createPoints (CG 1 2 1) /\
  all_on_line vzero unitX (map in_target (pnp_correspondences p)) /\
  rigid T /\ ~ edge_on T /\ fx (pnp_intr p) <> 0 /\ fy (pnp_intr p) <> 0 /\ perfect_image (pnp_intr p) T (pnp_correspondences p) /\
  pnp_camera_to_target r = T /\ pnp_final_cost_per_obs r = 0 /\
  pnp_camera_to_target r' = iso_mul T (turn_about_line vzero unitX PI) /\ pnp_final_cost_per_obs r' = 0 /\
  pnp_camera_to_target r' <> T.
Proof. exact LineTargetExample.ln_pnp2. Qed.
Example C114_pnp3_case : exists u solve cov p r p' r' T,
  honest solve /\ optimizePnP3D u solve cov p = Ok r /\ optimizePnP3D u solve cov p' = Ok r' /\
  pnp3_correspondences p' = pnp3_correspondences p /\
  all_on_line vzero unitX (map in_target (pnp3_correspondences p)) /\
  rigid T /\ perfect_points T (pnp3_correspondences p) /\
  pnp_camera_to_target r = T /\ pnp_final_cost_per_obs r = 0 /\
  pnp_camera_to_target r' = iso_mul T (turn_about_line vzero unitX PI) /\ pnp_final_cost_per_obs r' = 0 /\
  pnp_camera_to_target r' <> T.
Proof. exact LineTargetExample.ln_pnp3. Qed.

(** Perfect measurements: measured points determine the pose just if three of them form a triangle; pictures of points on a line never do. *)
Theorem C114_points_determine_iff_triangle :
  forall cs T, rigid T -> perfect_points T cs -> (only_pose3 cs T <-> not_on_a_line (map in_target cs)).
Proof. exact LineTargetProofs.only_pose3_iff. Qed.
Print Assumptions C114_points_determine_iff_triangle.
Theorem C114_line_pictures_undetermined :
  forall k cs T, rigid T -> perfect_image k T cs -> ~ not_on_a_line (map in_target cs) -> ~ only_pose k cs T.
Proof. exact LineTargetProofs.line_undetermined. Qed.
Print Assumptions C114_line_pictures_undetermined.
(** Circle grids: a perfect picture, or perfectly measured circles, determine the pose just if there are at least two rows and two
    columns, some distance apart. *)
Theorem C114_grid_picture_determines_iff_full :
  forall k t cs T, map in_target cs = createPoints t -> rigid T -> ~ edge_on T -> fx k <> 0 -> fy k <> 0 ->
  perfect_image k T cs -> (only_pose k cs T <-> full_grid t).
Proof. exact LineTargetProofs.grid_pose_iff. Qed.
Print Assumptions C114_grid_picture_determines_iff_full.
Theorem C114_grid_points_determine_iff_full :
  forall t cs T, map in_target cs = createPoints t -> rigid T -> perfect_points T cs -> (only_pose3 cs T <-> full_grid t).
Proof. exact LineTargetProofs.grid_pose3_iff. Qed.
Print Assumptions C114_grid_points_determine_iff_full.
Example C114_full_grid_case : full_grid (CG 2 2 1) /\ exists k cs T, map in_target cs = createPoints (CG 2 2 1) /\ rigid T /\ ~ edge_on T /\
  fx k <> 0 /\ fy k <> 0 /\ perfect_image k T cs.
Proof. exact LineTargetExample.ln_full. Qed.

(** Hand-eye calibration, whatever the robot did: the target may be turned about the line in its mount. *)
Theorem C114_hand_eye_images_free_to_turn :
  forall q w a, dot w w = 1 -> forall k ss X Z, all_on_line q w (map point ss) ->
  image_error k ss X (iso_mul Z (turn_about_line q w a)) = image_error k ss X Z /\
  (best_for_images k ss X Z -> best_for_images k ss X (iso_mul Z (turn_about_line q w a))).
Proof.
  exact (fun q w a U k ss X Z A => conj (LineTargetProofs.line_image_error q w a U k ss X Z A) (LineTargetProofs.line_best_images q w a U k ss X Z A)).
Qed.
Print Assumptions C114_hand_eye_images_free_to_turn.
Theorem C114_hand_eye_points_free_to_turn :
  forall q w a, dot w w = 1 -> forall ss X Z, all_on_line q w (map point ss) ->
  space_error ss X (iso_mul Z (turn_about_line q w a)) = space_error ss X Z /\
  (best_in_space ss X Z -> best_in_space ss X (iso_mul Z (turn_about_line q w a))).
Proof.
  exact (fun q w a U ss X Z A => conj (LineTargetProofs.line_space_error q w a U ss X Z A) (LineTargetProofs.line_best_space q w a U ss X Z A)).
Qed.
Print Assumptions C114_hand_eye_points_free_to_turn.
Theorem C114_hand_eye_same_cost :
  forall q w a, dot w w = 1 ->
  forall u solve cov p r u' solve' cov' p' r',
  honest solve -> optimize2D3D u solve cov p = Ok r -> plain_obs (h2_observations p) ->
  in_view (sightings (h2_observations p)) (he_camera_mount_to_camera r) (he_target_mount_to_target r) ->
  all_on_line q w (map point (sightings (h2_observations p))) ->
  honest solve' -> optimize2D3D u' solve' cov' p' = Ok r' ->
  h2_intr p' = h2_intr p -> h2_observations p' = h2_observations p ->
  he_camera_mount_to_camera r' = he_camera_mount_to_camera r ->
  he_target_mount_to_target r' = iso_mul (he_target_mount_to_target r) (turn_about_line q w a) ->
  he_final_cost_per_obs r' = he_final_cost_per_obs r.
Proof. exact LineTargetProofs.line_he2. Qed.
Print Assumptions C114_hand_eye_same_cost.
Theorem C114_hand_eye3_same_cost :
  forall q w a, dot w w = 1 ->
  forall u solve cov p r u' solve' cov' p' r',
  honest solve -> optimize3D3D u solve cov p = Ok r -> plain_obs (h3_observations p) ->
  rigid (he_camera_mount_to_camera r) ->
  all_on_line q w (map point (sightings (h3_observations p))) ->
  honest solve' -> optimize3D3D u' solve' cov' p' = Ok r' ->
  h3_observations p' = h3_observations p ->
  he_camera_mount_to_camera r' = he_camera_mount_to_camera r ->
  he_target_mount_to_target r' = iso_mul (he_target_mount_to_target r) (turn_about_line q w a) ->
  he_final_cost_per_obs r' = he_final_cost_per_obs r.
Proof. exact LineTargetProofs.line_he3. Qed.
Print Assumptions C114_hand_eye3_same_cost.
(** The robot turned about two axes, the measurements are perfect, and still two calibrations have no error. *)
Example C114_hand_eye_case : exists u solve cov p r p' r',
  honest solve /\ optimize2D3D u solve cov p = Ok r /\ optimize2D3D u solve cov p' = Ok r' /\ plain_obs (h2_observations p) /\
  h2_intr p' = h2_intr p /\ h2_observations p' = h2_observations p /\
  all_on_line vzero unitX (map point (sightings (h2_observations p))) /\
  two_axes (motions_of (map mounts (h2_observations p))) /\
  best_for_images (h2_intr p) (sightings (h2_observations p)) (he_camera_mount_to_camera r) (he_target_mount_to_target r) /\
  he_camera_mount_to_camera r' = he_camera_mount_to_camera r /\
  he_target_mount_to_target r' = iso_mul (he_target_mount_to_target r) (turn_about_line vzero unitX PI) /\
  he_target_mount_to_target r' <> he_target_mount_to_target r /\
  he_final_cost_per_obs r = 0 /\ he_final_cost_per_obs r' = 0.
Proof. exact LineTargetExample.ln_case2. Qed.
Example C114_hand_eye3_case : exists u solve cov p r p' r',
  honest solve /\ optimize3D3D u solve cov p = Ok r /\ optimize3D3D u solve cov p' = Ok r' /\ plain_obs (h3_observations p) /\
  h3_observations p' = h3_observations p /\
  all_on_line vzero unitX (map point (sightings (h3_observations p))) /\
  best_in_space (sightings (h3_observations p)) (he_camera_mount_to_camera r) (he_target_mount_to_target r) /\
  he_camera_mount_to_camera r' = he_camera_mount_to_camera r /\
  he_target_mount_to_target r' = iso_mul (he_target_mount_to_target r) (turn_about_line vzero unitX PI) /\
  he_target_mount_to_target r' <> he_target_mount_to_target r /\
  he_final_cost_per_obs r = 0 /\ he_final_cost_per_obs r' = 0.
Proof. exact LineTargetExample.ln_case3. Qed.

(** Several cameras: in the same way, for each of the four calibrations. If the target is adjusted in every image, it may be turned in
    every image by another angle, about the line on which the points seen there lie. *)
Theorem C114_wrist_target_free_to_turn :
  forall q w a vs, dot w w = 1 -> all_on_line q w (map (fun v : view => in_target (snd v)) vs) ->
  forall n k T,
  (forall wrist, best_of (cameras_and_wrist n wrist) k vs T ->
     best_of (cameras_and_wrist n wrist) k vs (fun c i => iso_mul (T c i) (turn_about_line q w a))) /\
  (forall cameras wrist, best_of (rig_and_wrist n cameras wrist) k vs T ->
     best_of (rig_and_wrist n cameras wrist) k vs (fun c i => iso_mul (T c i) (turn_about_line q w a))) /\
  (forall cameras, best_of (known_cameras n cameras) k vs T ->
     best_of (known_cameras n cameras) k vs (fun c i => iso_mul (T c i) (turn_about_line q w a))).
Proof.
  exact (fun q w a vs U L n k T =>
    conj (fun wrist => LineTargetProofs.line_wrist q w a vs U L n wrist k T)
      (conj (fun cameras wrist => LineTargetProofs.line_rig q w a vs U L n cameras wrist k T)
        (fun cameras => LineTargetProofs.line_known q w a vs U L n cameras k T))).
Qed.
Print Assumptions C114_wrist_target_free_to_turn.
Theorem C114_each_image_free_to_turn :
  forall q w a (vs : list view), (forall i, dot (w i) (w i) = 1) ->
  (forall c i x, In (c, i, x) vs -> on_line (q i) (w i) (in_target x)) ->
  forall n k T, best_of (cameras_and_targets n) k vs T ->
  best_of (cameras_and_targets n) k vs (fun c i => iso_mul (T c i) (turn_about_line (q i) (w i) (a i))).
Proof. exact LineTargetProofs.line_targets. Qed.
Print Assumptions C114_each_image_free_to_turn.
Example C114_cameras_case : let T : poses := fun _ _ => UniqueExamples.ex_ahead in let k := fun _ : nat => UniqueExamples.ex_k in
  let vs := LineTargetExample.ln_views in
  all_on_line vzero unitX (map (fun v => in_target (snd v)) vs) /\
  best_of (cameras_and_targets 1) k vs T /\ best_of (cameras_and_wrist 1 (fun _ _ => iso_id)) k vs T /\
  best_of (rig_and_wrist 1 (fun _ => iso_id) (fun _ => iso_id)) k vs T /\ best_of (known_cameras 1 (fun _ => iso_id)) k vs T.
Proof. exact LineTargetExample.ln_rig. Qed.

(** Intrinsic calibration: the poses of the target in the images. *)
Theorem C114_intrinsic_poses_free_to_turn :
  forall q w a p, (forall i, dot (w i) (w i) = 1) ->
  (forall i, (i < length (ip_image_observations p))%nat -> all_on_line (q i) (w i) (map in_target (LensChoicesSpec.picture p i))) ->
  forall k d T, LensChoicesSpec.best_lens p k d T ->
  LensChoicesSpec.best_lens p k d (fun i => iso_mul (T i) (turn_about_line (q i) (w i) (a i))).
Proof. exact LineTargetProofs.line_lens. Qed.
Print Assumptions C114_intrinsic_poses_free_to_turn.
Example C114_intrinsic_case : exists p k d T, (forall i, (i < length (ip_image_observations p))%nat ->
    all_on_line vzero unitX (map in_target (LensChoicesSpec.picture p i))) /\
  length (ip_image_observations p) = 1%nat /\ LensChoicesSpec.best_lens p k d T.
Proof. exact LineTargetExample.ln_lens. Qed.
