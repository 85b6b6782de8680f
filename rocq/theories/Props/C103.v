(** C103: calibrations of the same data agree where they may adjust the same things, and the one that may adjust more never
    fits worse. *)
From Coq Require Import Reals List Arith.
From Verif.Base Require Import Geom Outcome.
From Verif.Model Require Import Pose Covariance Solver HandEye Pnp BlockSolver MultiCamera.
From Verif.Spec Require Import CovarianceSpec Frames PinHole OracleSpec PnpSpec MultiSpec UniqueSpec SameDataSpec ToolsAgreeSpec.
From Verif.Proofs Require Import ToolsAgreeProofs ToolsAgreeExample.
From Verif.Proofs Require OneWristCamera.
Import ListNotations.
Local Open Scope R_scope.

(** Cameras that may move on their own fit at least as well as cameras that move as a whole. *)
Theorem C103_cameras_free :
  forall u solve cov p r solve' q r',
  honest_blocks solve -> honest_blocks solve' ->
  optimizeStatic u solve cov p = Ok r -> optimizeWrist solve' q = Ok r' ->
  static_sizes p -> plain_wrists p -> wrist_sizes q ->
  (forall T, In T (wp_wrist_poses q) -> plain_pose T) -> (forall T, In T (wp_base_to_camera_guess q) -> plain_pose T) ->
  static_of_wrist p q ->
  (forall T, In T (sr_base_to_camera r) -> rigid T) ->
  (forall T, In T (wr_base_to_camera r') -> rigid T) -> rigid (wr_wrist_to_target r') ->
  rig_in_view (wrist_views q) (wrist_poses q r') ->
  best_of (cameras_and_wrist (List.length (sp_base_to_camera_guess p)) (static_wrist p)) (camera_of (sp_intr p))
          (static_views p) (static_poses p r) ->
  sr_final_cost_per_obs r <= wr_final_cost_per_obs r'.
Proof. exact static_vs_wrist. Qed.
Print Assumptions C103_cameras_free.

(** Targets that may be anywhere fit at least as well as targets on the wrist. *)
Theorem C103_targets_free :
  forall solve p r solve' q r',
  honest_blocks solve -> leaves_others solve -> honest_blocks solve' ->
  optimizeOnly solve p = Ok r -> optimizeWrist solve' q = Ok r' ->
  only_sizes p -> wrist_sizes q ->
  (op_fix_first_camera p = true -> forall T, nth_error (op_base_to_camera_guess p) 0 = Some T -> plain_pose T) ->
  (forall T, In T (wp_wrist_poses q) -> plain_pose T) -> (forall T, In T (wp_base_to_camera_guess q) -> plain_pose T) ->
  only_of_wrist p q ->
  (forall T, In T (or_base_to_camera r) -> rigid T) ->
  (forall T, In T (wr_base_to_camera r') -> rigid T) -> rigid (wr_wrist_to_target r') ->
  rig_in_view (wrist_views q) (wrist_poses q r') ->
  best_of (cameras_and_targets (List.length (op_base_to_camera_guess p))) (camera_of (op_intr p)) (only_views p) (only_poses r) ->
  or_final_cost_per_obs r <= wr_final_cost_per_obs r'.
Proof. exact only_vs_wrist. Qed.
Print Assumptions C103_targets_free.

(** Every static camera calibrated on its own fits at least as well as all of them together. *)
Theorem C103_one_by_one :
  forall u solve cov p r hr,
  let n := List.length (sp_base_to_camera_guess p) in
  honest_blocks solve -> optimizeStatic u solve cov p = Ok r -> static_sizes p -> plain_wrists p ->
  (forall T, In T (sr_base_to_camera r) -> rigid T) -> rigid (sr_wrist_to_target r) ->
  rig_in_view (static_views p) (static_poses p r) ->
  (forall c, (c < n)%nat -> calibrated (camera_of (sp_intr p) c) (static_observations p c) (hr c)) ->
  sum_over (seq 0 n) (fun c => INR (2 * List.length (sightings (static_observations p c))) * he_final_cost_per_obs (hr c)) <=
  INR (2 * List.length (static_views p)) * sr_final_cost_per_obs r.
Proof. exact cameras_vs_static. Qed.
Print Assumptions C103_one_by_one.

(** With one camera the calibration of static cameras is the hand-eye calibration. *)
Theorem C103_one_static_camera :
  forall u solve cov p r hr,
  honest_blocks solve -> optimizeStatic u solve cov p = Ok r -> static_sizes p -> plain_wrists p ->
  List.length (sp_base_to_camera_guess p) = 1%nat ->
  (forall T, In T (sr_base_to_camera r) -> rigid T) -> rigid (sr_wrist_to_target r) ->
  best_of (cameras_and_wrist 1 (static_wrist p)) (camera_of (sp_intr p)) (static_views p) (static_poses p r) ->
  calibrated (camera_of (sp_intr p) 0) (static_observations p 0) hr ->
  sr_final_cost_per_obs r = he_final_cost_per_obs hr /\
  best_for_images (camera_of (sp_intr p) 0) (sightings (static_observations p 0))
    (nth 0 (sr_base_to_camera r) iso_id) (sr_wrist_to_target r).
Proof. exact one_static_camera. Qed.
Print Assumptions C103_one_static_camera.

(** With one camera moving the set of cameras as a whole is hand-eye calibration as well. *)
Theorem C103_one_wrist_camera :
  forall solve q r hr,
  honest_blocks solve -> optimizeWrist solve q = Ok r -> wrist_sizes q ->
  (forall T, In T (wp_wrist_poses q) -> plain_pose T) -> (forall T, In T (wp_base_to_camera_guess q) -> plain_pose T) ->
  List.length (wp_base_to_camera_guess q) = 1%nat ->
  (forall T, In T (wr_base_to_camera r) -> rigid T) -> rigid (wr_wrist_to_target r) ->
  best_of (rig_and_wrist 1 (fun c => nth c (wp_base_to_camera_guess q) iso_id) (fun i => nth i (wp_wrist_poses q) iso_id))
          (camera_of (wp_intr q)) (wrist_views q) (wrist_poses q r) ->
  calibrated (camera_of (wp_intr q) 0) (wrist_observations q 0) hr ->
  wr_final_cost_per_obs r = he_final_cost_per_obs hr /\
  best_for_images (camera_of (wp_intr q) 0) (sightings (wrist_observations q 0))
    (nth 0 (wr_base_to_camera r) iso_id) (wr_wrist_to_target r).
Proof. exact OneWristCamera.one_wrist_camera. Qed.
Print Assumptions C103_one_wrist_camera.

(** Every picture on its own fits at least as well as any calibration of all of them. *)
Theorem C103_pictures_hand_eye :
  forall u solve cov p r rs,
  honest solve -> optimize2D3D u solve cov p = Ok r -> plain_obs (h2_observations p) ->
  in_view (sightings (h2_observations p)) (he_camera_mount_to_camera r) (he_target_mount_to_target r) ->
  Forall2 (fun o => estimated (h2_intr p) (correspondence_set o)) (h2_observations p) rs ->
  sum_over (combine (h2_observations p) rs)
    (fun o => INR (2 * List.length (correspondence_set (fst o))) * pnp_final_cost_per_obs (snd o)) <=
  INR (2 * List.length (sightings (h2_observations p))) * he_final_cost_per_obs r.
Proof. exact pictures_vs_hand_eye. Qed.
Print Assumptions C103_pictures_hand_eye.

(** The same for static cameras, *)
Theorem C103_pictures_static :
  forall u solve cov p r rp,
  honest_blocks solve -> optimizeStatic u solve cov p = Ok r -> static_sizes p -> plain_wrists p ->
  (forall T, In T (sr_base_to_camera r) -> rigid T) ->
  rig_in_view (static_views p) (static_poses p r) ->
  (forall c i, (c < List.length (sp_base_to_camera_guess p))%nat -> (i < List.length (nth c (sp_wrist_poses p) []))%nat ->
     estimated (camera_of (sp_intr p) c) (images_of (sp_image_observations p) c i) (rp c i)) ->
  sum_over (seq 0 (List.length (sp_base_to_camera_guess p))) (fun c => sum_over (seq 0 (List.length (nth c (sp_wrist_poses p) [])))
    (fun i => INR (2 * List.length (images_of (sp_image_observations p) c i)) * pnp_final_cost_per_obs (rp c i))) <=
  INR (2 * List.length (static_views p)) * sr_final_cost_per_obs r.
Proof. exact pictures_vs_static. Qed.
Print Assumptions C103_pictures_static.

(** for cameras that move as a whole, *)
Theorem C103_pictures_wrist :
  forall solve q r rp,
  honest_blocks solve -> optimizeWrist solve q = Ok r -> wrist_sizes q ->
  (forall T, In T (wp_wrist_poses q) -> plain_pose T) -> (forall T, In T (wp_base_to_camera_guess q) -> plain_pose T) ->
  (forall T, In T (wr_base_to_camera r) -> rigid T) ->
  rig_in_view (wrist_views q) (wrist_poses q r) ->
  (forall c i, (c < List.length (wp_base_to_camera_guess q))%nat -> (i < List.length (wp_wrist_poses q))%nat ->
     estimated (camera_of (wp_intr q) c) (images_of (wp_image_observations q) c i) (rp c i)) ->
  sum_over (seq 0 (List.length (wp_base_to_camera_guess q))) (fun c => sum_over (seq 0 (List.length (wp_wrist_poses q)))
    (fun i => INR (2 * List.length (images_of (wp_image_observations q) c i)) * pnp_final_cost_per_obs (rp c i))) <=
  INR (2 * List.length (wrist_views q)) * wr_final_cost_per_obs r.
Proof. exact OneWristCamera.pictures_vs_wrist. Qed.
Print Assumptions C103_pictures_wrist.

(** for cameras and targets, *)
Theorem C103_pictures_only :
  forall solve p r rp,
  honest_blocks solve -> leaves_others solve -> optimizeOnly solve p = Ok r -> only_sizes p ->
  (op_fix_first_camera p = true -> forall T, nth_error (op_base_to_camera_guess p) 0 = Some T -> plain_pose T) ->
  (forall T, In T (or_base_to_camera r) -> rigid T) ->
  rig_in_view (only_views p) (only_poses r) ->
  (forall c i, (c < List.length (op_base_to_camera_guess p))%nat -> (i < List.length (op_base_to_target_guess p))%nat ->
     estimated (camera_of (op_intr p) c) (images_of (op_image_observations p) c i) (rp c i)) ->
  sum_over (seq 0 (List.length (op_base_to_target_guess p))) (fun i => sum_over (seq 0 (List.length (op_base_to_camera_guess p)))
    (fun c => INR (2 * List.length (images_of (op_image_observations p) c i)) * pnp_final_cost_per_obs (rp c i))) <=
  INR (2 * List.length (only_views p)) * or_final_cost_per_obs r.
Proof. exact pictures_vs_only. Qed.
Print Assumptions C103_pictures_only.

(** and for a target at rest seen by known cameras. *)
Theorem C103_pictures_target :
  forall solve p r rp,
  honest_blocks solve -> optimizeMpnp solve p = Ok r -> mpnp_sizes p ->
  (forall T, In T (mp_base_to_camera p) -> plain_pose T) ->
  rig_in_view (single_views p) (mpnp_poses p r) ->
  (forall c, (c < List.length (mp_base_to_camera p))%nat ->
     estimated (camera_of (mp_intr p) c) (nth c (mp_image_observations p) []) (rp c)) ->
  sum_over (seq 0 (List.length (mp_base_to_camera p)))
    (fun c => INR (2 * List.length (nth c (mp_image_observations p) [])) * pnp_final_cost_per_obs (rp c)) <=
  INR (2 * List.length (single_views p)) * mr_final_cost_per_obs r.
Proof. exact pictures_vs_mpnp. Qed.
Print Assumptions C103_pictures_target.

(** With one camera that is the pose estimation. *)
Theorem C103_one_known_camera :
  forall solve p r rp,
  honest_blocks solve -> optimizeMpnp solve p = Ok r -> mpnp_sizes p ->
  (forall T, In T (mp_base_to_camera p) -> plain_pose T) ->
  List.length (mp_base_to_camera p) = 1%nat ->
  best_of (known_cameras 1 (fun c => nth c (mp_base_to_camera p) iso_id)) (camera_of (mp_intr p)) (single_views p) (mpnp_poses p r) ->
  estimated (camera_of (mp_intr p) 0) (nth 0 (mp_image_observations p) []) rp ->
  mr_final_cost_per_obs r = pnp_final_cost_per_obs rp.
Proof. exact one_camera_pnp. Qed.
Print Assumptions C103_one_known_camera.

Example C103_static_and_wrist_apply : exists u solve cov p r solve' q r' hr,
  honest_blocks solve /\ honest_blocks solve' /\
  optimizeStatic u solve cov p = Ok r /\ optimizeWrist solve' q = Ok r' /\
  static_sizes p /\ plain_wrists p /\ wrist_sizes q /\
  (forall T, In T (wp_wrist_poses q) -> plain_pose T) /\ (forall T, In T (wp_base_to_camera_guess q) -> plain_pose T) /\
  static_of_wrist p q /\
  (forall T, In T (sr_base_to_camera r) -> rigid T) /\ rigid (sr_wrist_to_target r) /\
  (forall T, In T (wr_base_to_camera r') -> rigid T) /\ rigid (wr_wrist_to_target r') /\
  rig_in_view (wrist_views q) (wrist_poses q r') /\
  best_of (cameras_and_wrist (List.length (sp_base_to_camera_guess p)) (static_wrist p)) (camera_of (sp_intr p))
          (static_views p) (static_poses p r) /\
  List.length (sp_base_to_camera_guess p) = 1%nat /\
  calibrated (camera_of (sp_intr p) 0) (static_observations p 0) hr.
Proof. exact ex_static_wrist. Qed.
Example C103_only_and_wrist_apply : exists solve p r solve' q r',
  honest_blocks solve /\ leaves_others solve /\ honest_blocks solve' /\
  optimizeOnly solve p = Ok r /\ optimizeWrist solve' q = Ok r' /\
  only_sizes p /\ wrist_sizes q /\
  (op_fix_first_camera p = true -> forall T, nth_error (op_base_to_camera_guess p) 0 = Some T -> plain_pose T) /\
  (forall T, In T (wp_wrist_poses q) -> plain_pose T) /\ (forall T, In T (wp_base_to_camera_guess q) -> plain_pose T) /\
  only_of_wrist p q /\
  (forall T, In T (or_base_to_camera r) -> rigid T) /\
  (forall T, In T (wr_base_to_camera r') -> rigid T) /\ rigid (wr_wrist_to_target r') /\
  rig_in_view (wrist_views q) (wrist_poses q r') /\
  best_of (cameras_and_targets (List.length (op_base_to_camera_guess p))) (camera_of (op_intr p)) (only_views p) (only_poses r).
Proof. exact ex_only_wrist. Qed.
Example C103_pictures_apply : exists u solve cov p r rp,
  honest_blocks solve /\ optimizeStatic u solve cov p = Ok r /\ static_sizes p /\ plain_wrists p /\
  (forall T, In T (sr_base_to_camera r) -> rigid T) /\
  rig_in_view (static_views p) (static_poses p r) /\
  (forall c i, (c < List.length (sp_base_to_camera_guess p))%nat -> (i < List.length (nth c (sp_wrist_poses p) []))%nat ->
     estimated (camera_of (sp_intr p) c) (images_of (sp_image_observations p) c i) (rp c i)).
Proof. exact ex_pictures. Qed.
Example C103_hand_eye_pictures_apply : exists u solve cov p r rs,
  honest solve /\ optimize2D3D u solve cov p = Ok r /\ plain_obs (h2_observations p) /\
  in_view (sightings (h2_observations p)) (he_camera_mount_to_camera r) (he_target_mount_to_target r) /\
  (2 <= List.length (h2_observations p))%nat /\
  Forall2 (fun o => estimated (h2_intr p) (correspondence_set o)) (h2_observations p) rs.
Proof. exact ex_pictures_hand_eye. Qed.
Example C103_known_camera_applies : exists solve p r rp,
  honest_blocks solve /\ optimizeMpnp solve p = Ok r /\ mpnp_sizes p /\
  (forall T, In T (mp_base_to_camera p) -> plain_pose T) /\
  List.length (mp_base_to_camera p) = 1%nat /\
  best_of (known_cameras 1 (fun c => nth c (mp_base_to_camera p) iso_id)) (camera_of (mp_intr p)) (single_views p) (mpnp_poses p r) /\
  estimated (camera_of (mp_intr p) 0) (nth 0 (mp_image_observations p) []) rp.
Proof. exact ex_one_pnp. Qed.
(** One camera and three pictures. *)
Example C103_wrist_applies :
  exists solve q r hr rp,
  honest_blocks solve /\ optimizeWrist solve q = Ok r /\ wrist_sizes q /\
  (forall T, In T (wp_wrist_poses q) -> plain_pose T) /\ (forall T, In T (wp_base_to_camera_guess q) -> plain_pose T) /\
  List.length (wp_base_to_camera_guess q) = 1%nat /\ List.length (wp_wrist_poses q) = 3%nat /\
  (forall T, In T (wr_base_to_camera r) -> rigid T) /\ rigid (wr_wrist_to_target r) /\
  best_of (rig_and_wrist 1 (fun c => nth c (wp_base_to_camera_guess q) iso_id) (fun i => nth i (wp_wrist_poses q) iso_id))
          (camera_of (wp_intr q)) (wrist_views q) (wrist_poses q r) /\
  calibrated (camera_of (wp_intr q) 0) (wrist_observations q 0) hr /\
  (forall c i, (c < List.length (wp_base_to_camera_guess q))%nat -> (i < List.length (wp_wrist_poses q))%nat ->
     estimated (camera_of (wp_intr q) c) (images_of (wp_image_observations q) c i) (rp c i)).
Proof. exact OneWristCamera.ex_wrist_best. Qed.
