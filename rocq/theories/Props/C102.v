(** C102: the choices of the user do not change what a calibration finds.
    The order of the observations and points, the unit of length, the frames of the base, of the mounts and of the target,
    and the size and origin of the pictures can all be chosen. [same_images] and the like (Spec/SameDataSpec.v) say that two
    problems describe the same data, [new_camera] and [new_target] convert a calibration. *)
From Coq Require Import Reals List Permutation.
From Verif.Base Require Import Geom Outcome.
From Verif.Model Require Import Pose Covariance Solver HandEye Pnp.
From Verif.Spec Require Import Frames PnpSpec UniqueSpec SameDataSpec.
From Verif.Proofs Require Import SameDataProofs SameDataExample.
Import ListNotations.
Local Open Scope R_scope.

(** The reported error of a result is the error of the calibration over the data, per coordinate. *)
Theorem C102_reported_image_error :
  forall u solve cov p r,
  honest solve -> optimize2D3D u solve cov p = Ok r -> plain_obs (h2_observations p) ->
  in_view (sightings (h2_observations p)) (he_camera_mount_to_camera r) (he_target_mount_to_target r) ->
  he_final_cost_per_obs r =
  image_error (h2_intr p) (sightings (h2_observations p)) (he_camera_mount_to_camera r) (he_target_mount_to_target r) /
  INR (2 * List.length (sightings (h2_observations p))).
Proof. exact he_error2. Qed.
Print Assumptions C102_reported_image_error.

(** Every calibration has the same error in both descriptions, in pixels of the description. *)
Theorem C102_image_error :
  forall h m d k ss ss' X Z,
  sensible h -> (forall s, In s ss -> rigid (camera_mount s)) -> same_images h m d ss ss' -> in_view ss X Z ->
  image_error (resized_camera m d k) ss' (new_camera h X) (new_target h Z) = m * m * image_error k ss X Z.
Proof. exact image_error_same. Qed.
Print Assumptions C102_image_error.

(** If in both descriptions the result is the best there is, the reported errors agree, and the first result, converted, is
    a best one for the second description. *)
Theorem C102_hand_eye_images :
  forall u solve cov p r u' solve' cov' p' r' h m d,
  honest solve -> honest solve' ->
  optimize2D3D u solve cov p = Ok r -> optimize2D3D u' solve' cov' p' = Ok r' ->
  plain_obs (h2_observations p) -> plain_obs (h2_observations p') ->
  sensible h -> h2_intr p' = resized_camera m d (h2_intr p) ->
  same_images h m d (sightings (h2_observations p)) (sightings (h2_observations p')) ->
  best_for_images (h2_intr p) (sightings (h2_observations p)) (he_camera_mount_to_camera r) (he_target_mount_to_target r) ->
  best_for_images (h2_intr p') (sightings (h2_observations p')) (he_camera_mount_to_camera r') (he_target_mount_to_target r') ->
  he_final_cost_per_obs r' = m * m * he_final_cost_per_obs r /\
  best_for_images (h2_intr p') (sightings (h2_observations p'))
    (new_camera h (he_camera_mount_to_camera r)) (new_target h (he_target_mount_to_target r)).
Proof. exact he_same_images. Qed.
Print Assumptions C102_hand_eye_images.

(** The guess is rejected in both descriptions or in none. *)
Theorem C102_rejection :
  forall u solve cov p u' solve' cov' p' h m d,
  (forall l, Permutation l (co_order cov l)) -> (forall l, Permutation l (co_order cov' l)) ->
  plain_obs (h2_observations p) -> plain_obs (h2_observations p') ->
  plain_pose (h2_camera_guess p) -> plain_pose (h2_target_guess p) ->
  plain_pose (h2_camera_guess p') -> plain_pose (h2_target_guess p') ->
  sensible h -> same_images h m d (sightings (h2_observations p)) (sightings (h2_observations p')) ->
  h2_camera_guess p' = new_camera h (h2_camera_guess p) -> h2_target_guess p' = new_target h (h2_target_guess p) ->
  (optimize2D3D u solve cov p = Throw RuntimeError <-> optimize2D3D u' solve' cov' p' = Throw RuntimeError).
Proof. exact he_same_rejection. Qed.
Print Assumptions C102_rejection.

(** Measured points: the errors are lengths, and the frame of the camera can be chosen too. *)
Theorem C102_reported_space_error :
  forall u solve cov p r,
  honest solve -> optimize3D3D u solve cov p = Ok r -> plain_obs (h3_observations p) ->
  rigid (he_camera_mount_to_camera r) ->
  he_final_cost_per_obs r =
  space_error (sightings (h3_observations p)) (he_camera_mount_to_camera r) (he_target_mount_to_target r) /
  INR (3 * List.length (sightings (h3_observations p))).
Proof. exact he_error3. Qed.
Print Assumptions C102_reported_space_error.

Theorem C102_hand_eye_points :
  forall u solve cov p r u' solve' cov' p' r' h K,
  honest solve -> honest solve' ->
  optimize3D3D u solve cov p = Ok r -> optimize3D3D u' solve' cov' p' = Ok r' ->
  plain_obs (h3_observations p) -> plain_obs (h3_observations p') ->
  sensible h -> rigid K ->
  same_points h K (sightings (h3_observations p)) (sightings (h3_observations p')) ->
  best_in_space (sightings (h3_observations p)) (he_camera_mount_to_camera r) (he_target_mount_to_target r) ->
  best_in_space (sightings (h3_observations p')) (he_camera_mount_to_camera r') (he_target_mount_to_target r') ->
  he_final_cost_per_obs r' = unit_of_length h * unit_of_length h * he_final_cost_per_obs r /\
  best_in_space (sightings (h3_observations p'))
    (iso_mul (new_camera h (he_camera_mount_to_camera r)) K) (new_target h (he_target_mount_to_target r)).
Proof. exact he_same_points. Qed.
Print Assumptions C102_hand_eye_points.

(** Pose estimation. *)
Theorem C102_pose_from_picture :
  forall u solve cov p r u' solve' cov' p' r' s G m d,
  honest solve -> honest solve' -> optimizePnP u solve cov p = Ok r -> optimizePnP u' solve' cov' p' = Ok r' ->
  all_in_front (pnp_camera_to_target r) (pnp_correspondences p) ->
  all_in_front (pnp_camera_to_target r') (pnp_correspondences p') ->
  0 < s -> rigid G -> pnp_intr p' = resized_camera m d (pnp_intr p) ->
  same_picture s G m d (pnp_correspondences p) (pnp_correspondences p') ->
  best_pose (pnp_intr p) (pnp_correspondences p) (pnp_camera_to_target r) ->
  best_pose (pnp_intr p') (pnp_correspondences p') (pnp_camera_to_target r') ->
  pnp_final_cost_per_obs r' = m * m * pnp_final_cost_per_obs r /\
  best_pose (pnp_intr p') (pnp_correspondences p') (iso_mul (in_unit s (pnp_camera_to_target r)) G).
Proof. exact pnp_same_picture. Qed.
Print Assumptions C102_pose_from_picture.

Theorem C102_pose_from_points :
  forall u solve cov p r u' solve' cov' p' r' s G K,
  honest solve -> honest solve' -> optimizePnP3D u solve cov p = Ok r -> optimizePnP3D u' solve' cov' p' = Ok r' ->
  0 < s -> rigid G -> rigid K ->
  same_cloud s G K (pnp3_correspondences p) (pnp3_correspondences p') ->
  best_pose3 (pnp3_correspondences p) (pnp_camera_to_target r) ->
  best_pose3 (pnp3_correspondences p') (pnp_camera_to_target r') ->
  pnp_final_cost_per_obs r' = s * s * pnp_final_cost_per_obs r /\
  best_pose3 (pnp3_correspondences p') (iso_mul (iso_inv K) (iso_mul (in_unit s (pnp_camera_to_target r)) G)).
Proof. exact pnp_same_cloud. Qed.
Print Assumptions C102_pose_from_points.

(** Below a ten billionth of a unit in front of the camera, the unit does matter to the pose estimation from a picture:
    its projection no longer divides. *)
Theorem C102_unit_matters_close_up :
  exists k v, 0 < vz v /\ projectPoint_eig k v <> projectPoint_eig k (vscale 10 v).
Proof. exact unit_matters. Qed.
Print Assumptions C102_unit_matters_close_up.

Example C102_images_apply : exists u solve cov p r p' r' h m d,
  honest solve /\ optimize2D3D u solve cov p = Ok r /\ optimize2D3D u solve cov p' = Ok r' /\
  plain_obs (h2_observations p) /\ plain_obs (h2_observations p') /\
  sensible h /\ h2_intr p' = resized_camera m d (h2_intr p) /\
  same_images h m d (sightings (h2_observations p)) (sightings (h2_observations p')) /\
  best_for_images (h2_intr p) (sightings (h2_observations p)) (he_camera_mount_to_camera r) (he_target_mount_to_target r) /\
  best_for_images (h2_intr p') (sightings (h2_observations p')) (he_camera_mount_to_camera r') (he_target_mount_to_target r').
Proof. exact ex_same_images. Qed.
Example C102_points_apply : exists u solve cov p r p' r' h K,
  honest solve /\ optimize3D3D u solve cov p = Ok r /\ optimize3D3D u solve cov p' = Ok r' /\
  plain_obs (h3_observations p) /\ plain_obs (h3_observations p') /\
  sensible h /\ rigid K /\
  same_points h K (sightings (h3_observations p)) (sightings (h3_observations p')) /\
  best_in_space (sightings (h3_observations p)) (he_camera_mount_to_camera r) (he_target_mount_to_target r) /\
  best_in_space (sightings (h3_observations p')) (he_camera_mount_to_camera r') (he_target_mount_to_target r').
Proof. exact ex_same_points. Qed.
Example C102_picture_applies : exists u solve cov p r p' r' s G m d,
  honest solve /\ optimizePnP u solve cov p = Ok r /\ optimizePnP u solve cov p' = Ok r' /\
  all_in_front (pnp_camera_to_target r) (pnp_correspondences p) /\
  all_in_front (pnp_camera_to_target r') (pnp_correspondences p') /\
  0 < s /\ rigid G /\ pnp_intr p' = resized_camera m d (pnp_intr p) /\
  same_picture s G m d (pnp_correspondences p) (pnp_correspondences p') /\
  best_pose (pnp_intr p) (pnp_correspondences p) (pnp_camera_to_target r) /\
  best_pose (pnp_intr p') (pnp_correspondences p') (pnp_camera_to_target r').
Proof. exact ex_same_pose. Qed.
