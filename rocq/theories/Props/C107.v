(** C107: a kinematic calibration that may adjust more never fits worse, and one that may only adjust the mounts is the hand-eye
    calibration. The vocabulary is in Spec/KinFitSpec.v: [may_find] is what the masks leave open, [whole_error] the error of an
    estimate, [best_estimate] one that no other estimate beats. *)
From Coq Require Import Reals List.
From Verif.Base Require Import Geom Outcome Matrix.
From Verif.Model Require Import Pose Covariance Solver HandEye DhChain LocalParam Kinematic.
From Verif.Spec Require Import Frames KinSpec KinReport OracleSpec UniqueSpec SameDataSpec KinUniqueSpec KinFitSpec.
From Verif.Proofs Require Import KinFitProofs KinFitExample.
Import ListNotations.
Local Open Scope R_scope.

(** A result is one that the masks allow, and the reported error is that of the observations and offsets, per number. *)
Theorem C107_images_reported :
  forall u solve cov p r,
  honest_kin solve -> keeps_frozen solve -> lists_blocks cov -> masks_fit (k2_common p) ->
  kin_optimize2D3D u solve cov p = Ok r ->
  reports (k2_common p) (image_errors p) (2 * List.length (kin_pairs (k2_observations p))) r.
Proof. exact images_report. Qed.
Print Assumptions C107_images_reported.
Theorem C107_poses_reported :
  forall u solve cov p w r,
  honest_kin solve -> keeps_frozen solve -> lists_blocks cov -> masks_fit (k6_common p) ->
  kin_optimizePose6D u solve cov p w = Ok r ->
  reports (k6_common p) (pose_errors w p) (4 * List.length (k6_observations p)) r.
Proof. exact poses_report. Qed.
Print Assumptions C107_poses_reported.

(** Holding less never makes the fit worse. *)
Theorem C107_images_more_freedom :
  forall u solve cov p r u' solve' cov' p' r',
  honest_kin solve -> keeps_frozen solve -> lists_blocks cov -> masks_fit (k2_common p) ->
  kin_optimize2D3D u solve cov p = Ok r ->
  honest_kin solve' -> keeps_frozen solve' -> lists_blocks cov' -> masks_fit (k2_common p') ->
  kin_optimize2D3D u' solve' cov' p' = Ok r' ->
  k2_observations p' = k2_observations p -> k2_intr p' = k2_intr p ->
  same_setup (k2_common p) (k2_common p') -> holds_less (k2_common p) (k2_common p') ->
  best_estimate (k2_common p') (image_errors p') (result_estimate r') ->
  kr_final_cost_per_obs r' <= kr_final_cost_per_obs r.
Proof. exact images_more. Qed.
Print Assumptions C107_images_more_freedom.
Theorem C107_poses_more_freedom :
  forall u solve cov p w r u' solve' cov' p' r',
  honest_kin solve -> keeps_frozen solve -> lists_blocks cov -> masks_fit (k6_common p) ->
  kin_optimizePose6D u solve cov p w = Ok r ->
  honest_kin solve' -> keeps_frozen solve' -> lists_blocks cov' -> masks_fit (k6_common p') ->
  kin_optimizePose6D u' solve' cov' p' w = Ok r' ->
  k6_observations p' = k6_observations p ->
  same_setup (k6_common p) (k6_common p') -> holds_less (k6_common p) (k6_common p') ->
  best_estimate (k6_common p') (pose_errors w p') (result_estimate r') ->
  kr_final_cost_per_obs r' <= kr_final_cost_per_obs r.
Proof. exact poses_more. Qed.
Print Assumptions C107_poses_more_freedom.

(** With the mounts free, it fits at least as well as the hand-eye calibration with the tips of the chains as mount poses. *)
Theorem C107_hand_eye :
  forall u solve cov p r hr hs u' solve' cov' q,
  honest_kin solve -> keeps_frozen solve -> lists_blocks cov -> masks_fit (k2_common p) ->
  kin_optimize2D3D u solve cov p = Ok r -> best_estimate (k2_common p) (image_errors p) (result_estimate r) ->
  mounts_free (k2_common p) -> turns_enough (kc_camera_base_to_target_base_guess (k2_common p)) ->
  Forall2 (as_hand_eye (k2_common p)) (k2_observations p) hs ->
  honest solve' -> optimize2D3D u' solve' cov' q = Ok hr -> h2_intr q = k2_intr p -> h2_observations q = hs -> plain_obs hs ->
  clear_view (sightings hs) (he_camera_mount_to_camera hr) (he_target_mount_to_target hr) ->
  turns_enough (he_camera_mount_to_camera hr) -> turns_enough (he_target_mount_to_target hr) ->
  kr_final_cost_per_obs r <= he_final_cost_per_obs hr.
Proof. exact kin_vs_hand_eye. Qed.
Print Assumptions C107_hand_eye.

(** With the chains and bases held, the error reported is the error of the hand-eye calibration, *)
Theorem C107_held_error :
  forall u solve cov p r hs,
  honest_kin solve -> keeps_frozen solve -> lists_blocks cov -> masks_fit (k2_common p) ->
  chains_held (k2_common p) -> bases_held (k2_common p) -> turns_enough (kc_camera_base_to_target_base_guess (k2_common p)) ->
  kin_optimize2D3D u solve cov p = Ok r -> Forall2 (as_hand_eye (k2_common p)) (k2_observations p) hs ->
  clear_view (sightings hs) (kr_camera_mount_to_camera r) (kr_target_mount_to_target r) ->
  kr_final_cost_per_obs r =
  image_error (k2_intr p) (sightings hs) (kr_camera_mount_to_camera r) (kr_target_mount_to_target r) /
  INR (2 * List.length (sightings hs)).
Proof. exact held_error. Qed.
Print Assumptions C107_held_error.

(** and the best results of both agree. *)
Theorem C107_held_is_hand_eye :
  forall u solve cov p r hr hs u' solve' cov' q,
  honest_kin solve -> keeps_frozen solve -> lists_blocks cov -> masks_fit (k2_common p) ->
  kin_optimize2D3D u solve cov p = Ok r -> best_estimate (k2_common p) (image_errors p) (result_estimate r) ->
  mounts_free (k2_common p) -> chains_held (k2_common p) -> bases_held (k2_common p) ->
  turns_enough (kc_camera_base_to_target_base_guess (k2_common p)) ->
  Forall2 (as_hand_eye (k2_common p)) (k2_observations p) hs ->
  clear_view (sightings hs) (kr_camera_mount_to_camera r) (kr_target_mount_to_target r) ->
  honest solve' -> optimize2D3D u' solve' cov' q = Ok hr -> h2_intr q = k2_intr p -> h2_observations q = hs -> plain_obs hs ->
  best_for_images (k2_intr p) (sightings hs) (he_camera_mount_to_camera hr) (he_target_mount_to_target hr) ->
  clear_view (sightings hs) (he_camera_mount_to_camera hr) (he_target_mount_to_target hr) ->
  turns_enough (he_camera_mount_to_camera hr) -> turns_enough (he_target_mount_to_target hr) ->
  kr_final_cost_per_obs r = he_final_cost_per_obs hr /\
  best_for_images (k2_intr p) (sightings hs) (kr_camera_mount_to_camera r) (kr_target_mount_to_target r).
Proof. exact held_is_hand_eye. Qed.
Print Assumptions C107_held_is_hand_eye.

(** Two wrists of two joints, with everything free and with the chains and bases held *)
Example C107_freedom_applies : exists u solve cov p r p' r' w q s q' s',
  honest_kin solve /\ keeps_frozen solve /\ lists_blocks cov /\ masks_fit (k2_common p) /\ masks_fit (k2_common p') /\
  kin_optimize2D3D u solve cov p = Ok r /\ kin_optimize2D3D u solve cov p' = Ok r' /\
  k2_observations p' = k2_observations p /\ k2_intr p' = k2_intr p /\
  same_setup (k2_common p) (k2_common p') /\ holds_less (k2_common p) (k2_common p') /\
  best_estimate (k2_common p') (image_errors p') (result_estimate r') /\
  chains_held (k2_common p) /\ any_free (k2_common p') 0 /\ any_free (k2_common p') 1 /\
  k6_common q = k2_common p /\ k6_common q' = k2_common p' /\ k6_observations q' = k6_observations q /\
  kin_optimizePose6D u solve cov q w = Ok s /\ kin_optimizePose6D u solve cov q' w = Ok s' /\
  best_estimate (k6_common q') (pose_errors w q') (result_estimate s').
Proof. exact ex_freedom. Qed.
Example C107_hand_eye_applies : exists u solve cov p r hr hs u' solve' cov' q,
  honest_kin solve /\ keeps_frozen solve /\ lists_blocks cov /\ masks_fit (k2_common p) /\
  kin_optimize2D3D u solve cov p = Ok r /\ best_estimate (k2_common p) (image_errors p) (result_estimate r) /\
  mounts_free (k2_common p) /\ chains_held (k2_common p) /\ bases_held (k2_common p) /\
  turns_enough (kc_camera_base_to_target_base_guess (k2_common p)) /\
  (2 <= List.length hs)%nat /\ Forall2 (as_hand_eye (k2_common p)) (k2_observations p) hs /\
  clear_view (sightings hs) (kr_camera_mount_to_camera r) (kr_target_mount_to_target r) /\
  honest solve' /\ optimize2D3D u' solve' cov' q = Ok hr /\ h2_intr q = k2_intr p /\ h2_observations q = hs /\ plain_obs hs /\
  best_for_images (k2_intr p) (sightings hs) (he_camera_mount_to_camera hr) (he_target_mount_to_target hr) /\
  clear_view (sightings hs) (he_camera_mount_to_camera hr) (he_target_mount_to_target hr) /\
  turns_enough (he_camera_mount_to_camera hr) /\ turns_enough (he_target_mount_to_target hr).
Proof. exact ex_kin_hand_eye. Qed.
