(** C115: kinematic calibrations, and how the data are written down. [kin_choices] are the choices of a second description of the
    same data (another unit of length, other frames at the bases, the camera and the target); [images_anew] and [poses_anew] are
    the data in that description, in any order; [setup_anew] the chains, guesses and expected offsets; [estimate_anew] a result
    (Spec/KinChoicesSpec.v). [best_estimate] is a result no other allowed one is better than (Spec/KinFitSpec.v). *)
From Coq Require Import Reals List.
From Verif.Base Require Import Geom Outcome Matrix.
From Verif.Model Require Import Pose Covariance Solver HandEye DhChain LocalParam Kinematic.
From Verif.Spec Require Import PinHole Frames KinSpec KinReport OracleSpec UniqueSpec SameDataSpec KinUniqueSpec KinFitSpec KinChoicesSpec.
From Verif.Proofs Require KinChoicesProofs KinChoicesExample KinChoicesAgain.
Import ListNotations.
Local Open Scope R_scope.

(** Images: other base and target frames, another order, or pictures enlarged by [m] and shifted by [d] with the expected offsets
    divided by [m]: the best result is the same calibration in the new frames. *)
Theorem C115_images_partial :
  forall h m d p p' e,
  kin_sensible h -> kin_unit h = 1 -> kin_camera h = iso_id -> m <> 0 ->
  setup_anew h m (k2_common p) (k2_common p') -> images_anew h m d p p' ->
  best_estimate (k2_common p) (image_errors p) e -> best_estimate (k2_common p') (image_errors p') (estimate_anew h e).
Proof. exact KinChoicesProofs.best_images_anew. Qed.
Print Assumptions C115_images_partial.

(** The reported final cost of best results is then that of the first description times [m * m]. *)
Theorem C115_images_error_partial :
  forall h m d p p' u solve cov r u' solve' cov' r',
  kin_sensible h -> kin_unit h = 1 -> kin_camera h = iso_id -> m <> 0 ->
  setup_anew h m (k2_common p) (k2_common p') -> images_anew h m d p p' ->
  honest_kin solve -> keeps_frozen solve -> lists_blocks cov -> masks_fit (k2_common p) -> kin_optimize2D3D u solve cov p = Ok r ->
  honest_kin solve' -> keeps_frozen solve' -> lists_blocks cov' -> masks_fit (k2_common p') -> kin_optimize2D3D u' solve' cov' p' = Ok r' ->
  best_estimate (k2_common p) (image_errors p) (result_estimate r) -> best_estimate (k2_common p') (image_errors p') (result_estimate r') ->
  kr_final_cost_per_obs r' = m * m * kr_final_cost_per_obs r.
Proof. exact KinChoicesProofs.images_reported. Qed.
Print Assumptions C115_images_error_partial.

(** Two wrists and a turning target, three views; the second time with other frames, in another order and in pictures twice as large. *)
Example C115_images_example :
  exists h m d p p' u solve cov r u' solve' cov' r',
  kin_sensible h /\ kin_unit h = 1 /\ kin_camera h = iso_id /\ m <> 0 /\ m <> 1 /\
  setup_anew h m (k2_common p) (k2_common p') /\ images_anew h m d p p' /\
  (forall k i, ~ masked (k2_common p) k i) /\ (2 <= List.length (k2_observations p))%nat /\
  honest_kin solve /\ keeps_frozen solve /\ lists_blocks cov /\ masks_fit (k2_common p) /\ kin_optimize2D3D u solve cov p = Ok r /\
  honest_kin solve' /\ keeps_frozen solve' /\ lists_blocks cov' /\ masks_fit (k2_common p') /\ kin_optimize2D3D u' solve' cov' p' = Ok r' /\
  best_estimate (k2_common p) (image_errors p) (result_estimate r) /\ best_estimate (k2_common p') (image_errors p') (result_estimate r').
Proof. exact KinChoicesAgain.ex_images_again. Qed.

(** Another unit of length: the same among the results that keep the targets in front of the camera, if the expected offsets fit the
    unit ([setup_anew]): no prior acts on both lengths and angles, and the deviation is in the unit of what it acts on. *)
Theorem C115_images_unit_partial :
  forall h m d c p p' e,
  kin_sensible h -> kin_camera h = iso_id -> m <> 0 ->
  1 / 10 ^ 10 <= c -> 1 / 10 ^ 10 <= kin_unit h * c ->
  setup_anew h m (k2_common p) (k2_common p') -> images_anew h m d p p' ->
  best_within (in_sight c p) (k2_common p) (image_errors p) e ->
  best_within (in_sight (kin_unit h * c) p') (k2_common p') (image_errors p') (estimate_anew h e).
Proof. exact KinChoicesProofs.best_sight_anew. Qed.
Print Assumptions C115_images_unit_partial.

(** And the reported cost. *)
Theorem C115_images_unit_error_partial :
  forall h m d c p p' u solve cov r u' solve' cov' r',
  kin_sensible h -> kin_camera h = iso_id -> m <> 0 -> 1 / 10 ^ 10 <= c -> 1 / 10 ^ 10 <= kin_unit h * c ->
  setup_anew h m (k2_common p) (k2_common p') -> images_anew h m d p p' ->
  honest_kin solve -> keeps_frozen solve -> lists_blocks cov -> masks_fit (k2_common p) -> kin_optimize2D3D u solve cov p = Ok r ->
  honest_kin solve' -> keeps_frozen solve' -> lists_blocks cov' -> masks_fit (k2_common p') -> kin_optimize2D3D u' solve' cov' p' = Ok r' ->
  best_within (in_sight c p) (k2_common p) (image_errors p) (result_estimate r) ->
  best_within (in_sight (kin_unit h * c) p') (k2_common p') (image_errors p') (result_estimate r') ->
  kr_final_cost_per_obs r' = m * m * kr_final_cost_per_obs r.
Proof. exact KinChoicesProofs.sight_reported. Qed.
Print Assumptions C115_images_unit_error_partial.

(** The views in another unit, with the chains held. *)
Example C115_images_unit_example :
  exists h m d c p p' u solve cov r,
  kin_sensible h /\ kin_unit h <> 1 /\ kin_camera h = iso_id /\ m <> 0 /\ 1 / 10 ^ 10 <= c /\ 1 / 10 ^ 10 <= kin_unit h * c /\
  setup_anew h m (k2_common p) (k2_common p') /\ images_anew h m d p p' /\ mounts_free (k2_common p) /\ (2 <= List.length (k2_observations p))%nat /\
  honest_kin solve /\ keeps_frozen solve /\ lists_blocks cov /\ masks_fit (k2_common p) /\ kin_optimize2D3D u solve cov p = Ok r /\
  best_within (in_sight c p) (k2_common p) (image_errors p) (result_estimate r).
Proof. exact KinChoicesAgain.ex_sight_again. Qed.

(** Measured poses: other base and target frames, another direction of the camera frame, another order, another unit (with the weight of
    turns and the expected offsets in that unit): the best result is the same calibration. *)
Theorem C115_poses_partial :
  forall h p p' w w' e,
  kin_sensible h -> tr (kin_camera h) = vzero -> w' = kin_unit h * w ->
  setup_anew h (kin_unit h) (k6_common p) (k6_common p') -> poses_anew h p p' ->
  best_estimate (k6_common p) (pose_errors w p) e -> best_estimate (k6_common p') (pose_errors w' p') (estimate_anew h e).
Proof. exact KinChoicesProofs.best_poses_anew. Qed.
Print Assumptions C115_poses_partial.

(** The reported final cost is that of the first description times the square of the unit. *)
Theorem C115_poses_error_partial :
  forall h p p' w w' u solve cov r u' solve' cov' r',
  kin_sensible h -> tr (kin_camera h) = vzero -> w' = kin_unit h * w ->
  setup_anew h (kin_unit h) (k6_common p) (k6_common p') -> poses_anew h p p' ->
  honest_kin solve -> keeps_frozen solve -> lists_blocks cov -> masks_fit (k6_common p) -> kin_optimizePose6D u solve cov p w = Ok r ->
  honest_kin solve' -> keeps_frozen solve' -> lists_blocks cov' -> masks_fit (k6_common p') -> kin_optimizePose6D u' solve' cov' p' w' = Ok r' ->
  best_estimate (k6_common p) (pose_errors w p) (result_estimate r) -> best_estimate (k6_common p') (pose_errors w' p') (result_estimate r') ->
  kr_final_cost_per_obs r' = kin_unit h * kin_unit h * kr_final_cost_per_obs r.
Proof. exact KinChoicesProofs.poses_reported. Qed.
Print Assumptions C115_poses_error_partial.

(** The views as measured poses, in another unit and with a camera frame turned by a quarter. *)
Example C115_poses_example :
  exists h p p' w w' u solve cov r u' solve' cov' r',
  kin_sensible h /\ kin_unit h <> 1 /\ tr (kin_camera h) = vzero /\ lin (kin_camera h) <> I3 /\ w <> 0 /\ w' = kin_unit h * w /\
  setup_anew h (kin_unit h) (k6_common p) (k6_common p') /\ poses_anew h p p' /\ mounts_free (k6_common p) /\ (2 <= List.length (k6_observations p))%nat /\
  honest_kin solve /\ keeps_frozen solve /\ lists_blocks cov /\ masks_fit (k6_common p) /\ kin_optimizePose6D u solve cov p w = Ok r /\
  honest_kin solve' /\ keeps_frozen solve' /\ lists_blocks cov' /\ masks_fit (k6_common p') /\ kin_optimizePose6D u' solve' cov' p' w' = Ok r' /\
  best_estimate (k6_common p) (pose_errors w p) (result_estimate r) /\ best_estimate (k6_common p') (pose_errors w' p') (result_estimate r').
Proof. exact KinChoicesAgain.ex_poses_again. Qed.

(** With the same expected offsets, larger pictures change the best result. *)
Theorem C115_resized_refuted :
  exists (h : kin_choices) (m : R) (d : vec2) (p p' : kin_problem2D3D) (e : kin_estimate),
  kin_sensible h /\ kin_unit h = 1 /\ kin_camera h = iso_id /\ 0 < m /\
  k2_common p' = k2_common p /\ frames_anew h (k2_common p) (k2_common p') /\ images_anew h m d p p' /\
  best_estimate (k2_common p) (image_errors p) e /\ ~ best_estimate (k2_common p') (image_errors p') (estimate_anew h e).
Proof. exact KinChoicesExample.resized_refuted. Qed.
Print Assumptions C115_resized_refuted.

(** In another unit of length, no choice of the deviation that is expected of the offsets keeps the best result in every problem: the same
    number is the deviation of lengths and of angles. *)
Theorem C115_unit_refuted :
  forall sd', 0 < sd' -> exists (h : kin_choices) (p p' : kin_problem2D3D) (e : kin_estimate),
  kin_sensible h /\ kin_unit h = 2 /\ old_camera_base h = iso_id /\ old_target_base h = iso_id /\ kin_camera h = iso_id /\ kin_target h = iso_id /\
  kc_camera_chain_offset_stdev (k2_common p) = 1 /\ kc_target_chain_offset_stdev (k2_common p) = 1 /\
  kc_camera_chain_offset_stdev (k2_common p') = sd' /\ kc_target_chain_offset_stdev (k2_common p') = sd' /\
  frames_anew h (k2_common p) (k2_common p') /\ images_anew h 1 (V2 0 0) p p' /\
  best_estimate (k2_common p) (image_errors p) e /\ ~ best_estimate (k2_common p') (image_errors p') (estimate_anew h e).
Proof. exact KinChoicesExample.unit_refuted. Qed.
Print Assumptions C115_unit_refuted.

(** Measured poses: another origin of the camera frame changes the best result, with every weight. *)
Theorem C115_camera_origin_refuted :
  exists (h : kin_choices) (p p' : kin_problemPose6D) (e : kin_estimate),
  kin_sensible h /\ kin_unit h = 1 /\ old_camera_base h = iso_id /\ old_target_base h = iso_id /\ kin_target h = iso_id /\
  lin (kin_camera h) = I3 /\
  setup_anew h 1 (k6_common p) (k6_common p') /\ poses_anew h p p' /\
  forall w, best_estimate (k6_common p) (pose_errors w p) e /\ ~ best_estimate (k6_common p') (pose_errors w p') (estimate_anew h e).
Proof. exact KinChoicesExample.camera_origin_refuted. Qed.
Print Assumptions C115_camera_origin_refuted.
