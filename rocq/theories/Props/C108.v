(** C108: calibrations with several cameras and intrinsic calibrations do not depend on how the data are written down.
    The choices of the second description are collected in [rig_choices] (Spec/RigChoicesSpec.v): the unit of length, the
    frames of the base, of the wrist and of the target, the size and origin of the pictures, the order of the cameras and
    of the images. [best_of] says that a result fits at least as well as any other choice of the quantities to be adjusted. *)
From Coq Require Import Reals List Arith.
From Verif.Base Require Import Geom Outcome.
From Verif.Model Require Import Pose Covariance Solver HandEye Pnp BlockSolver MultiCamera Intrinsic.
From Verif.Spec Require Import CovarianceSpec Frames PinHole OracleSpec PnpSpec MultiSpec UniqueSpec SameDataSpec ToolsAgreeSpec RigChoicesSpec LensChoicesSpec.
From Verif.Proofs Require Import IntrinsicProofs IntrinsicUniqueExample HandEyeProofs CovarianceProofs RigChoicesProofs RigChoicesExample LensChoicesProofs LensChoicesExample.
Import ListNotations.
Local Open Scope R_scope.

(** Cameras at rest that see a target on the wrist: the reported error of the second description is that of the first,
    in the new pixels, and the poses found with the first, written in the second, are a best solution there. *)
Theorem C108_static_cameras :
  forall u solve cov p r u' solve' cov' p' r' h,
  honest_blocks solve -> honest_blocks solve' ->
  optimizeStatic u solve cov p = Ok r -> optimizeStatic u' solve' cov' p' = Ok r' ->
  static_sizes p -> plain_wrists p -> static_sizes p' -> plain_wrists p' ->
  (forall T, In T (sr_base_to_camera r) -> rigid T) -> rigid (sr_wrist_to_target r) ->
  (forall T, In T (sr_base_to_camera r') -> rigid T) ->
  sensible_rig h -> same_static h p p' ->
  best_of (cameras_and_wrist (List.length (sp_base_to_camera_guess p)) (static_wrist p)) (camera_of (sp_intr p))
          (static_views p) (static_poses p r) ->
  best_of (cameras_and_wrist (List.length (sp_base_to_camera_guess p')) (static_wrist p')) (camera_of (sp_intr p'))
          (static_views p') (static_poses p' r') ->
  sr_final_cost_per_obs r' = rig_zoom h * rig_zoom h * sr_final_cost_per_obs r /\
  best_of (cameras_and_wrist (List.length (sp_base_to_camera_guess p')) (static_wrist p')) (camera_of (sp_intr p'))
          (static_views p') (static_anew h p' r).
Proof. exact static_choices. Qed.
Print Assumptions C108_static_cameras.

(** Two cameras and three images each, in the opposite order, with half the unit of length and other frames. *)
Example C108_static_cameras_case : exists u solve cov p r p' r' h,
  honest_blocks solve /\ optimizeStatic u solve cov p = Ok r /\ optimizeStatic u solve cov p' = Ok r' /\
  static_sizes p /\ plain_wrists p /\ static_sizes p' /\ plain_wrists p' /\
  (forall T, In T (sr_base_to_camera r) -> rigid T) /\ rigid (sr_wrist_to_target r) /\
  (forall T, In T (sr_base_to_camera r') -> rigid T) /\
  sensible_rig h /\ same_static h p p' /\ was_camera h 0 = 1%nat /\ was_image h 0 0 = 2%nat /\
  best_of (cameras_and_wrist (List.length (sp_base_to_camera_guess p)) (static_wrist p)) (camera_of (sp_intr p))
          (static_views p) (static_poses p r) /\
  best_of (cameras_and_wrist (List.length (sp_base_to_camera_guess p')) (static_wrist p')) (camera_of (sp_intr p'))
          (static_views p') (static_poses p' r').
Proof. exact rc_static. Qed.

(** Cameras moved as a whole. *)
Theorem C108_camera_rig :
  forall solve p r solve' p' r' h,
  honest_blocks solve -> honest_blocks solve' ->
  optimizeWrist solve p = Ok r -> optimizeWrist solve' p' = Ok r' ->
  wrist_sizes p -> (forall T, In T (wp_wrist_poses p) -> plain_pose T) -> (forall T, In T (wp_base_to_camera_guess p) -> plain_pose T) ->
  wrist_sizes p' -> (forall T, In T (wp_wrist_poses p') -> plain_pose T) -> (forall T, In T (wp_base_to_camera_guess p') -> plain_pose T) ->
  (forall T, In T (wr_base_to_camera r) -> rigid T) -> rigid (wr_wrist_to_target r) ->
  (forall T, In T (wr_base_to_camera r') -> rigid T) ->
  sensible_rig h -> same_wrist h p p' ->
  best_of (rig_and_wrist (List.length (wp_base_to_camera_guess p)) (fun c => nth c (wp_base_to_camera_guess p) iso_id)
             (fun i => nth i (wp_wrist_poses p) iso_id))
          (camera_of (wp_intr p)) (wrist_views p) (wrist_poses p r) ->
  best_of (rig_and_wrist (List.length (wp_base_to_camera_guess p')) (fun c => nth c (wp_base_to_camera_guess p') iso_id)
             (fun i => nth i (wp_wrist_poses p') iso_id))
          (camera_of (wp_intr p')) (wrist_views p') (wrist_poses p' r') ->
  wr_final_cost_per_obs r' = rig_zoom h * rig_zoom h * wr_final_cost_per_obs r /\
  best_of (rig_and_wrist (List.length (wp_base_to_camera_guess p')) (fun c => nth c (wp_base_to_camera_guess p') iso_id)
             (fun i => nth i (wp_wrist_poses p') iso_id))
          (camera_of (wp_intr p')) (wrist_views p') (wrist_anew h p' r).
Proof. exact wrist_choices. Qed.
Print Assumptions C108_camera_rig.

(** The same for cameras moved as a whole. *)
Example C108_camera_rig_case : exists solve p r p' r' h,
  honest_blocks solve /\ optimizeWrist solve p = Ok r /\ optimizeWrist solve p' = Ok r' /\
  wrist_sizes p /\ (forall T, In T (wp_wrist_poses p) -> plain_pose T) /\ (forall T, In T (wp_base_to_camera_guess p) -> plain_pose T) /\
  wrist_sizes p' /\ (forall T, In T (wp_wrist_poses p') -> plain_pose T) /\ (forall T, In T (wp_base_to_camera_guess p') -> plain_pose T) /\
  (forall T, In T (wr_base_to_camera r) -> rigid T) /\ rigid (wr_wrist_to_target r) /\
  (forall T, In T (wr_base_to_camera r') -> rigid T) /\
  sensible_rig h /\ same_wrist h p p' /\ was_camera h 0 = 1%nat /\ was_image h 0 0 = 2%nat /\
  best_of (rig_and_wrist (List.length (wp_base_to_camera_guess p)) (fun c => nth c (wp_base_to_camera_guess p) iso_id)
             (fun i => nth i (wp_wrist_poses p) iso_id))
          (camera_of (wp_intr p)) (wrist_views p) (wrist_poses p r) /\
  best_of (rig_and_wrist (List.length (wp_base_to_camera_guess p')) (fun c => nth c (wp_base_to_camera_guess p') iso_id)
             (fun i => nth i (wp_wrist_poses p') iso_id))
          (camera_of (wp_intr p')) (wrist_views p') (wrist_poses p' r').
Proof. exact rc_wrist. Qed.

(** Cameras and a target moved by hand. The first camera may be held still in either description. *)
Theorem C108_cameras_and_targets :
  forall solve p r solve' p' r' h,
  honest_blocks solve -> leaves_others solve -> honest_blocks solve' -> leaves_others solve' ->
  optimizeOnly solve p = Ok r -> optimizeOnly solve' p' = Ok r' ->
  only_sizes p -> only_sizes p' ->
  (op_fix_first_camera p = true -> forall T, nth_error (op_base_to_camera_guess p) 0 = Some T -> plain_pose T) ->
  (op_fix_first_camera p' = true -> forall T, nth_error (op_base_to_camera_guess p') 0 = Some T -> plain_pose T) ->
  (forall T, In T (or_base_to_camera r) -> rigid T) -> (forall T, In T (or_base_to_target r) -> rigid T) ->
  (forall T, In T (or_base_to_camera r') -> rigid T) ->
  sensible_rig h -> same_only h p p' ->
  best_of (cameras_and_targets (List.length (op_base_to_camera_guess p))) (camera_of (op_intr p)) (only_views p) (only_poses r) ->
  best_of (cameras_and_targets (List.length (op_base_to_camera_guess p'))) (camera_of (op_intr p')) (only_views p') (only_poses r') ->
  or_final_cost_per_obs r' = rig_zoom h * rig_zoom h * or_final_cost_per_obs r /\
  best_of (cameras_and_targets (List.length (op_base_to_camera_guess p'))) (camera_of (op_intr p')) (only_views p') (only_anew h r).
Proof. exact only_choices. Qed.
Print Assumptions C108_cameras_and_targets.

(** The same with the first camera held still. *)
Example C108_cameras_and_targets_case : exists solve p r p' r' h,
  honest_blocks solve /\ leaves_others solve /\ optimizeOnly solve p = Ok r /\ optimizeOnly solve p' = Ok r' /\
  only_sizes p /\ only_sizes p' /\ op_fix_first_camera p = true /\ op_fix_first_camera p' = true /\
  (forall T, nth_error (op_base_to_camera_guess p) 0 = Some T -> plain_pose T) /\
  (forall T, nth_error (op_base_to_camera_guess p') 0 = Some T -> plain_pose T) /\
  (forall T, In T (or_base_to_camera r) -> rigid T) /\ (forall T, In T (or_base_to_target r) -> rigid T) /\
  (forall T, In T (or_base_to_camera r') -> rigid T) /\
  sensible_rig h /\ same_only h p p' /\ was_camera h 0 = 1%nat /\ was_image h 0 0 = 2%nat /\
  best_of (cameras_and_targets (List.length (op_base_to_camera_guess p))) (camera_of (op_intr p)) (only_views p) (only_poses r) /\
  best_of (cameras_and_targets (List.length (op_base_to_camera_guess p'))) (camera_of (op_intr p')) (only_views p') (only_poses r').
Proof. exact rc_only. Qed.

(** A target at rest seen by known cameras. *)
Theorem C108_target_seen_by_cameras :
  forall solve p r solve' p' r' h,
  honest_blocks solve -> honest_blocks solve' -> optimizeMpnp solve p = Ok r -> optimizeMpnp solve' p' = Ok r' ->
  mpnp_sizes p -> (forall T, In T (mp_base_to_camera p) -> plain_pose T) ->
  mpnp_sizes p' -> (forall T, In T (mp_base_to_camera p') -> plain_pose T) ->
  rigid (mr_base_to_target r) ->
  sensible_rig h -> same_mpnp h p p' ->
  best_of (known_cameras (List.length (mp_base_to_camera p)) (fun c => nth c (mp_base_to_camera p) iso_id)) (camera_of (mp_intr p))
          (single_views p) (mpnp_poses p r) ->
  best_of (known_cameras (List.length (mp_base_to_camera p')) (fun c => nth c (mp_base_to_camera p') iso_id)) (camera_of (mp_intr p'))
          (single_views p') (mpnp_poses p' r') ->
  mr_final_cost_per_obs r' = rig_zoom h * rig_zoom h * mr_final_cost_per_obs r /\
  best_of (known_cameras (List.length (mp_base_to_camera p')) (fun c => nth c (mp_base_to_camera p') iso_id)) (camera_of (mp_intr p'))
          (single_views p') (mpnp_anew h p' r).
Proof. exact mpnp_choices. Qed.
Print Assumptions C108_target_seen_by_cameras.

(** The same for one picture per camera. *)
Example C108_target_seen_by_cameras_case : exists solve p r p' r' h,
  honest_blocks solve /\ optimizeMpnp solve p = Ok r /\ optimizeMpnp solve p' = Ok r' /\
  mpnp_sizes p /\ (forall T, In T (mp_base_to_camera p) -> plain_pose T) /\
  mpnp_sizes p' /\ (forall T, In T (mp_base_to_camera p') -> plain_pose T) /\
  rigid (mr_base_to_target r) /\
  sensible_rig h /\ same_mpnp h p p' /\ was_camera h 0 = 1%nat /\
  best_of (known_cameras (List.length (mp_base_to_camera p)) (fun c => nth c (mp_base_to_camera p) iso_id)) (camera_of (mp_intr p))
          (single_views p) (mpnp_poses p r) /\
  best_of (known_cameras (List.length (mp_base_to_camera p')) (fun c => nth c (mp_base_to_camera p') iso_id)) (camera_of (mp_intr p'))
          (single_views p') (mpnp_poses p' r').
Proof. exact rc_mpnp. Qed.

(** Intrinsic calibration. Here every picture may even have its own unit of length and its own frame of the target.
    [ends_at_best] says that the optimization ends at a best fit (Spec/LensChoicesSpec.v). The error is the same in the
    new pixels; the camera found with the first description, resized, is a best camera of the second; and the coefficients
    of the lens are the same. *)
Theorem C108_intrinsic_calibration :
  forall u psolve pcov solve cov p r u' psolve' pcov' solve' cov' p' r' h,
  honest_blocks solve -> (forall blocks start, ends_at_best p (fst (solve blocks start))) ->
  honest_blocks solve' -> (forall blocks start, ends_at_best p' (fst (solve' blocks start))) ->
  optimizeIntrinsic u psolve pcov solve cov p = Ok r -> optimizeIntrinsic u' psolve' pcov' solve' cov' p' = Ok r' ->
  sensible_pictures h -> same_pictures h p p' ->
  ir_final_cost_per_obs r' = pic_zoom h * pic_zoom h * ir_final_cost_per_obs r /\
  exists T', best_lens p' (resized_camera (pic_zoom h) (pic_shift h) (ir_intrinsics r)) (lens_with (ir_distortions r)) T'.
Proof. exact lens_choices. Qed.
Print Assumptions C108_intrinsic_calibration.

(** Two tilted squares in the opposite order, each with its points reversed, with half the unit of length, pictures of half
    the size and another origin on the target. *)
Example C108_intrinsic_calibration_case : forall u, exists r r',
  honest_blocks sc_finds /\ (forall blocks start, ends_at_best sc_views (fst (sc_finds blocks start))) /\
  honest_blocks lc_finds /\ (forall blocks start, ends_at_best lc_views (fst (lc_finds blocks start))) /\
  optimizeIntrinsic u ex_solves (fun _ => ex_cov_oracle) sc_finds ex_cov_oracle sc_views = Ok r /\
  optimizeIntrinsic u ex_solves (fun _ => ex_cov_oracle) lc_finds ex_cov_oracle lc_views = Ok r' /\
  sensible_pictures lc_choices /\ same_pictures lc_choices sc_views lc_views /\ pic_was lc_choices 0 = 1%nat.
Proof. exact lc_example. Qed.
