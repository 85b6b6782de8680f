(** C85: with perfect data, when a kinematic calibration without error is the true one.
    Spec/KinUniqueSpec.v has the vocabulary: [as_designed cam tgt C T B] are chains without offsets with mounts C and T and
    base-to-base transform B; [target_moves] and [camera_moves] say that one chain turned about two axes while the other stood. *)
From Coq Require Import Reals List.
From Verif.Base Require Import Geom Outcome Matrix.
From Verif.Model Require Import Pose Covariance Solver HandEye DhChain LocalParam Kinematic.
From Verif.Spec Require Import PinHole FreezeSpec KinSpec KinReport OracleSpec KinExampleSpec UniqueSpec RedundancySpec KinUniqueSpec.
From Verif.Proofs Require Import UniqueKinematic UniqueKinematicExample.
Import ListNotations.
Local Open Scope R_scope.

(** Measured poses, both chains moved *)
Theorem C85_poses :
  forall u solve cov params w r C0 T0 B0,
  let com := k6_common params in let cam := kc_camera_chain com in let tgt := kc_target_chain com in
  let joints := map measured_at (k6_observations params) in
  honest_kin solve -> keeps_frozen solve -> lists_blocks cov -> masks_fit com ->
  rigid (base_offset cam) -> rigid (base_offset tgt) -> rigid C0 -> rigid T0 -> rigid B0 ->
  kc_camera_chain_offset_stdev com <> 0 -> kc_target_chain_offset_stdev com <> 0 -> w <> 0 ->
  kin_optimizePose6D u solve cov params w = Ok r ->
  (forall o, In o (k6_observations params) -> predicts cam tgt (as_designed cam tgt C0 T0 B0) o (km_camera_to_target o)) ->
  target_moves cam tgt joints -> camera_moves cam tgt joints ->
  (kr_final_cost_per_obs r = 0 <-> same_estimate (result_estimate r) (as_designed cam tgt C0 T0 B0)).
Proof. exact kin_pose_unique. Qed.
Print Assumptions C85_poses.

(** Measured poses, the camera stood still: the camera mount and the base-to-base transform are known together only. *)
Theorem C85_poses_camera_fixed :
  forall u solve cov params w r C0 T0 B0,
  let com := k6_common params in let cam := kc_camera_chain com in let tgt := kc_target_chain com in
  let joints := map measured_at (k6_observations params) in
  honest_kin solve -> keeps_frozen solve -> lists_blocks cov -> masks_fit com ->
  rigid (base_offset cam) -> rigid (base_offset tgt) -> rigid C0 -> rigid T0 -> rigid B0 ->
  kc_camera_chain_offset_stdev com <> 0 -> kc_target_chain_offset_stdev com <> 0 -> w <> 0 ->
  kin_optimizePose6D u solve cov params w = Ok r ->
  (forall o, In o (k6_observations params) -> predicts cam tgt (as_designed cam tgt C0 T0 B0) o (km_camera_to_target o)) ->
  forall Fc, target_moves cam tgt joints -> camera_stays cam tgt joints Fc ->
  (kr_final_cost_per_obs r = 0 <->
   plain_result com r /\ kr_target_mount_to_target r = T0 /\
   base_in_camera Fc (result_estimate r) = base_in_camera Fc (as_designed cam tgt C0 T0 B0)).
Proof. exact kin_pose_fixed. Qed.
Print Assumptions C85_poses_camera_fixed.

(** Images, both chains moved. The motions count for images from which the pose of the target can be told. *)
Theorem C85_images :
  forall u solve cov params r C0 T0 B0,
  let com := k2_common params in let cam := kc_camera_chain com in let tgt := kc_target_chain com in
  honest_kin solve -> keeps_frozen solve -> lists_blocks cov -> masks_fit com ->
  rigid (base_offset cam) -> rigid (base_offset tgt) -> rigid C0 -> rigid T0 -> rigid B0 ->
  kc_camera_chain_offset_stdev com <> 0 -> kc_target_chain_offset_stdev com <> 0 ->
  kin_optimize2D3D u solve cov params = Ok r ->
  (forall o, In o (k2_observations params) ->
     exists P, places cam tgt (as_designed cam tgt C0 T0 B0) (observed_at o) P /\
       perfect_image (k2_intr params) P (ko_correspondence_set o)) ->
  (forall o P, In o (k2_observations params) -> places cam tgt (result_estimate r) (observed_at o) P ->
     all_in_front P (ko_correspondence_set o)) ->
  forall chosen, incl chosen (k2_observations params) ->
  (forall o P, In o chosen -> places cam tgt (as_designed cam tgt C0 T0 B0) (observed_at o) P ->
     usable (k2_intr params) P (ko_correspondence_set o)) ->
  target_moves cam tgt (map observed_at chosen) -> camera_moves cam tgt (map observed_at chosen) ->
  (kr_final_cost_per_obs r = 0 <-> same_estimate (result_estimate r) (as_designed cam tgt C0 T0 B0)).
Proof. exact kin_image_unique. Qed.
Print Assumptions C85_images.

Theorem C85_images_camera_fixed :
  forall u solve cov params r C0 T0 B0,
  let com := k2_common params in let cam := kc_camera_chain com in let tgt := kc_target_chain com in
  honest_kin solve -> keeps_frozen solve -> lists_blocks cov -> masks_fit com ->
  rigid (base_offset cam) -> rigid (base_offset tgt) -> rigid C0 -> rigid T0 -> rigid B0 ->
  kc_camera_chain_offset_stdev com <> 0 -> kc_target_chain_offset_stdev com <> 0 ->
  kin_optimize2D3D u solve cov params = Ok r ->
  (forall o, In o (k2_observations params) ->
     exists P, places cam tgt (as_designed cam tgt C0 T0 B0) (observed_at o) P /\
       perfect_image (k2_intr params) P (ko_correspondence_set o)) ->
  (forall o P, In o (k2_observations params) -> places cam tgt (result_estimate r) (observed_at o) P ->
     all_in_front P (ko_correspondence_set o)) ->
  forall chosen, incl chosen (k2_observations params) ->
  (forall o P, In o chosen -> places cam tgt (as_designed cam tgt C0 T0 B0) (observed_at o) P ->
     usable (k2_intr params) P (ko_correspondence_set o)) ->
  forall Fc, target_moves cam tgt (map observed_at chosen) ->
  camera_stays cam tgt (map observed_at (k2_observations params)) Fc ->
  (kr_final_cost_per_obs r = 0 <->
   plain_result com r /\ kr_target_mount_to_target r = T0 /\
   base_in_camera Fc (result_estimate r) = base_in_camera Fc (as_designed cam tgt C0 T0 B0)).
Proof. exact kin_image_fixed. Qed.
Print Assumptions C85_images_camera_fixed.

(** Two wrists of two joints; every parameter is free. *)
Example C85_applies_poses :
  exists u solve cov params w r C0 T0 B0,
  let com := k6_common params in let cam := kc_camera_chain com in let tgt := kc_target_chain com in
  honest_kin solve /\ keeps_frozen solve /\ lists_blocks cov /\ masks_fit com /\
  rigid (base_offset cam) /\ rigid (base_offset tgt) /\ rigid C0 /\ rigid T0 /\ rigid B0 /\
  kc_camera_chain_offset_stdev com <> 0 /\ kc_target_chain_offset_stdev com <> 0 /\ w <> 0 /\
  kin_optimizePose6D u solve cov params w = Ok r /\
  (forall o, In o (k6_observations params) -> predicts cam tgt (as_designed cam tgt C0 T0 B0) o (km_camera_to_target o)) /\
  target_moves cam tgt (map measured_at (k6_observations params)) /\
  camera_moves cam tgt (map measured_at (k6_observations params)) /\
  kr_final_cost_per_obs r = 0.
Proof. exact ex_kin_pose_unique. Qed.
Example C85_applies_images :
  exists u solve cov params r C0 T0 B0 chosen Fc,
  let com := k2_common params in let cam := kc_camera_chain com in let tgt := kc_target_chain com in
  honest_kin solve /\ keeps_frozen solve /\ lists_blocks cov /\ masks_fit com /\
  rigid (base_offset cam) /\ rigid (base_offset tgt) /\ rigid C0 /\ rigid T0 /\ rigid B0 /\
  kc_camera_chain_offset_stdev com <> 0 /\ kc_target_chain_offset_stdev com <> 0 /\
  kin_optimize2D3D u solve cov params = Ok r /\
  (forall o, In o (k2_observations params) ->
     exists P, places cam tgt (as_designed cam tgt C0 T0 B0) (observed_at o) P /\ perfect_image (k2_intr params) P (ko_correspondence_set o)) /\
  (forall o P, In o (k2_observations params) -> places cam tgt (result_estimate r) (observed_at o) P ->
     all_in_front P (ko_correspondence_set o)) /\
  incl chosen (k2_observations params) /\
  (forall o P, In o chosen -> places cam tgt (as_designed cam tgt C0 T0 B0) (observed_at o) P ->
     usable (k2_intr params) P (ko_correspondence_set o)) /\
  target_moves cam tgt (map observed_at chosen) /\
  camera_stays cam tgt (map observed_at (k2_observations params)) Fc /\
  kr_final_cost_per_obs r = 0.
Proof. exact ex_kin_image_unique. Qed.
Example C85_applies_images_both :
  exists u solve cov params r C0 T0 B0 chosen,
  let com := k2_common params in let cam := kc_camera_chain com in let tgt := kc_target_chain com in
  honest_kin solve /\ keeps_frozen solve /\ lists_blocks cov /\ masks_fit com /\
  rigid (base_offset cam) /\ rigid (base_offset tgt) /\ rigid C0 /\ rigid T0 /\ rigid B0 /\
  kc_camera_chain_offset_stdev com <> 0 /\ kc_target_chain_offset_stdev com <> 0 /\
  kin_optimize2D3D u solve cov params = Ok r /\
  (forall o, In o (k2_observations params) ->
     exists P, places cam tgt (as_designed cam tgt C0 T0 B0) (observed_at o) P /\ perfect_image (k2_intr params) P (ko_correspondence_set o)) /\
  (forall o P, In o (k2_observations params) -> places cam tgt (result_estimate r) (observed_at o) P ->
     all_in_front P (ko_correspondence_set o)) /\
  incl chosen (k2_observations params) /\
  (forall o P, In o chosen -> places cam tgt (as_designed cam tgt C0 T0 B0) (observed_at o) P ->
     usable (k2_intr params) P (ko_correspondence_set o)) /\
  target_moves cam tgt (map observed_at chosen) /\
  camera_moves cam tgt (map observed_at chosen) /\
  kr_final_cost_per_obs r = 0.
Proof. exact ex_kin_image_moves. Qed.
