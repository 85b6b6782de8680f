(** C120: the data of two sessions calibrated together. [pooled], [pooled_static], ...: all the data of both sessions; [total_error d n f]:
    the reported error times the number of observations, [n] measurements with [d] numbers each (Spec/PooledSpec.v);
    [calibrated], [estimated], [static_best], ...: results for the data that no calibration betters (Spec/ToolsAgreeSpec.v, Spec/PooledSpec.v). *)
From Coq Require Import Reals List.
From Verif.Base Require Import Geom Outcome.
From Verif.Model Require Import Pose Solver HandEye Pnp BlockSolver MultiCamera.
From Verif.Spec Require Import Frames PinHole PnpSpec UniqueSpec MultiSpec SameDataSpec ToolsAgreeSpec PooledSpec.
From Verif.Proofs Require PooledProofs PooledExamples.
Import ListNotations.
Local Open Scope R_scope.

(** Hand-eye calibration from pictures: together at least the sum of the errors of the sessions; exactly that if both sessions gave the same calibration, which is then best for all the data. *)
Theorem C120_images :
  forall k os os1 os2 r r1 r2,
  plain_obs os -> plain_obs os1 -> plain_obs os2 ->
  calibrated k os r -> calibrated k os1 r1 -> calibrated k os2 r2 -> pooled (sightings os) (sightings os1) (sightings os2) ->
  total_error 2 (List.length (sightings os1)) (he_final_cost_per_obs r1) + total_error 2 (List.length (sightings os2)) (he_final_cost_per_obs r2) <=
    total_error 2 (List.length (sightings os)) (he_final_cost_per_obs r) /\
  (he_camera_mount_to_camera r1 = he_camera_mount_to_camera r2 -> he_target_mount_to_target r1 = he_target_mount_to_target r2 ->
   best_for_images k (sightings os) (he_camera_mount_to_camera r1) (he_target_mount_to_target r1) /\
   total_error 2 (List.length (sightings os)) (he_final_cost_per_obs r) =
     total_error 2 (List.length (sightings os1)) (he_final_cost_per_obs r1) + total_error 2 (List.length (sightings os2)) (he_final_cost_per_obs r2)).
Proof. exact PooledProofs.pool_images. Qed.
Print Assumptions C120_images.

(** Two sessions with different data, and the same result from both. *)
Example C120_images_example :
  exists k os os1 os2 r r1 r2, plain_obs os /\ plain_obs os1 /\ plain_obs os2 /\
  calibrated k os r /\ calibrated k os1 r1 /\ calibrated k os2 r2 /\ pooled (sightings os) (sightings os1) (sightings os2) /\
  he_camera_mount_to_camera r1 = he_camera_mount_to_camera r2 /\ he_target_mount_to_target r1 = he_target_mount_to_target r2 /\
  List.length (sightings os1) = 8%nat /\ List.length (sightings os2) = 4%nat.
Proof. exact PooledExamples.ex_pool_images. Qed.

(** Every measurement listed twice: the same error per observation, and the result of the data listed once is best, and the other way round. *)
Theorem C120_images_twice :
  forall k os os1 r r1,
  plain_obs os -> plain_obs os1 -> calibrated k os r -> calibrated k os1 r1 -> sightings os1 <> [] ->
  pooled (sightings os) (sightings os1) (sightings os1) ->
  he_final_cost_per_obs r = he_final_cost_per_obs r1 /\ best_for_images k (sightings os) (he_camera_mount_to_camera r1) (he_target_mount_to_target r1) /\
  best_for_images k (sightings os1) (he_camera_mount_to_camera r) (he_target_mount_to_target r).
Proof. exact PooledProofs.twice_images. Qed.
Print Assumptions C120_images_twice.

(** A session listed twice. *)
Example C120_images_twice_example :
  exists k os os1 r r1, plain_obs os /\ plain_obs os1 /\ calibrated k os r /\ calibrated k os1 r1 /\
  sightings os1 <> [] /\ pooled (sightings os) (sightings os1) (sightings os1).
Proof. exact PooledExamples.ex_twice_images. Qed.

(** Hand-eye calibration from points in space: together at least the sum of the errors of the sessions; exactly that if both sessions gave the same calibration, which is then best for all the data. *)
Theorem C120_points :
  forall os os1 os2 r r1 r2,
  plain_obs os -> plain_obs os1 -> plain_obs os2 ->
  calibrated3 os r -> calibrated3 os1 r1 -> calibrated3 os2 r2 -> pooled (sightings os) (sightings os1) (sightings os2) ->
  total_error 3 (List.length (sightings os1)) (he_final_cost_per_obs r1) + total_error 3 (List.length (sightings os2)) (he_final_cost_per_obs r2) <=
    total_error 3 (List.length (sightings os)) (he_final_cost_per_obs r) /\
  (he_camera_mount_to_camera r1 = he_camera_mount_to_camera r2 -> he_target_mount_to_target r1 = he_target_mount_to_target r2 ->
   best_in_space (sightings os) (he_camera_mount_to_camera r1) (he_target_mount_to_target r1) /\
   total_error 3 (List.length (sightings os)) (he_final_cost_per_obs r) =
     total_error 3 (List.length (sightings os1)) (he_final_cost_per_obs r1) + total_error 3 (List.length (sightings os2)) (he_final_cost_per_obs r2)).
Proof. exact PooledProofs.pool_points. Qed.
Print Assumptions C120_points.

(** Two sessions with different data, and the same result from both. *)
Example C120_points_example :
  exists os os1 os2 r r1 r2, plain_obs os /\ plain_obs os1 /\ plain_obs os2 /\
  calibrated3 os r /\ calibrated3 os1 r1 /\ calibrated3 os2 r2 /\ pooled (sightings os) (sightings os1) (sightings os2) /\
  he_camera_mount_to_camera r1 = he_camera_mount_to_camera r2 /\ he_target_mount_to_target r1 = he_target_mount_to_target r2 /\
  List.length (sightings os1) = 8%nat /\ List.length (sightings os2) = 4%nat.
Proof. exact PooledExamples.ex_pool_points. Qed.

(** Every measurement listed twice: the same error per observation, and the result of the data listed once is best, and the other way round. *)
Theorem C120_points_twice :
  forall os os1 r r1,
  plain_obs os -> plain_obs os1 -> calibrated3 os r -> calibrated3 os1 r1 -> sightings os1 <> [] ->
  pooled (sightings os) (sightings os1) (sightings os1) ->
  he_final_cost_per_obs r = he_final_cost_per_obs r1 /\ best_in_space (sightings os) (he_camera_mount_to_camera r1) (he_target_mount_to_target r1) /\
  best_in_space (sightings os1) (he_camera_mount_to_camera r) (he_target_mount_to_target r).
Proof. exact PooledProofs.twice_points. Qed.
Print Assumptions C120_points_twice.

(** A session listed twice. *)
Example C120_points_twice_example :
  exists os os1 r r1, plain_obs os /\ plain_obs os1 /\ calibrated3 os r /\ calibrated3 os1 r1 /\
  sightings os1 <> [] /\ pooled (sightings os) (sightings os1) (sightings os1).
Proof. exact PooledExamples.ex_twice_points. Qed.

(** Pose estimation from a picture: together at least the sum of the errors of the sessions; exactly that if both sessions gave the same pose, which is then best for all the data. *)
Theorem C120_picture :
  forall k cs cs1 cs2 r r1 r2,
  estimated k cs r -> estimated k cs1 r1 -> estimated k cs2 r2 -> pooled cs cs1 cs2 ->
  total_error 2 (List.length cs1) (pnp_final_cost_per_obs r1) + total_error 2 (List.length cs2) (pnp_final_cost_per_obs r2) <=
    total_error 2 (List.length cs) (pnp_final_cost_per_obs r) /\
  (pnp_camera_to_target r1 = pnp_camera_to_target r2 ->
   best_pose k cs (pnp_camera_to_target r1) /\
   total_error 2 (List.length cs) (pnp_final_cost_per_obs r) =
     total_error 2 (List.length cs1) (pnp_final_cost_per_obs r1) + total_error 2 (List.length cs2) (pnp_final_cost_per_obs r2)).
Proof. exact PooledProofs.pool_picture. Qed.
Print Assumptions C120_picture.

(** Two sessions with different data, and the same result from both. *)
Example C120_picture_example :
  exists k cs cs1 cs2 r r1 r2, estimated k cs r /\ estimated k cs1 r1 /\ estimated k cs2 r2 /\ pooled cs cs1 cs2 /\
  pnp_camera_to_target r1 = pnp_camera_to_target r2 /\ List.length cs1 = 3%nat /\ List.length cs2 = 1%nat.
Proof. exact PooledExamples.ex_pool_picture. Qed.

(** Every measurement listed twice: the same error per observation, and the result of the data listed once is best. *)
Theorem C120_picture_twice :
  forall k cs cs1 r r1,
  estimated k cs r -> estimated k cs1 r1 -> cs1 <> [] -> pooled cs cs1 cs1 ->
  pnp_final_cost_per_obs r = pnp_final_cost_per_obs r1 /\ best_pose k cs (pnp_camera_to_target r1).
Proof. exact PooledProofs.twice_picture. Qed.
Print Assumptions C120_picture_twice.

(** A session listed twice. *)
Example C120_picture_twice_example :
  exists k cs cs1 r r1, estimated k cs r /\ estimated k cs1 r1 /\ cs1 <> [] /\ pooled cs cs1 cs1.
Proof. exact PooledExamples.ex_twice_picture. Qed.

(** Pose estimation from points in space: together at least the sum of the errors of the sessions; exactly that if both sessions gave the same pose, which is then best for all the data. *)
Theorem C120_cloud :
  forall cs cs1 cs2 r r1 r2,
  estimated3 cs r -> estimated3 cs1 r1 -> estimated3 cs2 r2 -> pooled cs cs1 cs2 ->
  total_error 3 (List.length cs1) (pnp_final_cost_per_obs r1) + total_error 3 (List.length cs2) (pnp_final_cost_per_obs r2) <=
    total_error 3 (List.length cs) (pnp_final_cost_per_obs r) /\
  (pnp_camera_to_target r1 = pnp_camera_to_target r2 ->
   best_pose3 cs (pnp_camera_to_target r1) /\
   total_error 3 (List.length cs) (pnp_final_cost_per_obs r) =
     total_error 3 (List.length cs1) (pnp_final_cost_per_obs r1) + total_error 3 (List.length cs2) (pnp_final_cost_per_obs r2)).
Proof. exact PooledProofs.pool_cloud. Qed.
Print Assumptions C120_cloud.

(** Two sessions with different data, and the same result from both. *)
Example C120_cloud_example :
  exists cs cs1 cs2 r r1 r2, estimated3 cs r /\ estimated3 cs1 r1 /\ estimated3 cs2 r2 /\ pooled cs cs1 cs2 /\
  pnp_camera_to_target r1 = pnp_camera_to_target r2 /\ List.length cs1 = 3%nat /\ List.length cs2 = 1%nat.
Proof. exact PooledExamples.ex_pool_cloud. Qed.

(** Every measurement listed twice: the same error per observation, and the result of the data listed once is best. *)
Theorem C120_cloud_twice :
  forall cs cs1 r r1,
  estimated3 cs r -> estimated3 cs1 r1 -> cs1 <> [] -> pooled cs cs1 cs1 ->
  pnp_final_cost_per_obs r = pnp_final_cost_per_obs r1 /\ best_pose3 cs (pnp_camera_to_target r1).
Proof. exact PooledProofs.twice_cloud. Qed.
Print Assumptions C120_cloud_twice.

(** A session listed twice. *)
Example C120_cloud_twice_example :
  exists cs cs1 r r1, estimated3 cs r /\ estimated3 cs1 r1 /\ cs1 <> [] /\ pooled cs cs1 cs1.
Proof. exact PooledExamples.ex_twice_cloud. Qed.

(** Static cameras: together at least the sum of the errors of the sessions; exactly that if both sessions gave the same calibration, which is then best for all the data. *)
Theorem C120_static :
  forall p p1 p2 r r1 r2,
  static_best p r -> static_best p1 r1 -> static_best p2 r2 -> pooled_static p p1 p2 ->
  let e1 := total_error 2 (List.length (static_views p1)) (sr_final_cost_per_obs r1) in
  let e2 := total_error 2 (List.length (static_views p2)) (sr_final_cost_per_obs r2) in
  let e := total_error 2 (List.length (static_views p)) (sr_final_cost_per_obs r) in
  e1 + e2 <= e /\
  (sr_base_to_camera r1 = sr_base_to_camera r2 -> sr_wrist_to_target r1 = sr_wrist_to_target r2 ->
   best_of (cameras_and_wrist (List.length (sp_base_to_camera_guess p)) (static_wrist p)) (camera_of (sp_intr p)) (static_views p) (static_poses p r1) /\
   e = e1 + e2).
Proof. exact PooledProofs.pool_static. Qed.
Print Assumptions C120_static.

(** Two sessions with different data, and the same result from both. *)
Example C120_static_example :
  exists p p1 p2 r r1 r2, static_best p r /\ static_best p1 r1 /\ static_best p2 r2 /\ pooled_static p p1 p2 /\
  sr_base_to_camera r1 = sr_base_to_camera r2 /\ sr_wrist_to_target r1 = sr_wrist_to_target r2 /\
  List.length (static_views p1) = 16%nat /\ List.length (static_views p2) = 8%nat.
Proof. exact PooledExamples.ex_pool_static. Qed.

(** Every measurement listed twice: the same error per observation, and the result of the data listed once is best. *)
Theorem C120_static_twice :
  forall p p1 r r1,
  static_best p r -> static_best p1 r1 -> pooled_static p p1 p1 -> static_views p1 <> [] ->
  sr_final_cost_per_obs r = sr_final_cost_per_obs r1 /\
  best_of (cameras_and_wrist (List.length (sp_base_to_camera_guess p)) (static_wrist p)) (camera_of (sp_intr p)) (static_views p) (static_poses p r1).
Proof. exact PooledProofs.twice_static. Qed.
Print Assumptions C120_static_twice.

(** A session listed twice. *)
Example C120_static_twice_example :
  exists p p1 r r1, static_best p r /\ static_best p1 r1 /\ pooled_static p p1 p1 /\ static_views p1 <> [].
Proof. exact PooledExamples.ex_twice_static. Qed.

(** Cameras moved as a whole: together at least the sum of the errors of the sessions; exactly that if both sessions gave the same calibration, which is then best for all the data. *)
Theorem C120_wrist :
  forall p p1 p2 r r1 r2,
  wrist_best p r -> wrist_best p1 r1 -> wrist_best p2 r2 -> pooled_wrist p p1 p2 ->
  let e1 := total_error 2 (List.length (wrist_views p1)) (wr_final_cost_per_obs r1) in
  let e2 := total_error 2 (List.length (wrist_views p2)) (wr_final_cost_per_obs r2) in
  let e := total_error 2 (List.length (wrist_views p)) (wr_final_cost_per_obs r) in
  e1 + e2 <= e /\
  (wr_base_to_camera r1 = wr_base_to_camera r2 -> wr_wrist_to_target r1 = wr_wrist_to_target r2 ->
   best_of (rig_and_wrist (List.length (wp_base_to_camera_guess p)) (fun c => nth c (wp_base_to_camera_guess p) iso_id)
              (fun i => nth i (wp_wrist_poses p) iso_id)) (camera_of (wp_intr p)) (wrist_views p) (wrist_poses p r1) /\
   e = e1 + e2).
Proof. exact PooledProofs.pool_wrist. Qed.
Print Assumptions C120_wrist.

(** Two sessions with different data, and the same result from both. *)
Example C120_wrist_example :
  exists p p1 p2 r r1 r2, wrist_best p r /\ wrist_best p1 r1 /\ wrist_best p2 r2 /\ pooled_wrist p p1 p2 /\
  wr_base_to_camera r1 = wr_base_to_camera r2 /\ wr_wrist_to_target r1 = wr_wrist_to_target r2 /\
  List.length (wrist_views p1) = 16%nat /\ List.length (wrist_views p2) = 8%nat.
Proof. exact PooledExamples.ex_pool_wrist. Qed.

(** Every measurement listed twice: the same error per observation, and the result of the data listed once is best. *)
Theorem C120_wrist_twice :
  forall p p1 r r1,
  wrist_best p r -> wrist_best p1 r1 -> pooled_wrist p p1 p1 -> wrist_views p1 <> [] ->
  wr_final_cost_per_obs r = wr_final_cost_per_obs r1 /\
  best_of (rig_and_wrist (List.length (wp_base_to_camera_guess p)) (fun c => nth c (wp_base_to_camera_guess p) iso_id)
             (fun i => nth i (wp_wrist_poses p) iso_id)) (camera_of (wp_intr p)) (wrist_views p) (wrist_poses p r1).
Proof. exact PooledProofs.twice_wrist. Qed.
Print Assumptions C120_wrist_twice.

(** A session listed twice. *)
Example C120_wrist_twice_example :
  exists p p1 r r1, wrist_best p r /\ wrist_best p1 r1 /\ pooled_wrist p p1 p1 /\ wrist_views p1 <> [].
Proof. exact PooledExamples.ex_twice_wrist. Qed.

(** Cameras and targets; the sessions need only agree on the cameras: together at least the sum of the errors of the sessions; exactly that if both sessions gave the same cameras, which is then best for all the data. *)
Theorem C120_only :
  forall p p1 p2 r r1 r2,
  only_best p r -> only_best p1 r1 -> only_best p2 r2 -> pooled_only p p1 p2 ->
  let e1 := total_error 2 (List.length (only_views p1)) (or_final_cost_per_obs r1) in
  let e2 := total_error 2 (List.length (only_views p2)) (or_final_cost_per_obs r2) in
  let e := total_error 2 (List.length (only_views p)) (or_final_cost_per_obs r) in
  e1 + e2 <= e /\
  (or_base_to_camera r1 = or_base_to_camera r2 ->
   best_of (cameras_and_targets (List.length (op_base_to_camera_guess p))) (camera_of (op_intr p)) (only_views p)
     (fun c i => iso_mul (iso_inv (nth c (or_base_to_camera r1) iso_id)) (nth i (or_base_to_target r1 ++ or_base_to_target r2) iso_id)) /\
   e = e1 + e2).
Proof. exact PooledProofs.pool_only. Qed.
Print Assumptions C120_only.

(** Two sessions with different data, and the same result from both. *)
Example C120_only_example :
  exists p p1 p2 r r1 r2, only_best p r /\ only_best p1 r1 /\ only_best p2 r2 /\ pooled_only p p1 p2 /\
  or_base_to_camera r1 = or_base_to_camera r2 /\ List.length (only_views p1) = 16%nat /\ List.length (only_views p2) = 8%nat.
Proof. exact PooledExamples.ex_pool_only. Qed.

(** Every measurement listed twice: the same error per observation, and the result of the data listed once is best. *)
Theorem C120_only_twice :
  forall p p1 r r1,
  only_best p r -> only_best p1 r1 -> pooled_only p p1 p1 -> only_views p1 <> [] ->
  or_final_cost_per_obs r = or_final_cost_per_obs r1 /\
  best_of (cameras_and_targets (List.length (op_base_to_camera_guess p))) (camera_of (op_intr p)) (only_views p)
     (fun c i => iso_mul (iso_inv (nth c (or_base_to_camera r1) iso_id)) (nth i (or_base_to_target r1 ++ or_base_to_target r1) iso_id)).
Proof. exact PooledProofs.twice_only. Qed.
Print Assumptions C120_only_twice.

(** A session listed twice. *)
Example C120_only_twice_example :
  exists p p1 r r1, only_best p r /\ only_best p1 r1 /\ pooled_only p p1 p1 /\ only_views p1 <> [].
Proof. exact PooledExamples.ex_twice_only. Qed.

(** A target at rest before known cameras: together at least the sum of the errors of the sessions; exactly that if both sessions gave the same pose, which is then best for all the data. *)
Theorem C120_mpnp :
  forall p p1 p2 r r1 r2,
  mpnp_best p r -> mpnp_best p1 r1 -> mpnp_best p2 r2 -> pooled_mpnp p p1 p2 ->
  let e1 := total_error 2 (List.length (single_views p1)) (mr_final_cost_per_obs r1) in
  let e2 := total_error 2 (List.length (single_views p2)) (mr_final_cost_per_obs r2) in
  let e := total_error 2 (List.length (single_views p)) (mr_final_cost_per_obs r) in
  e1 + e2 <= e /\
  (mr_base_to_target r1 = mr_base_to_target r2 ->
   best_of (known_cameras (List.length (mp_base_to_camera p)) (fun c => nth c (mp_base_to_camera p) iso_id)) (camera_of (mp_intr p))
     (single_views p) (mpnp_poses p r1) /\
   e = e1 + e2).
Proof. exact PooledProofs.pool_mpnp. Qed.
Print Assumptions C120_mpnp.

(** Two sessions with different data, and the same result from both. *)
Example C120_mpnp_example :
  exists p p1 p2 r r1 r2, mpnp_best p r /\ mpnp_best p1 r1 /\ mpnp_best p2 r2 /\ pooled_mpnp p p1 p2 /\
  mr_base_to_target r1 = mr_base_to_target r2 /\ List.length (single_views p1) = 6%nat /\ List.length (single_views p2) = 2%nat.
Proof. exact PooledExamples.ex_pool_mpnp. Qed.

(** Every measurement listed twice: the same error per observation, and the result of the data listed once is best. *)
Theorem C120_mpnp_twice :
  forall p p1 r r1,
  mpnp_best p r -> mpnp_best p1 r1 -> pooled_mpnp p p1 p1 -> single_views p1 <> [] ->
  mr_final_cost_per_obs r = mr_final_cost_per_obs r1 /\
  best_of (known_cameras (List.length (mp_base_to_camera p)) (fun c => nth c (mp_base_to_camera p) iso_id)) (camera_of (mp_intr p))
     (single_views p) (mpnp_poses p r1).
Proof. exact PooledProofs.twice_mpnp. Qed.
Print Assumptions C120_mpnp_twice.

(** A session listed twice. *)
Example C120_mpnp_twice_example :
  exists p p1 r r1, mpnp_best p r /\ mpnp_best p1 r1 /\ pooled_mpnp p p1 p1 /\ single_views p1 <> [].
Proof. exact PooledExamples.ex_twice_mpnp. Qed.
