(** C116: nearly perfect data give nearly the right calibration. [near_picture d], [near_point d], [near_observation near d], [near_mpnp d],
    [near_static d], [near_wrist d] and [near_only d]: data that differ from perfect ones by at most [d]; [near_pose e]: poses that
    differ by at most [e] in every entry; [cost_of]: the cost per observation of a set of errors (Spec/NearSpec.v). *)
From Coq Require Import Reals List.
From Verif.Base Require Import Geom Outcome Matrix.
From Verif.Model Require Import Pose Covariance Solver HandEye Pnp BlockSolver MultiCamera CircleFit.
From Verif.Spec Require Import PinHole Frames HomographySpec PnpSpec MultiSpec CircleSpec UniqueSpec OracleSpec NearSpec.
From Verif.Proofs Require NearProofs NearBest NearBestRigs NearMulti NearCircle NearExamples.
Import ListNotations.
Local Open Scope R_scope.

(** The pose of a target from one picture: small noise in the pixels and a small reported cost. *)
Theorem C116_pose :
  forall k T0 cs0,
  rigid T0 -> ~ edge_on T0 -> fx k <> 0 -> fy k <> 0 ->
  four_flat_points (map in_target cs0) -> perfect_image k T0 cs0 ->
  forall e, 0 < e -> exists d, 0 < d /\ forall u solve cov p r, honest solve -> optimizePnP u solve cov p = Ok r ->
    pnp_intr p = k -> near_picture d (pnp_correspondences p) cs0 -> all_in_front (pnp_camera_to_target r) (pnp_correspondences p) ->
    pnp_final_cost_per_obs r <= d -> near_pose e (pnp_camera_to_target r) T0.
Proof. exact NearProofs.pnp_near2. Qed.
Print Assumptions C116_pose.

(** Or a result that fits the noisy picture at least as well as the true pose does. *)
Theorem C116_pose_best :
  forall k T0 cs0,
  rigid T0 -> ~ edge_on T0 -> fx k <> 0 -> fy k <> 0 ->
  four_flat_points (map in_target cs0) -> perfect_image k T0 cs0 ->
  forall e, 0 < e -> exists d, 0 < d /\ forall u solve cov p r, honest solve -> optimizePnP u solve cov p = Ok r ->
    pnp_intr p = k -> near_picture d (pnp_correspondences p) cs0 -> all_in_front (pnp_camera_to_target r) (pnp_correspondences p) ->
    pnp_final_cost_per_obs r <= cost_of (flat_map (pixel_error k T0) (pnp_correspondences p)) -> near_pose e (pnp_camera_to_target r) T0.
Proof. exact NearBest.pnp_best2. Qed.
Print Assumptions C116_pose_best.

(** A square seen from the front, with every pixel off by the noise, however small. *)
Example C116_pose_example :
  exists k T0 cs0, rigid T0 /\ ~ edge_on T0 /\ fx k <> 0 /\ fy k <> 0 /\
  four_flat_points (map in_target cs0) /\ perfect_image k T0 cs0 /\
  forall d, 0 < d -> exists u solve cov p r, honest solve /\ optimizePnP u solve cov p = Ok r /\
    pnp_intr p = k /\ near_picture d (pnp_correspondences p) cs0 /\ all_in_front (pnp_camera_to_target r) (pnp_correspondences p) /\
    pnp_final_cost_per_obs r <= d /\ pnp_final_cost_per_obs r <= cost_of (flat_map (pixel_error k T0) (pnp_correspondences p)) /\
    ~ perfect_image k T0 (pnp_correspondences p).
Proof. exact NearExamples.ex_pnp_near2. Qed.

(** The pose from measured points. *)
Theorem C116_pose_3d :
  forall T0 cs0,
  rigid T0 -> not_on_a_line (map in_target cs0) -> perfect_points T0 cs0 ->
  forall e, 0 < e -> exists d, 0 < d /\ forall u solve cov p r, honest solve -> optimizePnP3D u solve cov p = Ok r ->
    Forall2 (near_point d) (pnp3_correspondences p) cs0 -> pnp_final_cost_per_obs r <= d -> near_pose e (pnp_camera_to_target r) T0.
Proof. exact NearProofs.pnp_near3. Qed.
Print Assumptions C116_pose_3d.

(** The same for a result that fits as well as the truth. *)
Theorem C116_pose_3d_best :
  forall T0 cs0,
  rigid T0 -> not_on_a_line (map in_target cs0) -> perfect_points T0 cs0 ->
  forall e, 0 < e -> exists d, 0 < d /\ forall u solve cov p r, honest solve -> optimizePnP3D u solve cov p = Ok r ->
    Forall2 (near_point d) (pnp3_correspondences p) cs0 ->
    pnp_final_cost_per_obs r <= cost_of (flat_map (point_error T0) (pnp3_correspondences p)) -> near_pose e (pnp_camera_to_target r) T0.
Proof. exact NearBest.pnp_best3. Qed.
Print Assumptions C116_pose_3d_best.

(** The square measured with every point off by the noise. *)
Example C116_pose_3d_example :
  exists T0 cs0, rigid T0 /\ not_on_a_line (map in_target cs0) /\ perfect_points T0 cs0 /\
  forall d, 0 < d -> exists u solve cov p r, honest solve /\ optimizePnP3D u solve cov p = Ok r /\
    Forall2 (near_point d) (pnp3_correspondences p) cs0 /\
    pnp_final_cost_per_obs r <= d /\ pnp_final_cost_per_obs r <= cost_of (flat_map (point_error T0) (pnp3_correspondences p)) /\
    ~ perfect_points T0 (pnp3_correspondences p).
Proof. exact NearExamples.ex_pnp_near3. Qed.

(** Hand-eye calibration from images: noise in the pixels and in the poses of the robot. *)
Theorem C116_hand_eye :
  forall k X0 Z0 os0,
  fx k <> 0 -> fy k <> 0 -> rigid X0 -> rigid Z0 ->
  let seen X Z (o : observation vec2) := target_in_camera X (to_camera_mount o) (to_target_mount o) Z in
  (forall o, In o os0 -> rigid (to_camera_mount o) /\ rigid (to_target_mount o) /\
     four_flat_points (map in_target (correspondence_set o)) /\ ~ edge_on (seen X0 Z0 o) /\ perfect_image k (seen X0 Z0 o) (correspondence_set o)) ->
  two_axes (motions_of (map mounts os0)) ->
  forall e, 0 < e -> exists d, 0 < d /\ forall u solve cov p r, honest solve -> optimize2D3D u solve cov p = Ok r ->
    h2_intr p = k -> plain_obs (h2_observations p) -> Forall2 (near_observation near_pixel d) (h2_observations p) os0 ->
    rigid (he_camera_mount_to_camera r) -> rigid (he_target_mount_to_target r) ->
    (forall o, In o (h2_observations p) -> all_in_front (seen (he_camera_mount_to_camera r) (he_target_mount_to_target r) o) (correspondence_set o)) ->
    he_final_cost_per_obs r <= d ->
    near_pose e (he_camera_mount_to_camera r) X0 /\ near_pose e (he_target_mount_to_target r) Z0.
Proof. exact NearProofs.he_near2. Qed.
Print Assumptions C116_hand_eye.

(** The same for a result that fits as well as the truth. *)
Theorem C116_hand_eye_best :
  forall k X0 Z0 os0,
  fx k <> 0 -> fy k <> 0 -> rigid X0 -> rigid Z0 ->
  let seen X Z (o : observation vec2) := target_in_camera X (to_camera_mount o) (to_target_mount o) Z in
  (forall o, In o os0 -> rigid (to_camera_mount o) /\ rigid (to_target_mount o) /\
     four_flat_points (map in_target (correspondence_set o)) /\ ~ edge_on (seen X0 Z0 o) /\ perfect_image k (seen X0 Z0 o) (correspondence_set o)) ->
  two_axes (motions_of (map mounts os0)) ->
  forall e, 0 < e -> exists d, 0 < d /\ forall u solve cov p r, honest solve -> optimize2D3D u solve cov p = Ok r ->
    h2_intr p = k -> plain_obs (h2_observations p) -> Forall2 (near_observation near_pixel d) (h2_observations p) os0 ->
    rigid (he_camera_mount_to_camera r) -> rigid (he_target_mount_to_target r) ->
    (forall o, In o (h2_observations p) -> all_in_front (seen (he_camera_mount_to_camera r) (he_target_mount_to_target r) o) (correspondence_set o)) ->
    he_final_cost_per_obs r <= cost_of (flat_map (fun o => flat_map (pixel_error k (seen X0 Z0 o)) (correspondence_set o)) (h2_observations p)) ->
    near_pose e (he_camera_mount_to_camera r) X0 /\ near_pose e (he_target_mount_to_target r) Z0.
Proof. exact NearBest.he_best2. Qed.
Print Assumptions C116_hand_eye_best.

(** Three views of the square, turned about two axes, with every pixel off by the noise. *)
Example C116_hand_eye_example :
  exists k X0 Z0 os0, fx k <> 0 /\ fy k <> 0 /\ rigid X0 /\ rigid Z0 /\
  let seen X Z (o : observation vec2) := target_in_camera X (to_camera_mount o) (to_target_mount o) Z in
  (forall o, In o os0 -> rigid (to_camera_mount o) /\ rigid (to_target_mount o) /\
     four_flat_points (map in_target (correspondence_set o)) /\ ~ edge_on (seen X0 Z0 o) /\ perfect_image k (seen X0 Z0 o) (correspondence_set o)) /\
  two_axes (motions_of (map mounts os0)) /\
  forall d, 0 < d -> exists u solve cov p r, honest solve /\ optimize2D3D u solve cov p = Ok r /\
    h2_intr p = k /\ plain_obs (h2_observations p) /\ Forall2 (near_observation near_pixel d) (h2_observations p) os0 /\
    rigid (he_camera_mount_to_camera r) /\ rigid (he_target_mount_to_target r) /\
    (forall o, In o (h2_observations p) -> all_in_front (seen (he_camera_mount_to_camera r) (he_target_mount_to_target r) o) (correspondence_set o)) /\
    he_final_cost_per_obs r <= d /\
    he_final_cost_per_obs r <= cost_of (flat_map (fun o => flat_map (pixel_error k (seen X0 Z0 o)) (correspondence_set o)) (h2_observations p)) /\
    (forall o, In o (h2_observations p) -> ~ perfect_image k (seen X0 Z0 o) (correspondence_set o)).
Proof. exact NearExamples.ex_he_near2. Qed.

(** Hand-eye calibration from measured points. *)
Theorem C116_hand_eye_3d :
  forall X0 Z0 os0,
  rigid X0 -> rigid Z0 ->
  let seen X Z (o : observation vec3) := target_in_camera X (to_camera_mount o) (to_target_mount o) Z in
  (forall o, In o os0 -> rigid (to_camera_mount o) /\ rigid (to_target_mount o) /\
     not_on_a_line (map in_target (correspondence_set o)) /\ perfect_points (seen X0 Z0 o) (correspondence_set o)) ->
  two_axes (motions_of (map mounts os0)) ->
  forall e, 0 < e -> exists d, 0 < d /\ forall u solve cov p r, honest solve -> optimize3D3D u solve cov p = Ok r ->
    plain_obs (h3_observations p) -> Forall2 (near_observation near_point d) (h3_observations p) os0 ->
    rigid (he_camera_mount_to_camera r) -> rigid (he_target_mount_to_target r) ->
    he_final_cost_per_obs r <= d ->
    near_pose e (he_camera_mount_to_camera r) X0 /\ near_pose e (he_target_mount_to_target r) Z0.
Proof. exact NearProofs.he_near3. Qed.
Print Assumptions C116_hand_eye_3d.

(** The same for a result that fits as well as the truth. *)
Theorem C116_hand_eye_3d_best :
  forall X0 Z0 os0,
  rigid X0 -> rigid Z0 ->
  let seen X Z (o : observation vec3) := target_in_camera X (to_camera_mount o) (to_target_mount o) Z in
  (forall o, In o os0 -> rigid (to_camera_mount o) /\ rigid (to_target_mount o) /\
     not_on_a_line (map in_target (correspondence_set o)) /\ perfect_points (seen X0 Z0 o) (correspondence_set o)) ->
  two_axes (motions_of (map mounts os0)) ->
  forall e, 0 < e -> exists d, 0 < d /\ forall u solve cov p r, honest solve -> optimize3D3D u solve cov p = Ok r ->
    plain_obs (h3_observations p) -> Forall2 (near_observation near_point d) (h3_observations p) os0 ->
    rigid (he_camera_mount_to_camera r) -> rigid (he_target_mount_to_target r) ->
    he_final_cost_per_obs r <= cost_of (flat_map (fun o => flat_map (point_error (seen X0 Z0 o)) (correspondence_set o)) (h3_observations p)) ->
    near_pose e (he_camera_mount_to_camera r) X0 /\ near_pose e (he_target_mount_to_target r) Z0.
Proof. exact NearBest.he_best3. Qed.
Print Assumptions C116_hand_eye_3d_best.

(** The three views measured with every point off by the noise. *)
Example C116_hand_eye_3d_example :
  exists X0 Z0 os0, rigid X0 /\ rigid Z0 /\
  let seen X Z (o : observation vec3) := target_in_camera X (to_camera_mount o) (to_target_mount o) Z in
  (forall o, In o os0 -> rigid (to_camera_mount o) /\ rigid (to_target_mount o) /\
     not_on_a_line (map in_target (correspondence_set o)) /\ perfect_points (seen X0 Z0 o) (correspondence_set o)) /\
  two_axes (motions_of (map mounts os0)) /\
  forall d, 0 < d -> exists u solve cov p r, honest solve /\ optimize3D3D u solve cov p = Ok r /\
    plain_obs (h3_observations p) /\ Forall2 (near_observation near_point d) (h3_observations p) os0 /\
    rigid (he_camera_mount_to_camera r) /\ rigid (he_target_mount_to_target r) /\
    he_final_cost_per_obs r <= d /\
    he_final_cost_per_obs r <= cost_of (flat_map (fun o => flat_map (point_error (seen X0 Z0 o)) (correspondence_set o)) (h3_observations p)) /\
    (forall o, In o (h3_observations p) -> ~ perfect_points (seen X0 Z0 o) (correspondence_set o)).
Proof. exact NearExamples.ex_he_near3. Qed.

(** The pose of a target seen by several cameras at known poses. *)
Theorem C116_multi_pose :
  forall p0 B0,
  let n := List.length (mp_base_to_camera p0) in
  let k c := nth c (mp_intr p0) intr0 in
  let image p c := nth c (mp_image_observations p) [] in
  let seen p B c := iso_mul (iso_inv (nth c (mp_base_to_camera p) iso_id)) B in
  (forall T, In T (mp_base_to_camera p0) -> rigid T) -> rigid B0 ->
  (exists c, (c < n)%nat /\ usable (k c) (seen p0 B0 c) (image p0 c) /\ perfect_image (k c) (seen p0 B0 c) (image p0 c)) ->
  forall e, 0 < e -> exists d, 0 < d /\ forall solve p r, honest_blocks solve -> optimizeMpnp solve p = Ok r -> mpnp_sizes p ->
    (forall T, In T (mp_base_to_camera p) -> plain_pose T) -> near_mpnp d p p0 -> rigid (mr_base_to_target r) ->
    (forall c, (c < n)%nat -> all_in_front (seen p (mr_base_to_target r) c) (image p c)) ->
    mr_final_cost_per_obs r <= d -> near_pose e (mr_base_to_target r) B0.
Proof. exact NearMulti.mpnp_near. Qed.
Print Assumptions C116_multi_pose.

(** The same for a result that fits as well as the truth, if all pictures are nearly perfect. *)
Theorem C116_multi_pose_best :
  forall p0 B0,
  let n := List.length (mp_base_to_camera p0) in
  let k c := nth c (mp_intr p0) intr0 in
  let image p c := nth c (mp_image_observations p) [] in
  let seen p B c := iso_mul (iso_inv (nth c (mp_base_to_camera p) iso_id)) B in
  (forall T, In T (mp_base_to_camera p0) -> rigid T) -> rigid B0 ->
  (forall c, (c < n)%nat -> perfect_image (k c) (seen p0 B0 c) (image p0 c)) ->
  (exists c, (c < n)%nat /\ usable (k c) (seen p0 B0 c) (image p0 c)) ->
  forall e, 0 < e -> exists d, 0 < d /\ forall solve p r, honest_blocks solve -> optimizeMpnp solve p = Ok r -> mpnp_sizes p ->
    (forall T, In T (mp_base_to_camera p) -> plain_pose T) -> near_mpnp d p p0 -> rigid (mr_base_to_target r) ->
    (forall c, (c < n)%nat -> all_in_front (seen p (mr_base_to_target r) c) (image p c)) ->
    mr_final_cost_per_obs r <= cost_of (flat_map (fun c => flat_map (pixel_error (k c) (seen p B0 c)) (image p c)) (seq 0 n)) ->
    near_pose e (mr_base_to_target r) B0.
Proof. exact NearBestRigs.mpnp_best. Qed.
Print Assumptions C116_multi_pose_best.

(** One camera. *)
Example C116_multi_pose_example :
  exists p0 B0,
  let n := List.length (mp_base_to_camera p0) in
  let k c := nth c (mp_intr p0) intr0 in
  let image p c := nth c (mp_image_observations p) [] in
  let seen p B c := iso_mul (iso_inv (nth c (mp_base_to_camera p) iso_id)) B in
  (forall T, In T (mp_base_to_camera p0) -> rigid T) /\ rigid B0 /\
  (exists c, (c < n)%nat /\ usable (k c) (seen p0 B0 c) (image p0 c) /\ perfect_image (k c) (seen p0 B0 c) (image p0 c)) /\
  (forall c, (c < n)%nat -> perfect_image (k c) (seen p0 B0 c) (image p0 c)) /\
  forall d, 0 < d -> exists solve p r, honest_blocks solve /\ optimizeMpnp solve p = Ok r /\ mpnp_sizes p /\
    (forall T, In T (mp_base_to_camera p) -> plain_pose T) /\ near_mpnp d p p0 /\ rigid (mr_base_to_target r) /\
    (forall c, (c < n)%nat -> all_in_front (seen p (mr_base_to_target r) c) (image p c)) /\
    mr_final_cost_per_obs r <= d /\ mr_final_cost_per_obs r <= cost_of (flat_map (fun c => flat_map (pixel_error (k c) (seen p B0 c)) (image p c)) (seq 0 n)).
Proof. exact NearExamples.ex_mpnp_near. Qed.

(** Several fixed cameras and a target on the wrist. *)
Theorem C116_static :
  forall p0 C0 Z0,
  let n := List.length (sp_wrist_poses p0) in
  let k c := nth c (sp_intr p0) intr0 in
  let wrist p c i := nth i (nth c (sp_wrist_poses p) []) iso_id in
  let images c := List.length (nth c (sp_wrist_poses p0) []) in
  let image p c i := nth i (nth c (sp_image_observations p) []) [] in
  let seen p C Z c i := iso_mul (iso_inv (C c)) (iso_mul (wrist p c i) Z) in
  (forall c W, In W (nth c (sp_wrist_poses p0) []) -> rigid W) ->
  (forall c, (c < n)%nat -> rigid (C0 c)) -> rigid Z0 ->
  (forall c i, (c < n)%nat -> (i < images c)%nat -> perfect_image (k c) (seen p0 C0 Z0 c i) (image p0 c i)) ->
  (exists c chosen, (c < n)%nat /\
     (forall i, In i chosen -> (i < images c)%nat /\ usable (k c) (seen p0 C0 Z0 c i) (image p0 c i)) /\
     two_axes (motions_of (map (wrist p0 c) chosen))) ->
  (forall c, (c < n)%nat -> exists i, (i < images c)%nat /\ usable (k c) (seen p0 C0 Z0 c i) (image p0 c i)) ->
  forall e, 0 < e -> exists d, 0 < d /\ forall u solve cov p r, honest_blocks solve -> optimizeStatic u solve cov p = Ok r ->
    static_sizes p -> plain_wrists p -> near_static d p p0 ->
    (forall T, In T (sr_base_to_camera r) -> rigid T) -> rigid (sr_wrist_to_target r) ->
    let found c := nth c (sr_base_to_camera r) iso_id in
    (forall c i, (c < n)%nat -> (i < images c)%nat -> all_in_front (seen p found (sr_wrist_to_target r) c i) (image p c i)) ->
    sr_final_cost_per_obs r <= d ->
    (forall c, (c < n)%nat -> near_pose e (found c) (C0 c)) /\ near_pose e (sr_wrist_to_target r) Z0.
Proof. exact NearMulti.static_near. Qed.
Print Assumptions C116_static.

(** The same for a result that fits as well as the truth. *)
Theorem C116_static_best :
  forall p0 C0 Z0,
  let n := List.length (sp_wrist_poses p0) in
  let k c := nth c (sp_intr p0) intr0 in
  let wrist p c i := nth i (nth c (sp_wrist_poses p) []) iso_id in
  let images c := List.length (nth c (sp_wrist_poses p0) []) in
  let image p c i := nth i (nth c (sp_image_observations p) []) [] in
  let seen p C Z c i := iso_mul (iso_inv (C c)) (iso_mul (wrist p c i) Z) in
  (forall c W, In W (nth c (sp_wrist_poses p0) []) -> rigid W) ->
  (forall c, (c < n)%nat -> rigid (C0 c)) -> rigid Z0 ->
  (forall c i, (c < n)%nat -> (i < images c)%nat -> perfect_image (k c) (seen p0 C0 Z0 c i) (image p0 c i)) ->
  (exists c chosen, (c < n)%nat /\
     (forall i, In i chosen -> (i < images c)%nat /\ usable (k c) (seen p0 C0 Z0 c i) (image p0 c i)) /\
     two_axes (motions_of (map (wrist p0 c) chosen))) ->
  (forall c, (c < n)%nat -> exists i, (i < images c)%nat /\ usable (k c) (seen p0 C0 Z0 c i) (image p0 c i)) ->
  forall e, 0 < e -> exists d, 0 < d /\ forall u solve cov p r, honest_blocks solve -> optimizeStatic u solve cov p = Ok r ->
    static_sizes p -> plain_wrists p -> near_static d p p0 ->
    (forall T, In T (sr_base_to_camera r) -> rigid T) -> rigid (sr_wrist_to_target r) ->
    let found c := nth c (sr_base_to_camera r) iso_id in
    (forall c i, (c < n)%nat -> (i < images c)%nat -> all_in_front (seen p found (sr_wrist_to_target r) c i) (image p c i)) ->
    sr_final_cost_per_obs r <= cost_of (flat_map (fun c => flat_map (fun i => flat_map (pixel_error (k c) (seen p C0 Z0 c i)) (image p c i)) (seq 0 (images c))) (seq 0 n)) ->
    (forall c, (c < n)%nat -> near_pose e (found c) (C0 c)) /\ near_pose e (sr_wrist_to_target r) Z0.
Proof. exact NearBestRigs.static_best. Qed.
Print Assumptions C116_static_best.

(** One camera, three views. *)
Example C116_static_example :
  exists p0 C0 Z0,
  let n := List.length (sp_wrist_poses p0) in
  let k c := nth c (sp_intr p0) intr0 in
  let wrist p c i := nth i (nth c (sp_wrist_poses p) []) iso_id in
  let images c := List.length (nth c (sp_wrist_poses p0) []) in
  let image p c i := nth i (nth c (sp_image_observations p) []) [] in
  let seen p C Z c i := iso_mul (iso_inv (C c)) (iso_mul (wrist p c i) Z) in
  (forall c W, In W (nth c (sp_wrist_poses p0) []) -> rigid W) /\
  (forall c, (c < n)%nat -> rigid (C0 c)) /\ rigid Z0 /\
  (forall c i, (c < n)%nat -> (i < images c)%nat -> perfect_image (k c) (seen p0 C0 Z0 c i) (image p0 c i)) /\
  (exists c chosen, (c < n)%nat /\
     (forall i, In i chosen -> (i < images c)%nat /\ usable (k c) (seen p0 C0 Z0 c i) (image p0 c i)) /\
     two_axes (motions_of (map (wrist p0 c) chosen))) /\
  (forall c, (c < n)%nat -> exists i, (i < images c)%nat /\ usable (k c) (seen p0 C0 Z0 c i) (image p0 c i)) /\
  forall d, 0 < d -> exists u solve cov p r, honest_blocks solve /\ optimizeStatic u solve cov p = Ok r /\
    static_sizes p /\ plain_wrists p /\ near_static d p p0 /\
    (forall T, In T (sr_base_to_camera r) -> rigid T) /\ rigid (sr_wrist_to_target r) /\
    let found c := nth c (sr_base_to_camera r) iso_id in
    (forall c i, (c < n)%nat -> (i < images c)%nat -> all_in_front (seen p found (sr_wrist_to_target r) c i) (image p c i)) /\
    sr_final_cost_per_obs r <= d /\ sr_final_cost_per_obs r <= cost_of (flat_map (fun c => flat_map (fun i => flat_map (pixel_error (k c) (seen p C0 Z0 c i)) (image p c i)) (seq 0 (images c))) (seq 0 n)).
Proof. exact NearExamples.ex_static_near. Qed.

(** Cameras that keep their arrangement. *)
Theorem C116_wrist :
  forall p0 K0 Z0,
  let n := List.length (wp_base_to_camera_guess p0) in
  let images := List.length (wp_wrist_poses p0) in
  let k c := nth c (wp_intr p0) intr0 in
  let wrist p i := nth i (wp_wrist_poses p) iso_id in
  let image p c i := nth i (nth c (wp_image_observations p) []) [] in
  let truth c := iso_mul K0 (nth c (wp_base_to_camera_guess p0) iso_id) in
  let seen p C Z c i := iso_mul (iso_inv (C c)) (iso_mul (wrist p i) Z) in
  (forall T, In T (wp_wrist_poses p0) -> rigid T) -> (forall T, In T (wp_base_to_camera_guess p0) -> rigid T) -> rigid K0 -> rigid Z0 ->
  (forall c i, (c < n)%nat -> (i < images)%nat -> perfect_image (k c) (seen p0 truth Z0 c i) (image p0 c i)) ->
  (exists c chosen, (c < n)%nat /\
     (forall i, In i chosen -> (i < images)%nat /\ usable (k c) (seen p0 truth Z0 c i) (image p0 c i)) /\
     two_axes (motions_of (map (wrist p0) chosen))) ->
  forall e, 0 < e -> exists d, 0 < d /\ forall solve p r, honest_blocks solve -> optimizeWrist solve p = Ok r -> wrist_sizes p ->
    (forall T, In T (wp_wrist_poses p) -> plain_pose T) -> (forall T, In T (wp_base_to_camera_guess p) -> plain_pose T) -> near_wrist d p p0 ->
    (forall T, In T (wr_base_to_camera r) -> rigid T) -> rigid (wr_wrist_to_target r) ->
    let found c := nth c (wr_base_to_camera r) iso_id in
    (forall c i, (c < n)%nat -> (i < images)%nat -> all_in_front (seen p found (wr_wrist_to_target r) c i) (image p c i)) ->
    wr_final_cost_per_obs r <= d ->
    (forall c, (c < n)%nat -> near_pose e (found c) (truth c)) /\ near_pose e (wr_wrist_to_target r) Z0.
Proof. exact NearMulti.wrist_near. Qed.
Print Assumptions C116_wrist.

(** The same for a result that fits as well as the truly moved rig. *)
Theorem C116_wrist_best :
  forall p0 K0 Z0,
  let n := List.length (wp_base_to_camera_guess p0) in
  let images := List.length (wp_wrist_poses p0) in
  let k c := nth c (wp_intr p0) intr0 in
  let wrist p i := nth i (wp_wrist_poses p) iso_id in
  let image p c i := nth i (nth c (wp_image_observations p) []) [] in
  let moved p c := iso_mul K0 (nth c (wp_base_to_camera_guess p) iso_id) in
  let seen p C Z c i := iso_mul (iso_inv (C c)) (iso_mul (wrist p i) Z) in
  (forall T, In T (wp_wrist_poses p0) -> rigid T) -> (forall T, In T (wp_base_to_camera_guess p0) -> rigid T) -> rigid K0 -> rigid Z0 ->
  (forall c i, (c < n)%nat -> (i < images)%nat -> perfect_image (k c) (seen p0 (moved p0) Z0 c i) (image p0 c i)) ->
  (exists c chosen, (c < n)%nat /\
     (forall i, In i chosen -> (i < images)%nat /\ usable (k c) (seen p0 (moved p0) Z0 c i) (image p0 c i)) /\
     two_axes (motions_of (map (wrist p0) chosen))) ->
  forall e, 0 < e -> exists d, 0 < d /\ forall solve p r, honest_blocks solve -> optimizeWrist solve p = Ok r -> wrist_sizes p ->
    (forall T, In T (wp_wrist_poses p) -> plain_pose T) -> (forall T, In T (wp_base_to_camera_guess p) -> plain_pose T) -> near_wrist d p p0 ->
    (forall T, In T (wr_base_to_camera r) -> rigid T) -> rigid (wr_wrist_to_target r) ->
    let found c := nth c (wr_base_to_camera r) iso_id in
    (forall c i, (c < n)%nat -> (i < images)%nat -> all_in_front (seen p found (wr_wrist_to_target r) c i) (image p c i)) ->
    wr_final_cost_per_obs r <= cost_of (flat_map (fun c => flat_map (fun i => flat_map (pixel_error (k c) (seen p (moved p) Z0 c i)) (image p c i)) (seq 0 images)) (seq 0 n)) ->
    (forall c, (c < n)%nat -> near_pose e (found c) (moved p0 c)) /\ near_pose e (wr_wrist_to_target r) Z0.
Proof. exact NearBestRigs.wrist_best. Qed.
Print Assumptions C116_wrist_best.

(** One camera, three views. *)
Example C116_wrist_example :
  exists p0 K0 Z0,
  let n := List.length (wp_base_to_camera_guess p0) in
  let images := List.length (wp_wrist_poses p0) in
  let k c := nth c (wp_intr p0) intr0 in
  let wrist p i := nth i (wp_wrist_poses p) iso_id in
  let image p c i := nth i (nth c (wp_image_observations p) []) [] in
  let truth c := iso_mul K0 (nth c (wp_base_to_camera_guess p0) iso_id) in
  let seen p C Z c i := iso_mul (iso_inv (C c)) (iso_mul (wrist p i) Z) in
  (forall T, In T (wp_wrist_poses p0) -> rigid T) /\ (forall T, In T (wp_base_to_camera_guess p0) -> rigid T) /\ rigid K0 /\ rigid Z0 /\
  (forall c i, (c < n)%nat -> (i < images)%nat -> perfect_image (k c) (seen p0 truth Z0 c i) (image p0 c i)) /\
  (exists c chosen, (c < n)%nat /\
     (forall i, In i chosen -> (i < images)%nat /\ usable (k c) (seen p0 truth Z0 c i) (image p0 c i)) /\
     two_axes (motions_of (map (wrist p0) chosen))) /\
  forall d, 0 < d -> exists solve p r, honest_blocks solve /\ optimizeWrist solve p = Ok r /\ wrist_sizes p /\
    (forall T, In T (wp_wrist_poses p) -> plain_pose T) /\ (forall T, In T (wp_base_to_camera_guess p) -> plain_pose T) /\ near_wrist d p p0 /\
    (forall T, In T (wr_base_to_camera r) -> rigid T) /\ rigid (wr_wrist_to_target r) /\
    let found c := nth c (wr_base_to_camera r) iso_id in
    (forall c i, (c < n)%nat -> (i < images)%nat -> all_in_front (seen p found (wr_wrist_to_target r) c i) (image p c i)) /\
    wr_final_cost_per_obs r <= d /\ wr_final_cost_per_obs r <= cost_of (flat_map (fun c => flat_map (fun i => flat_map (pixel_error (k c) (seen p (fun c => iso_mul K0 (nth c (wp_base_to_camera_guess p) iso_id)) Z0 c i)) (image p c i)) (seq 0 images)) (seq 0 n)).
Proof. exact NearExamples.ex_wrist_near. Qed.

(** Cameras that see common targets, the first one known: every camera and target linked to it. *)
Theorem C116_camera_only :
  forall p0 C0 B0,
  let n := List.length (op_image_observations p0) in
  let images := List.length (op_base_to_target_guess p0) in
  let k c := nth c (op_intr p0) intr0 in
  let image p c i := nth i (nth c (op_image_observations p) []) [] in
  let seen (C B : nat -> iso) c i := iso_mul (iso_inv (C c)) (B i) in
  let good c i := (c < n)%nat /\ (i < images)%nat /\ usable (k c) (seen C0 B0 c i) (image p0 c i) in
  (0 < images)%nat -> plain_pose (C0 0%nat) -> (forall c, (c < n)%nat -> rigid (C0 c)) -> (forall i, (i < images)%nat -> rigid (B0 i)) ->
  (forall c i, (c < n)%nat -> (i < images)%nat -> perfect_image (k c) (seen C0 B0 c i) (image p0 c i)) ->
  forall e, 0 < e -> exists d, 0 < d /\ forall solve p r, honest_blocks solve -> leaves_others solve -> optimizeOnly solve p = Ok r -> only_sizes p ->
    op_fix_first_camera p = true -> nth_error (op_base_to_camera_guess p) 0 = Some (C0 0%nat) -> near_only d p p0 ->
    (forall T, In T (or_base_to_camera r) -> rigid T) -> (forall T, In T (or_base_to_target r) -> rigid T) ->
    let camera c := nth c (or_base_to_camera r) iso_id in
    let target i := nth i (or_base_to_target r) iso_id in
    (forall c i, (c < n)%nat -> (i < images)%nat -> all_in_front (seen camera target c i) (image p c i)) ->
    or_final_cost_per_obs r <= d ->
    (forall c, linked_camera good 0 c -> (c < n)%nat -> near_pose e (camera c) (C0 c)) /\
    (forall i, linked_image good 0 i -> (i < images)%nat -> near_pose e (target i) (B0 i)).
Proof. exact NearMulti.only_near. Qed.
Print Assumptions C116_camera_only.

(** The same for a result that fits as well as the truth. *)
Theorem C116_camera_only_best :
  forall p0 C0 B0,
  let n := List.length (op_image_observations p0) in
  let images := List.length (op_base_to_target_guess p0) in
  let k c := nth c (op_intr p0) intr0 in
  let image p c i := nth i (nth c (op_image_observations p) []) [] in
  let seen (C B : nat -> iso) c i := iso_mul (iso_inv (C c)) (B i) in
  let good c i := (c < n)%nat /\ (i < images)%nat /\ usable (k c) (seen C0 B0 c i) (image p0 c i) in
  (0 < images)%nat -> plain_pose (C0 0%nat) -> (forall c, (c < n)%nat -> rigid (C0 c)) -> (forall i, (i < images)%nat -> rigid (B0 i)) ->
  (forall c i, (c < n)%nat -> (i < images)%nat -> perfect_image (k c) (seen C0 B0 c i) (image p0 c i)) ->
  forall e, 0 < e -> exists d, 0 < d /\ forall solve p r, honest_blocks solve -> leaves_others solve -> optimizeOnly solve p = Ok r -> only_sizes p ->
    op_fix_first_camera p = true -> nth_error (op_base_to_camera_guess p) 0 = Some (C0 0%nat) -> near_only d p p0 ->
    (forall T, In T (or_base_to_camera r) -> rigid T) -> (forall T, In T (or_base_to_target r) -> rigid T) ->
    let camera c := nth c (or_base_to_camera r) iso_id in
    let target i := nth i (or_base_to_target r) iso_id in
    (forall c i, (c < n)%nat -> (i < images)%nat -> all_in_front (seen camera target c i) (image p c i)) ->
    or_final_cost_per_obs r <= cost_of (flat_map (fun c => flat_map (fun i => flat_map (pixel_error (k c) (seen C0 B0 c i)) (image p c i)) (seq 0 images)) (seq 0 n)) ->
    (forall c, linked_camera good 0 c -> (c < n)%nat -> near_pose e (camera c) (C0 c)) /\
    (forall i, linked_image good 0 i -> (i < images)%nat -> near_pose e (target i) (B0 i)).
Proof. exact NearBestRigs.only_best. Qed.
Print Assumptions C116_camera_only_best.

(** Two cameras that see one target. *)
Example C116_camera_only_example :
  exists p0 C0 B0,
  let n := List.length (op_image_observations p0) in
  let images := List.length (op_base_to_target_guess p0) in
  let k c := nth c (op_intr p0) intr0 in
  let image p c i := nth i (nth c (op_image_observations p) []) [] in
  let seen (C B : nat -> iso) c i := iso_mul (iso_inv (C c)) (B i) in
  let good c i := (c < n)%nat /\ (i < images)%nat /\ usable (k c) (seen C0 B0 c i) (image p0 c i) in
  (0 < images)%nat /\ plain_pose (C0 0%nat) /\ (forall c, (c < n)%nat -> rigid (C0 c)) /\ (forall i, (i < images)%nat -> rigid (B0 i)) /\
  (forall c i, (c < n)%nat -> (i < images)%nat -> perfect_image (k c) (seen C0 B0 c i) (image p0 c i)) /\
  linked_camera good 0 1 /\ linked_image good 0 0 /\ (1 < n)%nat /\
  forall d, 0 < d -> exists solve p r, honest_blocks solve /\ leaves_others solve /\ optimizeOnly solve p = Ok r /\ only_sizes p /\
    op_fix_first_camera p = true /\ nth_error (op_base_to_camera_guess p) 0 = Some (C0 0%nat) /\ near_only d p p0 /\
    (forall T, In T (or_base_to_camera r) -> rigid T) /\ (forall T, In T (or_base_to_target r) -> rigid T) /\
    let camera c := nth c (or_base_to_camera r) iso_id in
    let target i := nth i (or_base_to_target r) iso_id in
    (forall c i, (c < n)%nat -> (i < images)%nat -> all_in_front (seen camera target c i) (image p c i)) /\
    or_final_cost_per_obs r <= d /\ or_final_cost_per_obs r <= cost_of (flat_map (fun c => flat_map (fun i => flat_map (pixel_error (k c) (seen C0 B0 c i)) (image p c i)) (seq 0 images)) (seq 0 n)).
Proof. exact NearExamples.ex_only_near. Qed.

(** Circles through three different points. *)
Theorem C116_circle :
  forall centre radius pts0,
  0 <= radius -> three_different pts0 -> (forall o, In o pts0 -> on_circle centre radius o) ->
  forall e, 0 < e -> exists d, 0 < d /\ forall u solve cov p r, honest solve -> optimizeCircle u solve cov p = Ok r ->
    Forall2 (pixel_close d) (cf_observations p) pts0 -> cf_final_cost_per_obs r <= d ->
    pixel_close e (V2 (cf_x_center r) (cf_y_center r)) centre /\ Rabs (cf_radius r - radius) <= e.
Proof. exact NearCircle.circle_near. Qed.
Print Assumptions C116_circle.

(** The same for a result that fits as well as the true circle. *)
Theorem C116_circle_best :
  forall centre radius pts0,
  0 <= radius -> three_different pts0 -> (forall o, In o pts0 -> on_circle centre radius o) ->
  forall e, 0 < e -> exists d, 0 < d /\ forall u solve cov p r, honest solve -> optimizeCircle u solve cov p = Ok r ->
    Forall2 (pixel_close d) (cf_observations p) pts0 ->
    cf_final_cost_per_obs r <= cost_of (map (fun o => radius * radius - dist2 o centre * dist2 o centre) (cf_observations p)) ->
    pixel_close e (V2 (cf_x_center r) (cf_y_center r)) centre /\ Rabs (cf_radius r - radius) <= e.
Proof. exact NearBestRigs.circle_best. Qed.
Print Assumptions C116_circle_best.

(** Three points of a circle that is too large by the noise. *)
Example C116_circle_example :
  exists centre radius pts0, 0 <= radius /\ three_different pts0 /\ (forall o, In o pts0 -> on_circle centre radius o) /\
  forall d, 0 < d -> exists u solve cov p r, honest solve /\ optimizeCircle u solve cov p = Ok r /\
    Forall2 (pixel_close d) (cf_observations p) pts0 /\ cf_final_cost_per_obs r <= d /\ cf_final_cost_per_obs r <= cost_of (map (fun o => radius * radius - dist2 o centre * dist2 o centre) (cf_observations p)) /\
    (forall o, In o (cf_observations p) -> ~ on_circle centre radius o).
Proof. exact NearExamples.ex_circle_near. Qed.
