(** Vocabulary for data of two sessions calibrated separately and together. *)
From Coq Require Import Reals Arith List Permutation.
From Verif.Base Require Import Geom Outcome.
From Verif.Model Require Import Pose Covariance Solver BlockSolver HandEye Pnp MultiCamera.
From Verif.Spec Require Import Frames PinHole PnpSpec UniqueSpec MultiSpec SameDataSpec ToolsAgreeSpec.
Import ListNotations.
Local Open Scope R_scope.

(** All the measurements of both sessions, in any order. *)
Definition pooled {A} (all first second : list A) : Prop := Permutation all (first ++ second).
(** Sizes of the data times reported errors are total errors: [n] measurements with [d] numbers each. *)
Definition total_error (d n : nat) (per_obs : R) : R := INR (d * n) * per_obs.

(** Results that no calibration betters; for pictures of one camera they are [calibrated] and [estimated] in ToolsAgreeSpec.v. *)
Definition calibrated3 (os : list (observation vec3)) (r : he_result) : Prop :=
  exists u solve cov p, honest solve /\ optimize3D3D u solve cov p = Ok r /\ h3_observations p = os /\
    best_in_space (sightings os) (he_camera_mount_to_camera r) (he_target_mount_to_target r).
Definition estimated3 (cs : list (correspondence vec3)) (r : pnp_result) : Prop :=
  exists u solve cov p, honest solve /\ optimizePnP3D u solve cov p = Ok r /\ pnp3_correspondences p = cs /\
    best_pose3 cs (pnp_camera_to_target r).
Definition static_best (p : static_problem) (r : static_result) : Prop :=
  exists u solve cov, honest_blocks solve /\ optimizeStatic u solve cov p = Ok r /\ static_sizes p /\ plain_wrists p /\
    (forall T, In T (sr_base_to_camera r) -> rigid T) /\ rigid (sr_wrist_to_target r) /\
    best_of (cameras_and_wrist (length (sp_base_to_camera_guess p)) (static_wrist p)) (camera_of (sp_intr p))
      (static_views p) (static_poses p r).
Definition wrist_best (p : wrist_problem) (r : wrist_result) : Prop :=
  exists solve, honest_blocks solve /\ optimizeWrist solve p = Ok r /\ wrist_sizes p /\
    (forall T, In T (wp_wrist_poses p) -> plain_pose T) /\ (forall T, In T (wp_base_to_camera_guess p) -> plain_pose T) /\
    (forall T, In T (wr_base_to_camera r) -> rigid T) /\ rigid (wr_wrist_to_target r) /\
    best_of (rig_and_wrist (length (wp_base_to_camera_guess p)) (fun c => nth c (wp_base_to_camera_guess p) iso_id)
               (fun i => nth i (wp_wrist_poses p) iso_id)) (camera_of (wp_intr p)) (wrist_views p) (wrist_poses p r).
Definition only_best (p : only_problem) (r : only_result) : Prop :=
  exists solve, honest_blocks solve /\ leaves_others solve /\ optimizeOnly solve p = Ok r /\ only_sizes p /\
    (op_fix_first_camera p = true -> forall T, nth_error (op_base_to_camera_guess p) 0 = Some T -> plain_pose T) /\
    (forall T, In T (or_base_to_camera r) -> rigid T) /\ (forall T, In T (or_base_to_target r) -> rigid T) /\
    best_of (cameras_and_targets (length (op_base_to_camera_guess p))) (camera_of (op_intr p)) (only_views p) (only_poses r).
Definition mpnp_best (p : mpnp_problem) (r : mpnp_result) : Prop :=
  exists solve, honest_blocks solve /\ optimizeMpnp solve p = Ok r /\ mpnp_sizes p /\
    (forall T, In T (mp_base_to_camera p) -> plain_pose T) /\ rigid (mr_base_to_target r) /\
    best_of (known_cameras (length (mp_base_to_camera p)) (fun c => nth c (mp_base_to_camera p) iso_id)) (camera_of (mp_intr p))
      (single_views p) (mpnp_poses p r).

(** Two sessions with the same cameras: for each camera the images of the second follow those of the first. *)
Definition pooled_static (p p1 p2 : static_problem) : Prop :=
  let n := length (sp_base_to_camera_guess p) in
  length (sp_base_to_camera_guess p1) = n /\ length (sp_base_to_camera_guess p2) = n /\
  sp_intr p1 = sp_intr p /\ sp_intr p2 = sp_intr p /\
  forall c, (c < n)%nat ->
    nth c (sp_wrist_poses p) [] = nth c (sp_wrist_poses p1) [] ++ nth c (sp_wrist_poses p2) [] /\
    nth c (sp_image_observations p) [] = nth c (sp_image_observations p1) [] ++ nth c (sp_image_observations p2) [].
Definition pooled_wrist (p p1 p2 : wrist_problem) : Prop :=
  wp_base_to_camera_guess p1 = wp_base_to_camera_guess p /\ wp_base_to_camera_guess p2 = wp_base_to_camera_guess p /\
  wp_intr p1 = wp_intr p /\ wp_intr p2 = wp_intr p /\
  wp_wrist_poses p = wp_wrist_poses p1 ++ wp_wrist_poses p2 /\
  forall c, (c < length (wp_base_to_camera_guess p))%nat ->
    nth c (wp_image_observations p) [] = nth c (wp_image_observations p1) [] ++ nth c (wp_image_observations p2) [].
Definition pooled_only (p p1 p2 : only_problem) : Prop :=
  let n := length (op_base_to_camera_guess p) in
  length (op_base_to_camera_guess p1) = n /\ length (op_base_to_camera_guess p2) = n /\
  op_intr p1 = op_intr p /\ op_intr p2 = op_intr p /\
  length (op_base_to_target_guess p) = (length (op_base_to_target_guess p1) + length (op_base_to_target_guess p2))%nat /\
  forall c, (c < n)%nat ->
    nth c (op_image_observations p) [] = nth c (op_image_observations p1) [] ++ nth c (op_image_observations p2) [].
Definition pooled_mpnp (p p1 p2 : mpnp_problem) : Prop :=
  mp_base_to_camera p1 = mp_base_to_camera p /\ mp_base_to_camera p2 = mp_base_to_camera p /\
  mp_intr p1 = mp_intr p /\ mp_intr p2 = mp_intr p /\
  forall c, (c < length (mp_base_to_camera p))%nat ->
    pooled (nth c (mp_image_observations p) []) (nth c (mp_image_observations p1) []) (nth c (mp_image_observations p2) []).
