(** C31: the wrist-only calibration keeps the relative poses of the cameras. *)
From Coq Require Import Reals Arith List.
From Verif.Base Require Import Geom Outcome.
From Verif.Model Require Import Pose Solver BlockSolver MultiCamera.
From Verif.Spec Require Import PinHole MultiSpec.
From Verif.Proofs Require Import HandEyeProofs MultiCameraProofs.
Import ListNotations.
Local Open Scope R_scope.

Theorem C31_all_cameras_returned :
  forall solve p r, optimizeWrist solve p = Ok r ->
  List.length (wr_base_to_camera r) = List.length (wp_base_to_camera_guess p).
Proof. exact wrist_count. Qed.
Print Assumptions C31_all_cameras_returned.

(** Full statement: the theorem below without its first hypothesis. It fails when the solver leaves
    a correction with a rotation vector whose squared norm is positive but not above epsilon, since
    the transform of such a vector is not orthogonal (C02). *)
Theorem C31_relative_poses_refuted :
  exists solve p r i j A B A' B',
  optimizeWrist solve p = Ok r /\
  nth_error (wp_base_to_camera_guess p) i = Some A /\ nth_error (wp_base_to_camera_guess p) j = Some B /\
  nth_error (wr_base_to_camera r) i = Some A' /\ nth_error (wr_base_to_camera r) j = Some B' /\
  rigid A /\ rigid B /\ iso_mul (iso_inv A') B' <> iso_mul (iso_inv A) B.
Proof. exact wrist_relative_refuted. Qed.
Print Assumptions C31_relative_poses_refuted.

Theorem C31_relative_poses_kept_partial :
  forall solve p r i j A B A' B',
  (forall blocks m, let w := pose_aa (read_pose (fst (solve blocks m)) key_correction) in
                    w = vzero \/ DBL_EPS < dot w w) ->
  optimizeWrist solve p = Ok r ->
  nth_error (wp_base_to_camera_guess p) i = Some A -> nth_error (wp_base_to_camera_guess p) j = Some B ->
  nth_error (wr_base_to_camera r) i = Some A' -> nth_error (wr_base_to_camera r) j = Some B' ->
  iso_mul (iso_inv A') B' = iso_mul (iso_inv A) B.
Proof. exact wrist_relative_kept. Qed.
Print Assumptions C31_relative_poses_kept_partial.

(** For every solver outcome the relative poses change by no more than machine epsilon: each entry
    of the rotation by epsilon, the translation by epsilon times the distance of the cameras. *)
Theorem C31_relative_poses_nearly_kept_partial :
  forall solve p r i j A B A' B',
  optimizeWrist solve p = Ok r ->
  nth_error (wp_base_to_camera_guess p) i = Some A -> nth_error (wp_base_to_camera_guess p) j = Some B ->
  rigid A -> rigid B ->
  nth_error (wr_base_to_camera r) i = Some A' -> nth_error (wr_base_to_camera r) j = Some B' ->
  let X := iso_mul (iso_inv A') B' in let Y := iso_mul (iso_inv A) B in
  mat_close DBL_EPS (lin X) (lin Y) /\ norm (vsub (tr X) (tr Y)) <= DBL_EPS * norm (vsub (tr B) (tr A)).
Proof. exact wrist_relative_near. Qed.
Print Assumptions C31_relative_poses_nearly_kept_partial.

(** A solver that turns the cameras by one radian about x. *)
Example C31_applies : exists solve r,
  (forall blocks m, let w := pose_aa (read_pose (fst (solve blocks m)) key_correction) in
                    w = vzero \/ DBL_EPS < dot w w) /\
  optimizeWrist solve ex_wrist = Ok r /\ wr_base_to_camera r <> wp_base_to_camera_guess ex_wrist.
Proof. exact ex_wrist_turn. Qed.
