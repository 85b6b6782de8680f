(** C68: the pose estimation tool. [cv] is cv::solvePnP: a flag, a rotation vector and a translation. *)
From Coq Require Import Reals Arith String List.
From Verif.Base Require Import Geom Outcome.
From Verif.Model Require Import Pose Covariance Solver HandEye Pnp ExampleTools CvTools.
From Verif.Spec Require Import PinHole ProjectionSpec ToolSpec.
From Verif.Proofs Require Import HandEyeProofs LoopProofs CvToolProofs SceneProofs ScenesProofs.
Import ListNotations.
Local Open Scope R_scope.

(** Both estimations are made from the same correspondences, those of the image. *)
Theorem C68_same_correspondences :
  forall image features (v : vision image features) cv u solve cov k img cvT r,
  solvePnpTool v cv u solve cov k img = Ok (cvT, r) ->
  exists cs, sees v img cs /\ solveCVPnP cv k cs = Ok cvT /\
    optimizePnP u solve cov (PnP2 k cs pnp_tool_guess "camera_to_target") = Ok r.
Proof. exact (fun image features => @pnp_tool image features). Qed.
Print Assumptions C68_same_correspondences.

(** OpenCV is given the target points, the image points and the camera matrix, which describes the same pin-hole camera;
    its rotation vector and translation are printed as the rotation about the vector by its length, and the translation. *)
Theorem C68_opencv_pose :
  forall cv k cs T, solveCVPnP cv k cs = Ok T <->
  exists flag w t, cv (map in_target cs) (map in_image cs) (camera_matrix k) = Ok (flag, (w, t)) /\
    T = Iso (aa_matrix (norm w) (normalized w)) t.
Proof. exact cv_pose. Qed.
Print Assumptions C68_opencv_pose.

Theorem C68_camera_matrix :
  forall k p, vz p <> 0 -> let q := mvec (camera_matrix k) p in pinhole k p = V2 (vx q / vz q) (vy q / vz q).
Proof. exact cv_matrix_sees. Qed.
Print Assumptions C68_camera_matrix.

Theorem C68_opencv_pose_rigid : forall cv k cs T, solveCVPnP cv k cs = Ok T -> rigid T.
Proof. exact cv_pose_rigid. Qed.
Print Assumptions C68_opencv_pose_rigid.

(** The estimation of this library starts 10 cm in front of the camera, the target turned over about the x axis. *)
Theorem C68_guess : forall p, iso_app pnp_tool_guess p = V3 (vx p) (- vy p) (1 / 10 - vz p).
Proof. exact pnp_guess_is. Qed.
Print Assumptions C68_guess.

(** An image without the target is reported. *)
Theorem C68_no_target :
  forall image features (v : vision image features) cv u solve cov k img f,
  find v img = Ok f -> none v f = true -> solvePnpTool v cv u solve cov k img = Throw RuntimeError.
Proof. exact (fun image features => @pnp_tool_nothing image features). Qed.
Print Assumptions C68_no_target.

Theorem C68_finder_throws :
  forall image features (v : vision image features) cv u solve cov k img e,
  find v img = Throw e -> solvePnpTool v cv u solve cov k img = Throw e.
Proof. exact (fun image features => @pnp_tool_throws image features). Qed.
Print Assumptions C68_finder_throws.

(** The property also says that no pose of OpenCV is printed if it found none. It is: the flag is ignored. *)
Theorem C68_opencv_failure_is_reported_refuted :
  forall cv k cs w t, cv (map in_target cs) (map in_image cs) (camera_matrix k) = Ok (false, (w, t)) ->
  solveCVPnP cv k cs = Ok (Iso (aa_matrix (norm w) (normalized w)) t).
Proof. exact cv_flag_ignored. Qed.
Print Assumptions C68_opencv_failure_is_reported_refuted.

Example C68_scene : forall u solve, exists r,
  solvePnpTool sc_vision (fun _ _ _ => Ok (true, (V3 0 0 0, V3 0 0 1))) u solve ex_cov_oracle sc_intr (Some iso_id) = Ok r.
Proof. exact sc_pnp. Qed.
