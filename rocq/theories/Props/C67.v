(** C67: the intrinsic calibration tool. [size_of] gives the size of an image, [cal] is cv::calibrateCamera. *)
From Coq Require Import Reals Arith String List.
From Verif.Base Require Import Geom Outcome.
From Verif.Model Require Import Pose Covariance HandEye BlockSolver Pnp Intrinsic DataSet ExampleTools CvTools.
From Verif.Spec Require Import ProjectionSpec ToolSpec.
From Verif.Proofs Require Import LoopProofs CvToolProofs SceneProofs ScenesProofs.
Import ListNotations.
Local Open Scope R_scope.

(** OpenCV and this library calibrate from the same correspondences, those of exactly the images that show the target, from
    the same guess; OpenCV gets the size of the first image, and its numbers are printed as fx, fy, cx, cy and the five
    distortion coefficients. *)
Theorem C67_same_correspondences :
  forall image features size (v : vision image features) (size_of : image -> size) cal u psolve pcov solve cov k images poses cv r,
  intrinsicTool v size_of cal u psolve pcov solve cov k (Some (DS images poses)) = Ok (cv, r) ->
  exists sel first rest K ds, chosen (sees v) images sel /\ images = first :: rest /\
    let obs := map snd sel in
    cal (map (map in_target) obs) (map (map in_image) obs) (size_of first) (camera_matrix k) = Ok (K, ds) /\
    (5 <= List.length ds)%nat /\ cv = (Intr (m00 K) (m11 K) (m02 K) (m12 K), firstn 5 ds) /\
    optimizeIntrinsic u psolve pcov solve cov (IP obs k "pose") = Ok r.
Proof. exact (fun image features size => @intrinsic_tool image features size). Qed.
Print Assumptions C67_same_correspondences.

(** Runtime errors while finding or pairing features skip the image. *)
Theorem C67_failures_are_skipped :
  forall image features (v : vision image features) images poses, (forall img, In img images -> tame v img) ->
  exists obs, intrinsicObservations v (DS images poses) = Ok obs.
Proof. exact (fun image features => @intrinsic_succeeds image features). Qed.
Print Assumptions C67_failures_are_skipped.

(** An exception of OpenCV ends the tool before the calibration of this library. *)
Theorem C67_opencv_exception_ends_the_tool :
  forall image features size (v : vision image features) (size_of : image -> size) cal u psolve pcov solve cov k images poses sel first rest e,
  images = first :: rest -> (forall img, In img images -> tame v img) -> chosen (sees v) images sel ->
  cal (map (map in_target) (map snd sel)) (map (map in_image) (map snd sel)) (size_of first) (camera_matrix k) = Throw e ->
  intrinsicTool v size_of cal u psolve pcov solve cov k (Some (DS images poses)) = Throw e.
Proof. exact (fun image features size => @intrinsic_tool_cv_throws image features size). Qed.
Print Assumptions C67_opencv_exception_ends_the_tool.

Theorem C67_no_data_set :
  forall image features size (v : vision image features) (size_of : image -> size) cal u psolve pcov solve cov k,
  intrinsicTool v size_of cal u psolve pcov solve cov k None = Throw RuntimeError.
Proof. exact (fun image features size => @intrinsic_tool_no_data image features size). Qed.
Print Assumptions C67_no_data_set.

(** The property also says that a data set that is no use is reported. A data set without images, which parsing returns if
    none of its files can be read, is not: the first image is used without a check. *)
Theorem C67_no_images_is_reported_refuted :
  forall image features size (v : vision image features) (size_of : image -> size) cal u psolve pcov solve cov k poses,
  intrinsicTool v size_of cal u psolve pcov solve cov k (Some (DS [] poses)) = UB.
Proof. exact (fun image features size => @intrinsic_tool_no_images image features size). Qed.
Print Assumptions C67_no_images_is_reported_refuted.

(** Nor are images none of which shows the target, should OpenCV not complain. *)
Theorem C67_no_target_is_reported_refuted :
  forall image features size (v : vision image features) (size_of : image -> size) cal u psolve pcov solve cov k images poses first rest K ds,
  images = first :: rest -> (forall img, In img images -> tame v img) ->
  (forall img cs, In img images -> ~ sees v img cs) -> cal [] [] (size_of first) (camera_matrix k) = Ok (K, ds) ->
  intrinsicTool v size_of cal u psolve pcov solve cov k (Some (DS images poses)) = UB.
Proof. exact (fun image features size => @intrinsic_tool_no_target image features size). Qed.
Print Assumptions C67_no_target_is_reported_refuted.

Example C67_scene : (forall img, In img (map fst sc_data) -> tame sc_vision img) /\
  chosen (sees sc_vision) (map fst sc_data) [(Some iso_id, sc_seen iso_id); (Some sc_move, sc_seen sc_move)].
Proof. exact sc_intrinsic. Qed.
