(** The tools that also run OpenCV's own calibration: rct_examples/src/tools/intrinsic_calibration.cpp [intr] and
    solve_pnp.cpp [pnp]. Points and matrices of floats and doubles are real numbers: the rounding of coordinates to
    single precision ([intr]:34-38) is not modelled. *)
From Coq Require Import Reals Arith String List.
From Verif.Base Require Import Geom Outcome.
From Verif.Model Require Import Pose Covariance Solver HandEye BlockSolver Pnp Intrinsic IntrinsicValidation DataSet ExampleTools.
Import ListNotations.
Local Open Scope R_scope.

(** [intr]:44-49, [pnp]:27-33: an identity matrix of which four entries are set *)
Definition cvCameraMatrix (intr : intrinsics) : mat3 :=
  let m := I3 in
  let m := M3 (fx intr) (m01 m) (m02 m) (m10 m) (m11 m) (m12 m) (m20 m) (m21 m) (m22 m) in
  let m := M3 (m00 m) (m01 m) (m02 m) (m10 m) (fy intr) (m12 m) (m20 m) (m21 m) (m22 m) in
  let m := M3 (m00 m) (m01 m) (cx intr) (m10 m) (m11 m) (m12 m) (m20 m) (m21 m) (m22 m) in
  M3 (m00 m) (m01 m) (m02 m) (m10 m) (m11 m) (cy intr) (m20 m) (m21 m) (m22 m).

(** cv::calibrateCamera: object points, image points, image size and start matrix to the final matrix and the
    distortion coefficients *)
Definition calibrate_camera (size : Type) : Type := list (list vec3) -> list (list vec2) -> size -> mat3 -> res (mat3 * list R).
(** [intr]:22-71, opencvCameraCalibration: the printed numbers *)
Definition opencvCameraCalibration {size} (calibrateCamera : calibrate_camera size) (obs : list (list (correspondence vec2)))
  (image_size : size) (intr : intrinsics) : res (intrinsics * list R) :=
  let object_points := map (map in_target) obs in
  let image_points := map (map in_image) obs in
  do out <- calibrateCamera object_points image_points image_size (cvCameraMatrix intr);
  let '(camera_matrix, dist_coeffs) := out in
  let calibrated_intr := Intr (m00 camera_matrix) (m11 camera_matrix) (m02 camera_matrix) (m12 camera_matrix) in
  do d0 <- idx dist_coeffs 0;
  do d1 <- idx dist_coeffs 1;
  do d2 <- idx dist_coeffs 2;
  do d3 <- idx dist_coeffs 3;
  do d4 <- idx dist_coeffs 4;
  Ok (calibrated_intr, [d0; d1; d2; d3; d4]).

(** camera_intrinsic.h:17, the default label of the poses *)
Definition default_extr_label : string := "pose".
(** [intr]:92-163, the tool from the loaded data set on: OpenCV's numbers and the result. front() of an empty vector is
    undefined. *)
Definition intrinsicTool {image features size} (v : vision image features) (size_of : image -> size)
  (calibrateCamera : calibrate_camera size) (u : nat -> nat -> R) (psolve : pnp_solvers) (pcov : pnp_covs)
  (solve : block_solver) (cov : cov_oracle) (intr : intrinsics) (maybe_data_set : option (data_set image))
  : res ((intrinsics * list R) * intrinsic_result) :=
  match maybe_data_set with
  | None => Throw RuntimeError
  | Some data =>
      do image_observations <- intrinsicObservations v data;
      do front <- idx (ds_images data) 0;
      do cv <- opencvCameraCalibration calibrateCamera image_observations (size_of front) intr;
      do opt_result <- optimizeIntrinsic u psolve pcov solve cov (IP image_observations intr default_extr_label);
      Ok (cv, opt_result)
  end.

(** cv::solvePnP: the returned flag, the rotation vector and the translation. The two vectors are uninitialised
    before the call ([pnp]:48-49); if it fails they hold anything. *)
Definition cv_solve_pnp : Type := list vec3 -> list vec2 -> mat3 -> res (bool * (vec3 * vec3)).
(** [pnp]:25-60, solveCVPnP *)
Definition solveCVPnP (solvePnP : cv_solve_pnp) (intr : intrinsics) (correspondences : list (correspondence vec2)) : res iso :=
  let image_points := map in_image correspondences in
  let target_points := map in_target correspondences in
  do out <- solvePnP target_points image_points (cvCameraMatrix intr);
  let '(_, (rr, tvec)) := out in
  Ok (Iso (aa_matrix (norm rr) (normalized rr)) tvec).

(** [pnp]:106-107, the guess *)
Definition pnp_tool_guess : iso :=
  iso_mul (iso_mul iso_id (iso_trans (V3 0 0 (1 / 10)))) (Iso (aa_matrix PI unitX) vzero).
(** [pnp]:92-121, the tool from the loaded image on: OpenCV's pose and the result *)
Definition solvePnpTool {image features} (v : vision image features) (solvePnP : cv_solve_pnp) (u : nat -> nat -> R)
  (solve : solver pnp_vars) (cov : cov_oracle) (intr : intrinsics) (mat : image) : res (iso * pnp_result) :=
  do target_features <- findFeatures v mat;
  do _ <- show_features v mat target_features;
  do cs <- create v target_features;
  do cv <- solveCVPnP solvePnP intr cs;
  do correspondences <- create v target_features;
  do pnp_result <- optimizePnP u solve cov (PnP2 intr correspondences pnp_tool_guess default_pnp_label);
  Ok (cv, pnp_result).
