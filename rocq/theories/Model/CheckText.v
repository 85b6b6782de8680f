(** The ends of the check tools and their messages: rct_examples/src/tools/camera_intrinsic_calibration_validation.cpp [valid] and
    noise_qualification_2d.cpp [noise]. The messages about single images are in ImageText.v. *)
From Coq Require Import Reals Arith Ascii String List.
From Verif.Base Require Import Geom Outcome.
From Verif.Model Require Import Pose Pnp IntrinsicValidation NoiseQualification DataSet ExampleTools CovReport ParamText PrintText.
Import ListNotations.
Local Open Scope string_scope.

(** ROS_INFO_STREAM and ROS_WARN_STREAM *)
Inductive message := Info (text : string) | Warn (text : string).

(** [valid]:24-44, analyzeResults *)
Definition analyzeResults (result : accuracy_result) (pos_tol ang_tol : R) : list message :=
  let pos_error := (fst (ar_pos_error result) + 2 * snd (ar_pos_error result))%R in
  let ang_error := (fst (ar_ang_error result) + 2 * snd (ar_ang_error result))%R in
  [Info ("Positional Error:" ++ newline ++ "Mean (m): " ++ stream6 (fst (ar_pos_error result)) ++ newline ++
         "Std. Dev. (m): " ++ stream6 (snd (ar_pos_error result)));
   Info ("Angular Error:" ++ newline ++ "Mean (rad): " ++ stream6 (fst (ar_ang_error result)) ++ newline ++
         "Std. Dev. (rad): " ++ stream6 (snd (ar_ang_error result)));
   if within_tolerance result pos_tol ang_tol then Info "Camera intrinsic calibration is valid!"
   else Warn ("Camera intrinsic calibration is not within tolerance" ++ newline ++ "Position Error (m): " ++
          stream6 pos_error ++ " (" ++ stream6 pos_tol ++ " allowed)" ++ newline ++
          "Angular Error (rad): " ++ stream6 ang_error ++ " (" ++ stream6 ang_tol ++ " allowed)")].
(** [valid]:91-141, as validationTool in ExampleTools.v, with what is printed instead of the verdict *)
Definition validationMessages {image features} (v : vision image features) (runs : nat -> pnp_run * pnp_run)
  (intr : intrinsics) (target_mount_to_target camera_mount_to_camera : iso)
  (maybe_data_set : option (data_set image)) : res (list message) :=
  match maybe_data_set with
  | None => Throw RuntimeError
  | Some data =>
      do observations <- validationObservations v data;
      do result <- measureIntrinsicCalibrationAccuracy runs observations intr camera_mount_to_camera
                     target_mount_to_target iso_id 1;
      Ok (analyzeResults result (1 / 1000) (5 / 100 * PI / 180))
  end.

(** [noise]:57-100: from the loaded parameters on *)
Definition noiseTool {image features} (v : vision image features) (svd : svd_oracle) (runs : nat -> pnp_run) (read : string -> image)
  (camera : intrinsics) (camera_to_target_guess : iso) (names : list string) : res noise_stat :=
  do problem_set <- noiseProblems v read camera camera_to_target_guess names;
  qualifyNoise2D svd runs problem_set.
(** Eigen/src/Core/IO.h, print_matrix of a row with IOFormat(4, 0, ",", "\n", "[", "]") as in [noise]:103: four digits, all
    coefficients right-aligned in the width of the longest. *)
Definition format_list (cells : list string) : string :=
  let width := fold_left Nat.max (map String.length cells) 0%nat in
  "[" ++ String.concat "," (map (setw width) cells) ++ "]".
(** [noise]:103-108 *)
Definition noiseMessages (result : noise_stat) : list message :=
  let row3 x := format_list (map (streamed 4) [vx x; vy x; vz x]) in
  let p := ns_p_stat result in
  let q := ns_q_stat result in
  [Info "Camera to Target Noise Results";
   Info ("Position mean (m)" ++ newline ++ row3 (ps_mean p));
   Info ("Position standard deviation (m)" ++ newline ++ row3 (ps_stdev p));
   Info ("Quaternion mean (qx, qy, qz, qw)" ++ newline ++ format_list (map (streamed 4) [qx (qs_mean q); qy (qs_mean q); qz (qs_mean q); qw (qs_mean q)]));
   Info ("Quaternion standard deviation" ++ newline ++ stream6 (qs_stdev q))].
