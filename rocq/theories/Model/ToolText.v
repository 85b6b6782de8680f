(** What the tools write on std::cout when they reach their end. rct_examples/src/tools/: camera_on_wrist_extrinsic.cpp [wrist],
    static_camera_extrinsic.cpp [static], hand_eye_calibration_analysis.h [an], multi_static_camera_extrinsic.cpp [multi],
    multi_static_camera_multi_step_extrinsic.cpp [step], solve_multi_camera_pnp.cpp [mpnp], solve_pnp.cpp [pnp] and
    intrinsic_calibration.cpp [intr]; rct_examples/src/examples/camera_on_wrist.cpp [ex];
    rct_common/include/rct_common/print_utils.h (pu.h). The numbers are those that the models of the tools return. Messages of ROS
    and of OpenCV do not go to std::cout. *)
From Coq Require Import Reals Arith Ascii String List.
From Verif.Base Require Import Geom.
From Verif.Model Require Import Pose Covariance HandEye Pnp MultiCamera Intrinsic DataSet ExampleTools CameraTools CovReport ParamText Print PrintText.
Import ListNotations.
Local Open Scope string_scope.

(** pu.h:47, printNewLine *)
Definition printNewLine : list token := [Endl].
(** pu.h:49-71, printTitle with its default width *)
Definition printTitle80 (title : string) : list token := flat_map (fun l => [Text l; Endl]) (printTitle title 80).

Section Text.
  (** [to_string]: std::to_string of a double; [nan]: how NaN is written *)
  Variable to_string_f : R -> string.
  Variable nan : string.
  Variable std_sort : (named_param -> named_param -> bool) -> list named_param -> list named_param.

  Definition number_or_nan (r : option R) : token := match r with Some x => Number x | None => Text nan end.
  (** [an]:114-116; "\n" is written as an end of line *)
  Definition errors_tokens (e : error_stats) : list token :=
    [Text "3D reprojection error statistics:";
     Endl; Text tab; Text "Mean +/- Std. Dev. (m): "; Number (err_mean e); Text " +/- "; number_or_nan (err_stdev e);
     Endl; Text tab; Text "Min (m): "; Number (err_min e); Endl; Text tab; Text "Max (m): "; Number (err_max e); Endl].
  (** [an]:99-104 *)
  Definition differences_tokens (d : differences) : list token :=
    [Text "Difference in camera to target transform between extrinsic calibration and PnP optimization";
     Endl; Text "Position:"; Endl; Text tab; Text "Mean (m): "; Number (pos_mean d);
     Endl; Text tab; Text "Std. Dev. (m): "; Number (pos_stdev d);
     Endl; Text "Orientation:"; Endl; Text tab; Text "Mean (deg): "; Number (ori_mean_deg d);
     Endl; Text tab; Text "Std. Dev. (deg): "; Number (ori_stdev_deg d); Endl].
  (** [wrist]:153, [static]:147, [intr]:162 *)
  Definition correlation_tokens (r : cov_result) : list token :=
    [Text (printCorrelationCoeffAboveThreshold stream6 to_string_f std_sort r (5 / 10)%R); Endl].

  (** [wrist]:137-159 and [static]:131-153, which differ in the names *)
  Definition handEyeText (camera_parent camera_heading target_parent target_heading : string) (rep : hand_eye_report) : string :=
    let r := rep_result rep in
    tokens_text
      (printOptResults (he_converged r) (he_initial_cost_per_obs r) (he_final_cost_per_obs r) ++ printNewLine ++
       errors_tokens (rep_errors rep) ++ printNewLine ++
       printTransform (he_camera_mount_to_camera r) camera_parent "Camera" camera_heading ++ printNewLine ++
       printTransform (he_target_mount_to_target r) target_parent "Target" target_heading ++ printNewLine ++
       correlation_tokens (he_covariance r) ++
       differences_tokens (rep_differences rep))%list.
  Definition wristText : hand_eye_report -> string := handEyeText "Wrist" "WRIST TO CAMERA" "Base" "BASE TO TARGET".
  Definition staticText : hand_eye_report -> string := handEyeText "Base" "BASE TO CAMERA" "Wrist" "WRIST_TO_TARGET".
  (** [ex]:135-146, the example *)
  Definition exampleText (r : he_result) : string :=
    tokens_text
      (printOptResults (he_converged r) (he_initial_cost_per_obs r) (he_final_cost_per_obs r) ++ printNewLine ++
       printTransform (he_camera_mount_to_camera r) "Wrist" "Camera" "WRIST TO CAMERA" ++ printNewLine ++
       printTransform (he_target_mount_to_target r) "Base" "Target" "BASE TO TARGET" ++ printNewLine)%list.

  (** [intr]:140-162 and 60-70. [cv] are OpenCV's numbers; [failed] the images whose pose was not found, for which optimize writes
      a line (camera_intrinsic.cpp:205). *)
  Definition intrinsicText (cv : intrinsics * list R) (failed : list nat) (r : intrinsic_result) : string :=
    let distortion l := printCameraDistortion stream6 (nth 0 l 0%R) (nth 1 l 0%R) (nth 2 l 0%R) (nth 3 l 0%R) (nth 4 l 0%R) in
    tokens_text
      (printTitle80 "OpenCV Calibration" ++
       [Text (printCameraIntrinsics stream6 (fst cv) "OpenCV Intrinsics")] ++ printNewLine ++
       [Text (distortion (snd cv) "OpenCV Distortion")] ++ printNewLine ++
       flat_map (fun i => [Text "PnP failed for image "; Text (to_string i); Endl]) failed ++
       printTitle80 "Calibration Complete" ++
       printOptResults (ir_converged r) (ir_initial_cost_per_obs r) (ir_final_cost_per_obs r) ++ printNewLine ++
       [Text (printCameraIntrinsics stream6 (ir_intrinsics r) "RCT Intrinsics")] ++ printNewLine ++
       [Text (distortion (ir_distortions r) "RCT Distortion")] ++ printNewLine ++
       correlation_tokens (ir_covariance r))%list.
End Text.

(** [multi]:175, [step]:175 and 208 *)
Definition camera_name (c : nat) : string := "camera_" ++ to_string c.
Definition numbered {A} (l : list A) : list (nat * A) := combine (seq 0 (List.length l)) l.

(** [multi]:53-64, in reproject *)
Definition multiReprojectTokens {image} (r : reprojection image) : list token :=
  (printOptResults (mr_converged (rj_pnp r)) (mr_initial_cost_per_obs (rj_pnp r)) (mr_final_cost_per_obs (rj_pnp r)) ++ printNewLine ++
   printTransform (rj_camera_to_target r) "Camera 0" "Target" "CAMERA 0 TO TARGET" ++ printNewLine ++
   printTransform (rj_pnp_camera_to_target r) "Camera 0" "Target" "PNP" ++ printNewLine ++
   printTransformDiff (rj_camera_to_target r) (rj_pnp_camera_to_target r) "Camera 0" "Target" "PNP DIFF" ++ printNewLine)%list.
(** [multi]:165-227 *)
Definition multiText {image} (r : static_result) (printed : list (iso * iso)) (shown : list (nat * reprojection image)) : string :=
  tokens_text
    (printOptResults (sr_converged r) (sr_initial_cost_per_obs r) (sr_final_cost_per_obs r) ++ printNewLine ++
     printTransform (sr_wrist_to_target r) "Wrist" "Target" "WRIST TO TARGET" ++ printNewLine ++
     flat_map (fun x =>
       let '(c, (t, t0)) := x in
       printTransform t "Base" (" Camera (" ++ camera_name c ++ ")") ("BASE TO CAMERA (" ++ camera_name c ++ ")") ++ printNewLine ++
       printTransform t0 "Camera 0" (" Camera " ++ to_string c) ("CAMERA 0 TO CAMERA (" ++ camera_name c ++ ")") ++ printNewLine)
       (numbered printed) ++
     printTitle80 "REPROJECTION ERROR" ++
     flat_map (fun x => printTitle80 ("REPROJECT IMAGE " ++ to_string (fst x)) ++ multiReprojectTokens (snd x)) shown)%list.

(** [step]:53-61, in reproject *)
Definition stepReprojectTokens {image} (r : reprojection image) : list token :=
  (printOptResults (mr_converged (rj_pnp r)) (mr_initial_cost_per_obs (rj_pnp r)) (mr_final_cost_per_obs (rj_pnp r)) ++ printNewLine ++
   printTransform (rj_camera_to_target r) "Camera 0" "Target" "CAMERA 0 TO TARGET" ++ printNewLine ++
   printTransformDiff (rj_camera_to_target r) (rj_pnp_camera_to_target r) "Camera 0" "Target" "PNP" ++ printNewLine)%list.
(** [step]:172-184 and 205-217 *)
Definition stepCameraTokens (printed : list (iso * iso)) : list token :=
  flat_map (fun x =>
    let '(c, (t, t0)) := x in
    printTransform t "Base" ("Camera (" ++ camera_name c ++ ")") ("Base To Camera (" ++ camera_name c ++ ")") ++ printNewLine ++
    printTransform t0 "Camera 0" ("Camera (" ++ camera_name c ++ ")") ("Camera 0 to Camera " ++ to_string c) ++ printNewLine)%list
    (numbered printed).
(** [step]:164-243 *)
Definition stepText {image} (o : only_result) (printed : list (iso * iso)) (w : wrist_result) (printed' : list (iso * iso))
  (shown : list (reprojection image)) : string :=
  tokens_text
    (printTitle80 "Running calibration for only cameras" ++
     printOptResults (or_converged o) (or_initial_cost_per_obs o) (or_final_cost_per_obs o) ++ printNewLine ++
     stepCameraTokens printed ++
     printTitle80 "Running calibration for wrist only using camera only results" ++
     printOptResults (wr_converged w) (wr_initial_cost_per_obs w) (wr_final_cost_per_obs w) ++ printNewLine ++
     printTransform (wr_wrist_to_target w) "Wrist" "Target" "Wrist to Target" ++ printNewLine ++
     stepCameraTokens printed' ++
     printTitle80 "REPROJECTION ERROR" ++
     flat_map (fun x => printTitle80 ("REPROJECT IMAGE " ++ to_string (fst x)) ++ stepReprojectTokens (snd x)) (numbered shown))%list.

(** [mpnp]:55-67 in reproject, and 156-157. The first camera's pose of image i is printed as BASE TO TARGET; the tool has read it
    before it gets here, so that it exists. *)
Definition multiPnpText {image} (first : data_set image) (shown : list (nat * reprojection image)) : string :=
  tokens_text
    (flat_map (fun x =>
       let '(i, r) := x in
       let base_to_target := nth i (ds_tool_poses first) iso_id in
       printTitle80 ("REPROJECT IMAGE " ++ to_string i) ++
       printOptResults (mr_converged (rj_pnp r)) (mr_initial_cost_per_obs (rj_pnp r)) (mr_final_cost_per_obs (rj_pnp r)) ++ printNewLine ++
       printTransform base_to_target "Base" "Target" "BASE TO TARGET" ++ printNewLine ++
       printTransform (mr_base_to_target (rj_pnp r)) "Base" "Target" "PNP" ++ printNewLine ++
       printTransformDiff base_to_target (mr_base_to_target (rj_pnp r)) "Base" "Target" "PNP Diff" ++ printNewLine)%list shown).

(** [pnp]:35-36, 56-57 and 116-120 *)
Definition pnpText (intr : intrinsics) (cv : iso) (r : pnp_result) : string :=
  tokens_text
    ([Text (printCameraIntrinsics stream6 intr "Camera Intrinsics")] ++ printNewLine ++
     printTransform cv "Camera" "Target" "OpenCV solvePNP" ++ printNewLine ++
     printOptResults (pnp_converged r) (pnp_initial_cost_per_obs r) (pnp_final_cost_per_obs r) ++ printNewLine ++
     printTransform (pnp_camera_to_target r) "Camera" "Target" "RCT CAMERA TO TARGET" ++ printNewLine)%list.
