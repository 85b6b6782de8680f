(** Text of camera parameters, rct_common/include/rct_common/print_utils.h (pu.h), and of the kinematic calibration example,
    rct_examples/src/examples/kinematic_calibration.cpp [kx]. *)
From Coq Require Import Reals Arith Ascii String List.
From Verif.Base Require Import Geom Matrix.
From Verif.Model Require Import Pose Covariance CovReport Serialization Kinematic KinematicExample.
Import ListNotations.
Local Open Scope string_scope.

(** "\t" *)
Definition tab : string := String (ascii_of_nat 9) "".
(** n blanks *)
Fixpoint blanks (n : nat) : string := match n with 0 => "" | S m => String " "%char (blanks m) end.

Section Text.
  (** [stream]: a double written to a stream with its default format; [stream4]: with precision 4; [stream_opt]: the same as
      [stream], also for NaN and infinities *)
  Variables (stream stream4 to_string : R -> string) (stream_opt : option R -> string).
  Variable std_sort : (named_param -> named_param -> bool) -> list named_param -> list named_param.

  (** pu.h:31-36, getStringIntrinsics; the values are fx, fy, cx, cy (types.h:13-28) *)
  Definition getStringIntrinsics (values : intrinsics) : string :=
    "Intr:" ++ newline ++ "fx = " ++ stream (fx values) ++ tab ++ "fy = " ++ stream (fy values) ++ newline ++
    "cx = " ++ stream (cx values) ++ tab ++ "cy = " ++ stream (cy values).
  (** pu.h:38-45, getStringDistortion *)
  Definition getStringDistortion (v0 v1 v2 v3 v4 : R) : string :=
    "Distortions:" ++ newline ++ "k1 = " ++ stream v0 ++ tab ++ "k2 = " ++ stream v1 ++ tab ++ "p1 = " ++ stream v2 ++ tab ++
    "p2 = " ++ stream v3 ++ tab ++ "k3 = " ++ stream v4.
  (** pu.h:118-122, printCameraIntrinsics *)
  Definition printCameraIntrinsics (values : intrinsics) (description : string) : string :=
    description ++ ":" ++ newline ++ getStringIntrinsics values ++ newline.
  (** pu.h:124-128, printCameraDistortion *)
  Definition printCameraDistortion (v0 v1 v2 v3 v4 : R) (description : string) : string :=
    description ++ ":" ++ newline ++ getStringDistortion v0 v1 v2 v3 v4 ++ newline.

  (** Eigen/src/Core/IO.h, print_matrix with IOFormat(4, 0, "|", "\n", "|", "|") as in [kx]:108: all coefficients are written
      right-aligned in the width of the longest. *)
  Definition setw (width : nat) (s : string) : string := blanks (width - String.length s) ++ s.
  Definition format_width (m : matrix) : nat :=
    fold_left (fun w j => fold_left (fun w i => Nat.max w (String.length (stream4 (ent m i j)))) (seq 0 (rows m)) w)
      (seq 0 (cols m)) 0%nat.
  Definition format_row (m : matrix) (width i : nat) : string :=
    "|" ++ fold_left (fun s j => s ++ (if Nat.eqb j 0 then "" else "|") ++ setw width (stream4 (ent m i j))) (seq 0 (cols m)) "" ++ "|".
  Definition format (m : matrix) : string :=
    if Nat.eqb (rows m * cols m) 0 then ""
    else fold_left (fun s i => s ++ format_row m (format_width m) i ++ (if Nat.ltb i (rows m - 1) then newline else "")) (seq 0 (rows m)) "".

  (** Isometry3d::matrix() *)
  Definition matrix4 (T : iso) : matrix :=
    Mat 4 4 (fun i j =>
      match i, j with
      | 0%nat, 0%nat => m00 (lin T) | 0%nat, 1%nat => m01 (lin T) | 0%nat, 2%nat => m02 (lin T) | 0%nat, _ => vx (tr T)
      | 1%nat, 0%nat => m10 (lin T) | 1%nat, 1%nat => m11 (lin T) | 1%nat, 2%nat => m12 (lin T) | 1%nat, _ => vy (tr T)
      | 2%nat, 0%nat => m20 (lin T) | 2%nat, 1%nat => m21 (lin T) | 2%nat, 2%nat => m22 (lin T) | 2%nat, _ => vz (tr T)
      | _, 3%nat => 1%R | _, _ => 0%R
      end).
  (** a vector, transposed *)
  Definition row3 (v : vec3) : matrix := Mat 1 3 (fun _ j => match j with 0%nat => vx v | 1%nat => vy v | _ => vz v end).

  (** [kx]:106-125, printResults. rotation() is taken for the linear part. *)
  Definition printResults (result : kin_result) : string :=
    newline ++ "Calibration " ++ (if kr_converged result then "did" else "did not") ++ " converge" ++ newline ++
    "Initial cost per observation: " ++ stream (sqrt (kr_initial_cost_per_obs result)) ++ newline ++
    "Final cost per observation: " ++ stream (sqrt (kr_final_cost_per_obs result)) ++ newline ++
    newline ++ "Camera mount to camera" ++ newline ++ format (matrix4 (kr_camera_mount_to_camera result)) ++ newline ++
    "Euler ZYX: " ++ format (row3 (eulerAngles210 (lin (kr_camera_mount_to_camera result)))) ++ newline ++
    newline ++ "Target mount to target" ++ newline ++ format (matrix4 (kr_target_mount_to_target result)) ++ newline ++
    "Euler ZYX: " ++ format (row3 (eulerAngles210 (lin (kr_target_mount_to_target result)))) ++ newline ++
    newline ++ "DH parameter offsets" ++ newline ++ format (kr_target_chain_dh_offsets result) ++ newline ++
    printCorrelationCoeffAboveThreshold stream to_string std_sort (kr_covariance result) (5 / 10)%R ++
    newline.

  (** [kx]:134-140, Stats::print *)
  Definition stats_print (s : stats) : string :=
    "Position Difference Mean: " ++ stream (pos_mean s) ++ newline ++
    "Position Difference Std. Dev.: " ++ stream (pos_stdev s) ++ newline ++
    "Orientation Difference Mean: " ++ stream (rot_mean s) ++ newline ++
    "Orientation difference Std. Dev.: " ++ stream (rot_stdev s) ++ newline ++ newline.
  (** [kx]:142-150, the text of Stats::percentDiff; the percentages are computed by [percentDiff] in KinematicExample.v *)
  Definition percent_print (xs : list (option R)) : string :=
    match xs with
    | [a; b; c; d] =>
        "Position: " ++ stream_opt a ++ "%" ++ newline ++ "Position Std. Dev.: " ++ stream_opt b ++ "%" ++ newline ++
        "Orientation: " ++ stream_opt c ++ "%" ++ newline ++ "Orientation Std. Dev.: " ++ stream_opt d ++ "%" ++ newline ++ newline
    | _ => ""   (* not reached: there are four *)
    end.
  (** [kx]:259-295, everything that main prints when it reaches its end. [progress1] and [progress2] are what optimize
      prints in the two calls: the names of the parameters and the progress of Ceres. *)
  Definition example_print (progress1 progress2 : string) (r : kin_report) : string :=
    "Starting kinematic calibration optimization..." ++ newline ++
    progress1 ++ printResults (rp_optimal r) ++
    "DH calibration validation:" ++ newline ++ stats_print (rp_optimal_stats r) ++
    progress2 ++ printResults (rp_static r) ++
    "Calibration validation - static DH parameters:" ++ newline ++ stats_print (rp_static_stats r) ++
    "Percent improvement: calibration vs. nominal kinematic model" ++ newline ++ percent_print (rp_improvement r).
End Text.
