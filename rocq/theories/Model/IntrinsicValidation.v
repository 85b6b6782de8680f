(** Validation of camera intrinsics:
    rct_optimizations/src/rct_optimizations/validation/camera_intrinsic_calibration_validation.cpp ([iv]) *)
From Coq Require Import Reals Arith String List.
From Verif.Base Require Import Geom Outcome Matrix.
From Verif.Model Require Import Pose Covariance Solver HandEye Pnp Accumulator.
Import ListNotations.
Local Open Scope R_scope.

(** camera_intrinsic_calibration_validation.h, VirtualCorrespondenceResult *)
Record virtual_result := VR { vr_positional_error : R; vr_angular_error : R; vr_t1_to_t2 : iso }.
(** camera_intrinsic_calibration_validation.h, IntrinsicCalibrationAccuracyResult *)
Record accuracy_result := AR { ar_pos_error : R * R; ar_ang_error : R * R }.

(** What runs inside optimize(PnPProblem): uninitialised matrices, the solver, the covariance. *)
Record pnp_run := Run { run_u : nat -> nat -> R; run_solve : solver pnp_vars; run_cov : cov_oracle }.

(** pnp.h:16, the default of PnPProblem::label_camera_to_target_guess *)
Definition default_pnp_label : string := "camera_to_target".

(** [iv]:13-31, the lambda solve_pnp *)
Definition solve_pnp (run : pnp_run) (intr : intrinsics) (guess : iso) (threshold : R)
  (corr : list (correspondence vec2)) : res iso :=
  do result <- optimizePnP (run_u run) (run_solve run) (run_cov run) (PnP2 intr corr guess default_pnp_label);
  if orb (negb (pnp_converged result)) (if Rlt_dec threshold (pnp_final_cost_per_obs result) then true else false)
  then Throw RuntimeError
  else Ok (pnp_camera_to_target result).

(** [iv]:7-57, measureVirtualTargetDiff; one run for each of the two fits. [rotation()] is the
    linear part. *)
Definition measureVirtualTargetDiff (run_1 run_2 : pnp_run) (correspondences : list (correspondence vec2))
  (intr : intrinsics) (camera_to_target_guess : iso) (pnp_sq_error_threshold : R) : res virtual_result :=
  let half_size := (List.length correspondences / 2)%nat in
  let set_1 := firstn half_size correspondences in
  let set_2 := skipn half_size correspondences in
  do camera_to_target_1 <- solve_pnp run_1 intr camera_to_target_guess pnp_sq_error_threshold set_1;
  do camera_to_target_2 <- solve_pnp run_2 intr camera_to_target_guess pnp_sq_error_threshold set_2;
  let q1 := quat_of_mat (lin camera_to_target_1) in
  let q2 := quat_of_mat (lin camera_to_target_2) in
  let angular_error := angular_distance q1 q2 in
  let positional_error := norm (tr (iso_mul (iso_inv camera_to_target_1) camera_to_target_2)) in
  Ok (VR positional_error angular_error (iso_mul (iso_inv camera_to_target_1) camera_to_target_2)).

(** [iv]:69-81, the size check. For an empty set [observations.size() - 1] wraps around and the
    loop reads [observations[0]], which is undefined behaviour. *)
Definition check_sizes (observations : list (observation vec2)) : res unit :=
  match observations with
  | [] => UB
  | _ =>
    foldM (fun _ i =>
        do obs_1 <- idx observations i;
        do obs_2 <- idx observations (i + 1);
        if Nat.eqb (List.length (correspondence_set obs_1)) (List.length (correspondence_set obs_2))
        then Ok tt else Throw OptimizationException)
      (seq 0 (List.length observations - 1)) tt
  end.

(** [iv]:59-115, measureIntrinsicCalibrationAccuracy; [runs i] are the two runs of the i-th observation *)
Definition measureIntrinsicCalibrationAccuracy (runs : nat -> pnp_run * pnp_run)
  (observations : list (observation vec2)) (intr : intrinsics)
  (camera_mount_to_camera target_mount_to_target camera_base_to_target_base : iso)
  (pnp_sq_error_threshold : R) : res accuracy_result :=
  do _ <- check_sizes observations;
  do accs <- foldM (fun st obs =>
      let '(i, pos_acc, ang_acc) := st in
      let camera_base_to_camera := iso_mul (to_camera_mount obs) camera_mount_to_camera in
      let camera_base_to_target :=
        iso_mul (iso_mul camera_base_to_target_base (to_target_mount obs)) target_mount_to_target in
      let camera_to_target := iso_mul (iso_inv camera_base_to_camera) camera_base_to_target in
      do res <- measureVirtualTargetDiff (fst (runs i)) (snd (runs i)) (correspondence_set obs) intr camera_to_target
                  pnp_sq_error_threshold;
      Ok (S i, acc_push pos_acc (vr_positional_error res), acc_push ang_acc (vr_angular_error res)))
    observations (0%nat, acc_empty, acc_empty);
  let '(_, pos_acc, ang_acc) := accs in
  do pos_mean <- acc_mean pos_acc;
  do ang_mean <- acc_mean ang_acc;
  Ok (AR (pos_mean, sqrt (acc_variance pos_acc)) (ang_mean, sqrt (acc_variance ang_acc))).
