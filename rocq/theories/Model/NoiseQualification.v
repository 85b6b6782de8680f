(** Noise qualification: rct_optimizations/src/rct_optimizations/validation/noise_qualification.cpp ([nq]) *)
From Coq Require Import Reals Arith List.
From Verif.Base Require Import Geom Outcome Matrix.
From Verif.Model Require Import Pose Covariance Solver HandEye Pnp Accumulator IntrinsicValidation.
Import ListNotations.
Local Open Scope R_scope.

(** Eigen: Quaternion::coeffs(), stored x, y, z, w *)
Definition qcoeff (q : quat) (i : nat) : R := nth i [qx q; qy q; qz q; qw q] 0.
(** Eigen: Matrix4d *)
Definition mat4 := nat -> nat -> R.
(** Eigen: JacobiSVD(M, ComputeFullU).matrixU().col(0), as a quaternion's coeffs() *)
Definition svd_oracle := mat4 -> quat.

(** [nq]:29-34, the matrix M *)
Definition quaternion_matrix (quaterns : list quat) : mat4 :=
  fold_left (fun M q => fun i j => M i j + qcoeff q i * qcoeff q j) quaterns (fun _ _ => 0).

(** [nq]:14-48, computeQuaternionMean. The assertion is compiled out. *)
Definition computeQuaternionMean (svd : svd_oracle) (quaterns : list quat) : quat :=
  svd (quaternion_matrix quaterns).

(** noise_qualification.h, QuaternionStats, PositionStats, PnPNoiseStat *)
Record quaternion_stats := QS { qs_mean : quat; qs_stdev : R }.
Record position_stats := PS { ps_mean : vec3; ps_stdev : vec3 }.
Record noise_stat := NS { ns_p_stat : position_stats; ns_q_stat : quaternion_stats }.

(** [nq]:50-64, computeQuaternionStats. [quaternions.size() - 1] is unsigned: with no quaternions it
    is 2^64 - 1, with one it is zero and the division gives NaN or infinity, which reals cannot
    express: the outcome is UB. *)
Definition computeQuaternionStats (svd : svd_oracle) (quaternions : list quat) : res quaternion_stats :=
  let mean := computeQuaternionMean svd quaternions in
  let q_var := fold_left (fun v q => v + angular_distance mean q * angular_distance mean q) quaternions 0 in
  match List.length quaternions with
  | O => Ok (QS mean (sqrt (q_var / (2 ^ 64 - 1))))
  | S O => UB
  | S n => Ok (QS mean (sqrt (q_var / INR n)))
  end.

(** [nq]:85-103 / 131-149, the loop over the problems; [solve i p] is optimize on the i-th problem *)
Definition noise_loop {P} (optimize : nat -> P -> res pnp_result) (params : list P)
  : res (nat * accumulator * accumulator * accumulator * list quat) :=
  foldM (fun st prob =>
      let '(i, x_acc, y_acc, z_acc, orientations) := st in
      do result <- optimize i prob;
      let T := pnp_camera_to_target result in
      if pnp_converged result then
        Ok (S i, acc_push x_acc (vx (tr T)), acc_push y_acc (vy (tr T)), acc_push z_acc (vz (tr T)),
            (orientations ++ [quat_of_mat (lin T)])%list)
      else Ok (S i, x_acc, y_acc, z_acc, orientations))
    params (0%nat, acc_empty, acc_empty, acc_empty, []).

Definition qualify {P} (svd : svd_oracle) (optimize : nat -> P -> res pnp_result) (params : list P) : res noise_stat :=
  do st <- noise_loop optimize params;
  let '(_, x_acc, y_acc, z_acc, orientations) := st in
  do mx <- acc_mean x_acc;
  do my <- acc_mean y_acc;
  do mz <- acc_mean z_acc;
  do q_stat <- computeQuaternionStats svd orientations;
  Ok (NS (PS (V3 mx my mz) (V3 (sqrt (acc_variance x_acc)) (sqrt (acc_variance y_acc)) (sqrt (acc_variance z_acc)))) q_stat).

(** [nq]:66-110, qualifyNoise2D *)
Definition qualifyNoise2D (svd : svd_oracle) (runs : nat -> pnp_run) (params : list pnp_problem) : res noise_stat :=
  qualify svd (fun i p => optimizePnP (run_u (runs i)) (run_solve (runs i)) (run_cov (runs i)) p) params.
(** [nq]:112-156, qualifyNoise3D *)
Definition qualifyNoise3D (svd : svd_oracle) (runs : nat -> pnp_run) (params : list pnp_problem3D) : res noise_stat :=
  qualify svd (fun i p => optimizePnP3D (run_u (runs i)) (run_solve (runs i)) (run_cov (runs i)) p) params.
