(** Camera intrinsic calibration: rct_optimizations/src/rct_optimizations/camera_intrinsic.cpp and
    rct_optimizations/include/rct_optimizations/experimental/camera_intrinsic.h *)
From Coq Require Import Reals Arith String List.
From Verif.Base Require Import Geom Outcome Matrix.
From Verif.Model Require Import Pose Covariance Solver HandEye BlockSolver Pnp.
Import ListNotations.
Local Open Scope R_scope.

(** camera_intrinsic.cpp:65-111, projectPoints2. [camera_intr] is the array of nine values; the
    accessors of CalibCameraIntrinsics (lines 19-28) are inlined as the indices they read. *)
Definition projectPoints2 (camera_intr : nat -> R) (pt_in_camera : vec3) : vec2 :=
  let xp1 := vx pt_in_camera in
  let yp1 := vy pt_in_camera in
  let zp1 := vz pt_in_camera in
  let fx := camera_intr 0%nat in
  let fy := camera_intr 1%nat in
  let cx := camera_intr 2%nat in
  let cy := camera_intr 3%nat in
  let k1 := camera_intr 4%nat in
  let k2 := camera_intr 5%nat in
  let p1 := camera_intr 6%nat in
  let p2 := camera_intr 7%nat in
  let k3 := camera_intr 8%nat in
  let '(xp, yp) := if Req_EM_T zp1 0 then (xp1, yp1) else (xp1 / zp1, yp1 / zp1) in
  let xp2 := xp * xp in
  let yp2 := yp * yp in
  let r2 := xp2 + yp2 in
  let r4 := r2 * r2 in
  let r6 := r2 * r4 in
  let xpp := xp + k1 * r2 * xp + k2 * r4 * xp + k3 * r6 * xp + p2 * (r2 + 2 * xp2) + p1 * xp * yp * 2 in
  let ypp := yp + k1 * r2 * yp + k2 * r4 * yp + k3 * r6 * yp + p1 * (r2 + 2 * yp2) + p2 * xp * yp * 2 in
  V2 (fx * xpp + cx) (fy * ypp + cy).

(** camera_intrinsic.cpp:140-162, IntrinsicCostFunction::operator(), evaluated on doubles *)
Definition intrinsic_cost (in_target_ : vec3) (in_image_ : vec2) (target_pose : pose6) (camera_intr : nat -> R) : list R :=
  let camera_point := transformPoint (pose_aa target_pose) (pose_pos target_pose) in_target_ in
  let xy_image := projectPoints2 camera_intr camera_point in
  [px xy_image - px in_image_; py xy_image - py in_image_].

(** camera_intrinsic.h:10-22. use_extrinsic_guesses and extrinsic_guesses are left out: nothing reads them. *)
Record intrinsic_problem := IP {
  ip_image_observations : list (list (correspondence vec2));
  ip_intrinsics_guess : intrinsics;
  ip_label_extr : string }.
Definition labels_intrinsic_params : list string := ["fx"; "fy"; "cx"; "cy"; "k1"; "k2"; "p1"; "p2"; "k3"]%string.
Definition ip_labels_isometry3d : list string := ["x"; "y"; "z"; "rx"; "ry"; "rz"]%string.
(** camera_intrinsic.h:24-36. target_transforms is never written and stays empty. *)
Record intrinsic_result := IR {
  ir_converged : bool;
  ir_initial_cost_per_obs : R;
  ir_final_cost_per_obs : R;
  ir_intrinsics : intrinsics;
  ir_distortions : list R;
  ir_target_transforms : list iso;
  ir_covariance : cov_result }.

(** camera_intrinsic.cpp:171-175, guessInitialPose *)
Definition guessInitialPose : pose6 :=
  poseEigenToCal (iso_mul (iso_trans (V3 0 0 (1 / 2))) (iso_rot (aa_matrix PI unitX))).

(** camera_intrinsic.cpp:113-130, solvePnP; the label is PnPProblem's default (pnp.h:16). *)
Definition solvePnP (u : nat -> nat -> R) (solve : solver pnp_vars) (cov : cov_oracle)
  (intr : intrinsics) (obs : list (correspondence vec2)) (guess : pose6) : res pose6 :=
  do result <- optimizePnP u solve cov (PnP2 intr obs (poseCalToEigen guess) "camera_to_target");
  if negb (pnp_converged result) then Throw RuntimeError
  else Ok (poseEigenToCal (pnp_camera_to_target result)).

(** Solver and covariance used for the PnP of each image: they may behave differently each time. *)
Definition pnp_solvers := nat -> solver pnp_vars.
Definition pnp_covs := nat -> cov_oracle.

(** camera_intrinsic.cpp:192-208: internal_poses, starting as zeros (types.h:38), and valid_idx.
    Every exception PnP throws derives from std::exception, so each one is caught (line 203). *)
Definition initial_poses (u : nat -> nat -> R) (psolve : pnp_solvers) (pcov : pnp_covs)
  (p : intrinsic_problem) : res ((nat -> pose6) * list nat) :=
  foldM (fun st i =>
      let '(internal_poses, valid_idx) := st in
      do obs <- idx (ip_image_observations p) i;
      match solvePnP u (psolve i) (pcov i) (ip_intrinsics_guess p) obs guessInitialPose with
      | Ok pose => Ok (fun j => if Nat.eqb j i then pose else internal_poses j, (valid_idx ++ [i])%list)
      | Throw _ => Ok (internal_poses, valid_idx)
      | UB => UB
      end)
    (seq 0 (List.length (ip_image_observations p))) (fun _ => zero_pose, []).

(** Keys: internal_poses[i] is block i, internal_intrinsics_data the block after the poses. *)
Definition intrinsics_key (p : intrinsic_problem) : nat := List.length (ip_image_observations p).
Definition intrinsic_sizes (p : intrinsic_problem) (k : nat) : nat := if Nat.eqb k (intrinsics_key p) then 9 else 6.

(** camera_intrinsic.cpp:212-229, the residual blocks *)
Definition intrinsic_blocks (p : intrinsic_problem) (valid_idx : list nat) : res (list rblock) :=
  foldM (fun problem i =>
      do obs <- idx (ip_image_observations p) i;
      Ok (fold_left (fun problem corr =>
            (problem ++ [RB [i; intrinsics_key p] (fun m =>
                intrinsic_cost (in_target corr) (in_image corr) (read_pose m i) (m (intrinsics_key p)))])%list)
          obs problem))
    valid_idx [].

(** camera_intrinsic.cpp:181-189 and the poses of lines 192-208, the initial values *)
Definition intrinsic_start (p : intrinsic_problem) (internal_poses : nat -> pose6) : mem := fun k j =>
  if Nat.eqb k (intrinsics_key p) then
    match j with
    | 0%nat => fx (ip_intrinsics_guess p)
    | 1%nat => fy (ip_intrinsics_guess p)
    | 2%nat => cx (ip_intrinsics_guess p)
    | 3%nat => cy (ip_intrinsics_guess p)
    | _ => 0
    end
  else pose_elem (internal_poses k) j.

(** camera_intrinsic.cpp:231-248, blocks and labels for the covariance *)
Definition intrinsic_param_blocks (p : intrinsic_problem) : list nat :=
  intrinsics_key p :: seq 0 (List.length (ip_image_observations p)).
Definition intrinsic_param_labels (p : intrinsic_problem) : amap (list string) :=
  fold_left (fun labels i =>
      insert_key i (map (fun l => String.append (ip_label_extr p) (String.append (to_string i) (String.append "_" l)))
                        ip_labels_isometry3d) labels)
    (seq 0 (List.length (ip_image_observations p)))
    (insert_key (intrinsics_key p) labels_intrinsic_params []).

(** camera_intrinsic.cpp:177-277, optimize *)
Definition optimizeIntrinsic (u : nat -> nat -> R) (psolve : pnp_solvers) (pcov : pnp_covs)
  (solve : block_solver) (cov : cov_oracle) (p : intrinsic_problem) : res intrinsic_result :=
  do st <- initial_poses u psolve pcov p;
  let '(internal_poses, valid_idx) := st in
  do problem <- intrinsic_blocks p valid_idx;
  let m0 := intrinsic_start p internal_poses in
  let '(m, summary) := solve problem m0 in
  let n := INR (num_block_residuals problem m0) in
  let internal_intrinsics_data := m (intrinsics_key p) in
  do c <- computeCovariance u (mk_cov_problem cov (added_blocks (intrinsic_sizes p) problem))
            (intrinsic_param_blocks p) (intrinsic_param_labels p) [];
  Ok (IR (term_convergence summary) (initial_cost summary / n) (final_cost summary / n)
         (Intr (internal_intrinsics_data 0%nat) (internal_intrinsics_data 1%nat)
               (internal_intrinsics_data 2%nat) (internal_intrinsics_data 3%nat))
         [internal_intrinsics_data 4%nat; internal_intrinsics_data 5%nat; internal_intrinsics_data 6%nat;
          internal_intrinsics_data 7%nat; internal_intrinsics_data 8%nat]
         [] c).
