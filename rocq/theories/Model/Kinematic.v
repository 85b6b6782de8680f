(** Kinematic calibration:
    rct_optimizations/include/rct_optimizations/dh_chain_kinematic_calibration.h (cited as kc.h) and
    rct_optimizations/src/rct_optimizations/dh_chain_kinematic_calibration.cpp (kc.cpp) *)
From Coq Require Import Reals ZArith String List.
From Verif.Base Require Import Geom Outcome Matrix.
From Verif.Model Require Import Pose Covariance Solver HandEye DhChain LocalParam MaxLikelihood.
Import ListNotations.
Local Open Scope R_scope.

(** types.h:142-158, KinematicObservation *)
Record kin_observation (I : Type) := KObs {
  ko_camera_chain_joints : list R;
  ko_target_chain_joints : list R;
  ko_correspondence_set : list (correspondence I) }.
Arguments KObs {I}. Arguments ko_camera_chain_joints {I}. Arguments ko_target_chain_joints {I}.
Arguments ko_correspondence_set {I}.

(** types.h:175-190, KinematicMeasurement *)
Record kin_measurement := KMeas {
  km_camera_to_target : iso;
  km_camera_chain_joints : list R;
  km_target_chain_joints : list R }.

(** kc.h:17-35, createDHMask; the mask is a [rows] x 4 array of booleans *)
Definition createDHMask (rows : nat) (mask : nat -> nat -> bool) : list Z :=
  fold_left (fun out row =>
    fold_left (fun out col =>
      if mask row col then out ++ [Z.of_nat (rows * col + row)] else out)
    (seq 0 4) out)
  (seq 0 rows) [].

(** Memory holding the parameter blocks: address (key) and element index to value. *)
Definition memory := nat -> nat -> R.
Definition read3 (m : memory) (p : nat) : vec3 := V3 (m p 0%nat) (m p 1%nat) (m p 2%nat).
(** Eigen::Map<const Matrix<T, Dynamic, 4>>(p, rows, 4), column-major *)
Definition map_offsets (m : memory) (p n : nat) : matrix := Mat n 4 (fun i j => m p (j * n + i)%nat).

(** kc.cpp:12-23, createTransform(t, aa). In kc.h:150-164 the body is the same. *)
Definition createTransform (t aa : vec3) : iso :=
  let result := iso_mul iso_id (iso_trans t) in
  let aa_norm := norm aa in
  if Rlt_dec DBL_EPS aa_norm
  then iso_mul result (iso_rot (aa_matrix aa_norm (normalized aa)))
  else result.
(** kc.h:150-164, DualDHChainCost::createTransform(params, idx) *)
Definition createTransform_at (m : memory) (params : list nat) (i : nat) : res iso :=
  do t <- idx params i;
  do aa <- idx params (i + 1);
  Ok (createTransform (read3 m t) (read3 m aa)).

(** kc.h:166-185, constructParameters; arguments are the data() pointers *)
Definition constructParameters (p0 p1 p2 p3 p4 p5 p6 p7 : nat) : list nat :=
  [p0; p1; p2; p3; p4; p5; p6; p7].

(** kc.h:187-232, constructParameterLabels *)
Definition concat_labels (chain_labels : list (list string)) : res (list string) :=
  foldM (fun out c =>
    foldM (fun out label => do l <- at_ label c; Ok (out ++ [l])%list) chain_labels out)
  (seq 0 4) [].
Definition constructParameterLabels (parameters : list nat)
  (camera_chain_labels target_chain_labels : list (list string))
  (l2 l3 l4 l5 l6 l7 : list string) : res (amap (list string)) :=
  do cc <- concat_labels camera_chain_labels;
  do p0 <- idx parameters 0;
  let labels := insert_key p0 cc [] in
  do tc <- concat_labels target_chain_labels;
  do p1 <- idx parameters 1;
  let labels := insert_key p1 tc labels in
  do p2 <- idx parameters 2;
  let labels := insert_key p2 l2 labels in
  do p3 <- idx parameters 3;
  let labels := insert_key p3 l3 labels in
  do p4 <- idx parameters 4;
  let labels := insert_key p4 l4 labels in
  do p5 <- idx parameters 5;
  let labels := insert_key p5 l5 labels in
  do p6 <- idx parameters 6;
  let labels := insert_key p6 l6 labels in
  do p7 <- idx parameters 7;
  Ok (insert_key p7 l7 labels).

(** kc.h:234-243, constructParameterMasks *)
Definition constructParameterMasks (parameters : list nat) (masks : list (list Z)) : res (amap (list Z)) :=
  if negb (Nat.eqb (length parameters) (length masks)) then UB    (* assert *)
  else
    foldM (fun param_masks i =>
        do p <- idx parameters i;
        do m <- idx masks i;
        Ok (insert_key p m param_masks))
      (seq 0 (length parameters)) [].

(** kc.h:245-258, constructParameterNames *)
Definition block_names : list string :=
  ["Camera DH Parameters"; "Target DH Parameters";
   "Camera Mount to Camera Position Parameters"; "Camera Mount to Camera Orientation Parameters";
   "Target Mount to Target Position Parameters"; "Target Mount to Target Orientation Parameters";
   "Camera Chain Base to Target Chain Base Position Parameters";
   "Camera Chain Base to Target Chain Base Orientation Parameters"]%string.
Definition constructParameterNames (parameters : list nat) : res (amap string) :=
  foldM (fun names '(i, n) => do p <- idx parameters i; Ok (insert_key p n names))
    (combine (seq 0 8) block_names) [].

(** kc.h:285-323 and 354-392: steps 1 and 2 of the two cost functors, which are the same up to
    camera_to_target *)
Definition dual_camera_to_target (camera_chain target_chain : dh_chain)
  (camera_chain_joints target_chain_joints : list R) (m : memory) (parameters : list nat) : res iso :=
  do p0 <- idx parameters 0;
  let camera_chain_dh_offsets := map_offsets m p0 (dof camera_chain) in
  do p1 <- idx parameters 1;
  let target_chain_dh_offsets := map_offsets m p1 (dof target_chain) in
  let cm_to_c_idx := 2%nat in
  do camera_mount_to_camera <- createTransform_at m parameters cm_to_c_idx;
  let tm_to_t_idx := (cm_to_c_idx + 2)%nat in
  do target_mount_to_target <- createTransform_at m parameters tm_to_t_idx;
  let cb_to_tb_idx := (tm_to_t_idx + 2)%nat in
  do camera_base_to_target_base <- createTransform_at m parameters cb_to_tb_idx;
  do camera_chain_fk <- getFK camera_chain camera_chain_joints camera_chain_dh_offsets;
  let camera_base_to_camera := iso_mul camera_chain_fk camera_mount_to_camera in
  do target_chain_fk <- getFK target_chain target_chain_joints target_chain_dh_offsets;
  let camera_base_to_target :=
    iso_mul (iso_mul camera_base_to_target_base target_chain_fk) target_mount_to_target in
  Ok (iso_mul (iso_inv camera_base_to_camera) camera_base_to_target).

(** A residual block: reads the memory, may throw *)
Definition kin_residual := memory -> res (list R).

(** kc.h:268-339, DualDHChainCost2D3D *)
Definition dualCost2D3D (obs : vec2) (point_in_target : vec3) (intr : intrinsics)
  (camera_chain target_chain : dh_chain) (camera_chain_joints target_chain_joints : list R)
  (parameters : list nat) : kin_residual := fun m =>
  do camera_to_target <- dual_camera_to_target camera_chain target_chain camera_chain_joints
                           target_chain_joints m parameters;
  let target_in_camera := iso_app camera_to_target point_in_target in
  let target_in_image := projectPoint_eig intr target_in_camera in
  Ok [px target_in_image - px obs; py target_in_image - py obs].

(** kc.h:341-411, DualDHChainCostPose6D. Over the reals the angular distance is never NaN, so
    the first branch of line 403 is not taken. *)
Definition dualCostPose6D (measurement : kin_measurement) (camera_chain target_chain : dh_chain)
  (orientation_weight : R) (parameters : list nat) : kin_residual := fun m =>
  do camera_to_target <- dual_camera_to_target camera_chain target_chain
                           (km_camera_chain_joints measurement) (km_target_chain_joints measurement)
                           m parameters;
  let measured := km_camera_to_target measurement in
  let tform_error := iso_mul measured (iso_inv camera_to_target) in
  let rot_diff := angular_distance (quat_of_mat (lin measured)) (quat_of_mat (lin camera_to_target)) in
  Ok [vx (tr tform_error); vy (tr tform_error); vz (tr tform_error); orientation_weight * rot_diff].

(** kc.h:37-118, the members common to both problem types *)
Record kin_common := KC {
  kc_camera_chain : dh_chain;
  kc_target_chain : dh_chain;
  kc_camera_mount_to_camera_guess : iso;
  kc_target_mount_to_target_guess : iso;
  kc_camera_base_to_target_base_guess : iso;
  kc_mask : list (list Z);                  (* std::array of 8 vectors *)
  kc_camera_chain_offset_stdev : R;
  kc_target_chain_offset_stdev : R;
  kc_label_camera_mount_to_camera : string;
  kc_label_target_mount_to_target : string;
  kc_label_camera_base_to_target : string }.
Record kin_problem2D3D := KP2 {
  k2_observations : list (kin_observation vec2);
  k2_intr : intrinsics;
  k2_common : kin_common }.
Record kin_problemPose6D := KP6 {
  k6_observations : list kin_measurement;
  k6_common : kin_common }.

(** kc.h:120-133, KinematicCalibrationResult *)
Record kin_result := KR {
  kr_converged : bool;
  kr_initial_cost_per_obs : R;
  kr_final_cost_per_obs : R;
  kr_camera_mount_to_camera : iso;
  kr_target_mount_to_target : iso;
  kr_camera_base_to_target_base : iso;
  kr_camera_chain_dh_offsets : matrix;
  kr_target_chain_dh_offsets : matrix;
  kr_covariance : cov_result }.

(** kc.cpp:76-78: translation, and rotation as angle times axis. Transform::rotation() is taken
    to be the linear part (they coincide for rotations). *)
Definition guess_aa (g : iso) : vec3 := let aa := aa_of_mat (lin g) in vscale (aa_angle aa) (aa_axis aa).
Definition labels3 (prefix a b c : string) : list string :=
  [String.append prefix a; String.append prefix b; String.append prefix c].
(** kc.cpp:111-144: rows of the offset matrices and labels, with a placeholder for 0-DoF chains *)
Definition offset_rows (c : dh_chain) : nat := if Nat.eqb (dof c) 0 then 1%nat else dof c.
Definition chain_labels (c : dh_chain) (placeholder : string) : list (list string) :=
  if Nat.eqb (dof c) 0
  then [[String.append placeholder "_d"; String.append placeholder "_theta";
         String.append placeholder "_r"; String.append placeholder "_alpha"]]
  else chainParamLabels c.

(** Addresses of the eight local variables. *)
Definition kin_keys : list nat := [0; 1; 2; 3; 4; 5; 6; 7]%nat.
Definition kin_size (com : kin_common) (k : nat) : nat :=
  match k with
  | 0 => offset_rows (kc_camera_chain com) * 4
  | 1 => offset_rows (kc_target_chain com) * 4
  | _ => 3
  end%nat.
(** Initial values, kc.cpp:74-144 *)
Definition kin_memory0 (com : kin_common) : memory := fun k e =>
  let pick v := match e with 0 => vx v | 1 => vy v | _ => vz v end%nat in
  match k with
  | 0 | 1 => 0%R
  | 2 => pick (tr (kc_camera_mount_to_camera_guess com))
  | 3 => pick (guess_aa (kc_camera_mount_to_camera_guess com))
  | 4 => pick (tr (kc_target_mount_to_target_guess com))
  | 5 => pick (guess_aa (kc_target_mount_to_target_guess com))
  | 6 => pick (tr (kc_camera_base_to_target_base_guess com))
  | _ => pick (guess_aa (kc_camera_base_to_target_base_guess com))
  end%nat.

(** ceres::Solve on these residual blocks and block states *)
Definition kin_solver := list kin_residual -> problem -> memory -> memory * summary.

(** kc.cpp:38-70, printOptimizationLabels: the block names and labels it prints; an empty list is
    printed as "Constant" (kc.cpp:25-36) *)
Definition printOptimizationLabels (p : problem) (names : amap string) (labels : amap (list string))
  (masks : amap (list Z)) : res (list (string * list string)) :=
  mapM (fun '(b, _) =>
    do const <- IsParameterBlockConstant p b;
    do sub_label <-
      (if const then Ok []
       else
         do label <- match find_key b labels with Some l => Ok l | None => Throw OutOfRange end;
         do mask <- match find_key b masks with Some l => Ok l | None => Throw OutOfRange end;
         match mask with
         | [] => Ok label
         | _ =>
             foldM (fun sub j =>
               if in_mask mask j then Ok sub
               else do l <- at_ label j; Ok (sub ++ [l])%list)
             (seq 0 (length label)) []
         end);
    do name <- match find_key b names with Some n => Ok n | None => Throw OutOfRange end;
    Ok (name, sub_label))
  (p_blocks p).

(** kc.cpp:225-239 / 447-461 and 241-255 / 463-477: the prior on one chain's offsets *)
Definition chain_prior (p : problem) (c : dh_chain) (key : nat) (stdev : R) : res (list kin_residual) :=
  if Nat.eqb (dof c) 0 then Ok []
  else
    do const <- IsParameterBlockConstant p key;
    if (const : bool) then Ok []
    else
      do fn <- MaximumLikelihood (Mat (offset_rows c) 4 (fun _ _ => 0)) (Mat (offset_rows c) 4 (fun _ _ => stdev));
      Ok [fun m : memory => ml_residual fn (m key)].

(** kc.cpp:72-298 and 300-514, everything but the residual blocks of the observations. [blocks]
    gives these from the parameter pointers. A problem without residual blocks has no parameter
    blocks. An exception thrown by a cost functor while Ceres evaluates it in its worker threads
    is not caught anywhere: UB. *)
Definition kin_optimize (u : nat -> nat -> R) (solve : kin_solver) (cov : cov_oracle) (com : kin_common)
  (blocks : list nat -> list kin_residual) : res kin_result :=
  let camera_chain := kc_camera_chain com in
  let target_chain := kc_target_chain com in
  let parameters := constructParameters 0 1 2 3 4 5 6 7 in
  let lab1 := kc_label_camera_mount_to_camera com in
  let lab2 := kc_label_target_mount_to_target com in
  let lab3 := kc_label_camera_base_to_target com in
  do param_labels <- constructParameterLabels parameters
      (chain_labels camera_chain "camera_chain_placeholder") (chain_labels target_chain "target_chain_placeholder")
      (labels3 lab1 "_x" "_y" "_z") (labels3 lab1 "_rx" "_ry" "_rz")
      (labels3 lab2 "_x" "_y" "_z") (labels3 lab2 "_rx" "_ry" "_rz")
      (labels3 lab3 "_x" "_y" "_z") (labels3 lab3 "_rx" "_ry" "_rz");
  do param_masks <- constructParameterMasks parameters (kc_mask com);
  do param_names <- constructParameterNames parameters;
  let residuals := blocks parameters in
  let added := match residuals with [] => [] | _ => map (fun k => (k, kin_size com k)) kin_keys end in
  let p := Problem (map (fun k => (k, kin_size com k)) (co_order cov (keys added))) (fun _ => fresh_block) in
  do p <- (if Nat.eqb (dof camera_chain) 0 then SetParameterBlockConstant p 0 else Ok p);
  do p <- (if Nat.eqb (dof target_chain) 0 then SetParameterBlockConstant p 1 else Ok p);
  do p <- addSubsetParameterization p param_masks;
  do prior1 <- chain_prior p camera_chain 0 (kc_camera_chain_offset_stdev com);
  do prior2 <- chain_prior p target_chain 1 (kc_target_chain_offset_stdev com);
  let residuals := (residuals ++ prior1 ++ prior2)%list in
  do _ <- printOptimizationLabels p param_names param_labels param_masks;
  match mapM (fun f : kin_residual => f (kin_memory0 com)) residuals with
  | Ok values =>
      let '(m, summary) := solve residuals p (kin_memory0 com) in
      let n := INR (length (concat values)) in
      do c <- computeCovariance_names u (mk_cov_problem cov added) param_labels param_masks;
      Ok (KR (term_convergence summary) (initial_cost summary / n) (final_cost summary / n)
             (createTransform (read3 m 2) (read3 m 3))
             (createTransform (read3 m 4) (read3 m 5))
             (createTransform (read3 m 6) (read3 m 7))
             (if Nat.eqb (dof camera_chain) 0 then Mat (dof camera_chain) 4 (fun _ _ => 0)
              else map_offsets m 0 (offset_rows camera_chain))
             (if Nat.eqb (dof target_chain) 0 then Mat (dof target_chain) 4 (fun _ _ => 0)
              else map_offsets m 1 (offset_rows target_chain))
             c)
  | _ => UB
  end.

(** kc.cpp:72-298, optimize (2D-3D) *)
Definition kin_optimize2D3D (u : nat -> nat -> R) (solve : kin_solver) (cov : cov_oracle)
  (params : kin_problem2D3D) : res kin_result :=
  let com := k2_common params in
  kin_optimize u solve cov com (fun parameters =>
    fold_left (fun problem observation =>
      fold_left (fun problem correspondence =>
        (problem ++ [dualCost2D3D (in_image correspondence) (in_target correspondence) (k2_intr params)
                       (kc_camera_chain com) (kc_target_chain com)
                       (ko_camera_chain_joints observation) (ko_target_chain_joints observation)
                       parameters])%list)
      (ko_correspondence_set observation) problem)
    (k2_observations params) []).

(** kc.cpp:300-514, optimize (6-D poses) *)
Definition kin_optimizePose6D (u : nat -> nat -> R) (solve : kin_solver) (cov : cov_oracle)
  (params : kin_problemPose6D) (orientation_weight : R) : res kin_result :=
  let com := k6_common params in
  kin_optimize u solve cov com (fun parameters =>
    fold_left (fun problem observation =>
      (problem ++ [dualCostPose6D observation (kc_camera_chain com) (kc_target_chain com)
                     orientation_weight parameters])%list)
    (k6_observations params) []).
