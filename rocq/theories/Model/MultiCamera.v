(** Calibrations with several static cameras:
    rct_optimizations/src/rct_optimizations/extrinsic_multi_static_camera.cpp [static],
    extrinsic_multi_static_camera_only.cpp [only],
    extrinsic_multi_static_camera_wrist_only.cpp [wrist],
    multi_camera_pnp.cpp [mpnp], and the headers of the same names.
    The asserts on vector sizes are taken as compiled out (NDEBUG); operator[] outside a vector is UB. *)
From Coq Require Import Reals Arith String List.
From Verif.Base Require Import Geom Outcome Matrix.
From Verif.Model Require Import Pose Covariance Solver HandEye BlockSolver.
Import ListNotations.
Local Open Scope R_scope.

(** residual[0..1] = xy_image - obs, common end of every operator() below *)
Definition image_residual (intr : intrinsics) (camera_point : vec3) (obs_ : vec2) : list R :=
  let xy_image := projectPoint_arr intr camera_point in
  [px xy_image - px obs_; py xy_image - py obs_].

(** [static]:14-63, ReprojectionCost; the member wrist_pose_ is set at line 21 *)
Definition static_cost (obs_ : vec2) (intr_ : intrinsics) (base_to_wrist : iso) (target_pt_ : vec3)
  (pose_camera_to_base pose_wrist_to_target : pose6) : list R :=
  let wrist_pose_ := poseEigenToCal base_to_wrist in
  let link_point := transformPoint (pose_aa pose_wrist_to_target) (pose_pos pose_wrist_to_target) target_pt_ in
  let world_point := poseTransformPoint wrist_pose_ link_point in
  let camera_point := transformPoint (pose_aa pose_camera_to_base) (pose_pos pose_camera_to_base) world_point in
  image_residual intr_ camera_point obs_.

(** [only]:13-58, ReprojectionFreeCameraCost *)
Definition free_camera_cost (obs_ : vec2) (intr_ : intrinsics) (target_pt_ : vec3)
  (pose_camera_to_base pose_base_to_target : pose6) : list R :=
  let world_point := transformPoint (pose_aa pose_base_to_target) (pose_pos pose_base_to_target) target_pt_ in
  let camera_point := transformPoint (pose_aa pose_camera_to_base) (pose_pos pose_camera_to_base) world_point in
  image_residual intr_ camera_point obs_.

(** [only]:60-104, ReprojectionFixedCameraCost *)
Definition fixed_camera_cost (obs_ : vec2) (intr_ : intrinsics) (base_to_camera : iso) (target_pt_ : vec3)
  (pose_base_to_target : pose6) : list R :=
  let camera_to_base_ := poseEigenToCal (iso_inv base_to_camera) in
  let world_point := transformPoint (pose_aa pose_base_to_target) (pose_pos pose_base_to_target) target_pt_ in
  let camera_point := poseTransformPoint camera_to_base_ world_point in
  image_residual intr_ camera_point obs_.

(** [wrist]:13-70, ReprojectionCost *)
Definition wrist_cost (obs_ : vec2) (intr_ : intrinsics) (base_to_wrist base_to_camera : iso) (target_pt_ : vec3)
  (pose_camera_to_base_correction pose_wrist_to_target : pose6) : list R :=
  let wrist_pose_ := poseEigenToCal base_to_wrist in
  let camera_to_base_orig_ := poseEigenToCal (iso_inv base_to_camera) in
  let link_point := transformPoint (pose_aa pose_wrist_to_target) (pose_pos pose_wrist_to_target) target_pt_ in
  let world_point := poseTransformPoint wrist_pose_ link_point in
  let camera_point_orig := transformPoint (pose_aa pose_camera_to_base_correction)
                             (pose_pos pose_camera_to_base_correction) world_point in
  let camera_point := poseTransformPoint camera_to_base_orig_ camera_point_orig in
  image_residual intr_ camera_point obs_.

(** [mpnp]:12-56, ReprojectionCost *)
Definition mpnp_cost (obs_ : vec2) (intr_ : intrinsics) (camera_to_base : iso) (target_pt_ : vec3)
  (pose_base_to_target : pose6) : list R :=
  let camera_to_base_pose_ := poseEigenToCal camera_to_base in
  let world_point := transformPoint (pose_aa pose_base_to_target) (pose_pos pose_base_to_target) target_pt_ in
  let camera_point := poseTransformPoint camera_to_base_pose_ world_point in
  image_residual intr_ camera_point obs_.

(** ** Multi-static-camera calibration *)
(** extrinsic_multi_static_camera.h, ExtrinsicMultiStaticCameraMovingTargetProblem *)
Record static_problem := SP {
  sp_intr : list intrinsics;
  sp_wrist_poses : list (list iso);
  sp_image_observations : list (list (list (correspondence vec2)));
  sp_wrist_to_target_guess : iso;
  sp_base_to_camera_guess : list iso;
  sp_label_wrist_to_target : string;
  sp_label_base_to_camera : string }.
Definition labels_isometry : list string := ["x"; "y"; "z"; "rx"; "ry"; "rz"]%string.
(** ExtrinsicMultiStaticCameraMovingTargetResult *)
Record static_result := SR {
  sr_converged : bool;
  sr_initial_cost_per_obs : R;
  sr_final_cost_per_obs : R;
  sr_wrist_to_target : iso;
  sr_base_to_camera : list iso;
  sr_covariance : cov_result }.

(** Keys: internal_camera_to_base[c] is block c, internal_wrist_to_target the block after the cameras. *)
Definition static_wrist_key (p : static_problem) : nat := List.length (sp_base_to_camera_guess p).

(** [static]:77-102, the residual blocks *)
Definition static_blocks (p : static_problem) : res (list rblock) :=
  foldM (fun problem c =>
      do wrist_poses_c <- idx (sp_wrist_poses p) c;
      foldM (fun problem i =>
          do observations_c <- idx (sp_image_observations p) c;
          do observations_c_i <- idx observations_c i;
          foldM (fun problem corr =>
              do intr <- idx (sp_intr p) c;
              do wrist_to_base <- idx wrist_poses_c i;
              Ok (problem ++ [RB [c; static_wrist_key p] (fun m =>
                    static_cost (in_image corr) intr wrist_to_base (in_target corr)
                                (read_pose m c) (read_pose m (static_wrist_key p)))])%list)
            observations_c_i problem)
        (seq 0 (List.length wrist_poses_c)) problem)
    (seq 0 (List.length (sp_base_to_camera_guess p))) [].

(** [static]:70-80, the initial values *)
Definition static_start (p : static_problem) : mem := fun k i =>
  if Nat.eqb k (static_wrist_key p) then pose_elem (poseEigenToCal (sp_wrist_to_target_guess p)) i
  else match nth_error (sp_base_to_camera_guess p) k with
       | Some T => pose_elem (poseEigenToCal (iso_inv T)) i
       | None => 0
       end.

(** [static]:120-148, the blocks and labels for the covariance *)
Definition static_labels (p : static_problem) : amap (list string) :=
  insert_key (static_wrist_key p)
    (map (fun l => String.append (sp_label_wrist_to_target p) (String.append "_" l)) labels_isometry)
    (fold_left (fun labels c =>
        insert_key c (map (fun l => String.append (sp_label_base_to_camera p)
                                      (String.append (to_string c) (String.append "_" l))) labels_isometry) labels)
       (seq 0 (List.length (sp_base_to_camera_guess p))) []).

(** [static]:67-153, optimize *)
Definition optimizeStatic (u : nat -> nat -> R) (solve : block_solver) (cov : cov_oracle)
  (p : static_problem) : res static_result :=
  do blocks <- static_blocks p;
  let m0 := static_start p in
  let '(m, summary) := solve blocks m0 in
  let n := INR (num_block_residuals blocks m0) in
  let cameras := seq 0 (List.length (sp_base_to_camera_guess p)) in
  do c <- computeCovariance u (mk_cov_problem cov (added_blocks (fun _ => 6%nat) blocks))
            (cameras ++ [static_wrist_key p])%list (static_labels p) [];
  Ok (SR (term_convergence summary) (initial_cost summary / n) (final_cost summary / n)
         (poseCalToEigen (read_pose m (static_wrist_key p)))
         (map (fun i => iso_inv (poseCalToEigen (read_pose m i))) cameras) c).

(** ** Camera-only calibration *)
(** extrinsic_multi_static_camera_only.h, ExtrinsicMultiStaticCameraOnlyProblem *)
Record only_problem := OP {
  op_fix_first_camera : bool;
  op_intr : list intrinsics;
  op_image_observations : list (list (list (correspondence vec2)));
  op_base_to_target_guess : list iso;
  op_base_to_camera_guess : list iso }.
(** ExtrinsicMultiStaticCameraOnlyResult *)
Record only_result := OR {
  or_converged : bool;
  or_initial_cost_per_obs : R;
  or_final_cost_per_obs : R;
  or_base_to_target : list iso;
  or_base_to_camera : list iso }.

(** Keys: internal_camera_to_base[c] is block c, internal_base_to_target[i] the i-th block after the cameras. *)
Definition only_target_key (p : only_problem) (i : nat) : nat := (List.length (op_base_to_camera_guess p) + i)%nat.

(** [only]:118-156, the residual blocks *)
Definition only_blocks (p : only_problem) : res (list rblock) :=
  foldM (fun problem i =>
      foldM (fun problem c =>
          do observations_c <- idx (op_image_observations p) c;
          do observations_c_i <- idx observations_c i;
          foldM (fun problem corr =>
              do intr <- idx (op_intr p) c;
              do base_to_camera <- idx (op_base_to_camera_guess p) c;
              Ok (problem ++ [
                if andb (op_fix_first_camera p) (Nat.eqb c 0)
                then RB [only_target_key p i] (fun m =>
                       fixed_camera_cost (in_image corr) intr base_to_camera (in_target corr)
                         (read_pose m (only_target_key p i)))
                else RB [c; only_target_key p i] (fun m =>
                       free_camera_cost (in_image corr) intr (in_target corr)
                         (read_pose m c) (read_pose m (only_target_key p i)))])%list)
            observations_c_i problem)
        (seq 0 (List.length (op_base_to_camera_guess p))) problem)
    (seq 0 (List.length (op_base_to_target_guess p))) [].

(** [only]:111-125, the initial values. The cameras are initialised inside the loop over the images
    (line 124), so without images they keep the zeros of the default constructor (line 113). *)
Definition only_start (p : only_problem) : mem := fun k i =>
  match nth_error (op_base_to_camera_guess p) k with
  | Some T =>
      match op_base_to_target_guess p with
      | [] => pose_elem zero_pose i
      | _ => pose_elem (poseEigenToCal (iso_inv T)) i
      end
  | None =>
      match nth_error (op_base_to_target_guess p) (k - List.length (op_base_to_camera_guess p)) with
      | Some T => pose_elem (poseEigenToCal T) i
      | None => 0
      end
  end.

(** [only]:108-178, optimize *)
Definition optimizeOnly (solve : block_solver) (p : only_problem) : res only_result :=
  do blocks <- only_blocks p;
  let m0 := only_start p in
  let '(m, summary) := solve blocks m0 in
  let n := INR (num_block_residuals blocks m0) in
  Ok (OR (term_convergence summary) (initial_cost summary / n) (final_cost summary / n)
         (map (fun i => poseCalToEigen (read_pose m (only_target_key p i)))
              (seq 0 (List.length (op_base_to_target_guess p))))
         (map (fun c => iso_inv (poseCalToEigen (read_pose m c)))
              (seq 0 (List.length (op_base_to_camera_guess p))))).

(** ** Wrist-only calibration *)
(** extrinsic_multi_static_camera_wrist_only.h, ExtrinsicMultiStaticCameraMovingTargetWristOnlyProblem *)
Record wrist_problem := WP {
  wp_intr : list intrinsics;
  wp_wrist_poses : list iso;
  wp_image_observations : list (list (list (correspondence vec2)));
  wp_wrist_to_target_guess : iso;
  wp_base_to_camera_guess : list iso }.
(** ExtrinsicMultiStaticCameraMovingTargetWristOnlyResult *)
Record wrist_result := WR {
  wr_converged : bool;
  wr_initial_cost_per_obs : R;
  wr_final_cost_per_obs : R;
  wr_wrist_to_target : iso;
  wr_base_to_camera : list iso }.

(** Keys of internal_camera_to_base_correction and internal_wrist_to_target. *)
Definition key_correction : nat := 0.
Definition key_wrist_target : nat := 1.

(** [wrist]:83-108, the residual blocks *)
Definition wrist_blocks (p : wrist_problem) : res (list rblock) :=
  foldM (fun problem c =>
      foldM (fun problem i =>
          do observations_c <- idx (wp_image_observations p) c;
          do observations_c_i <- idx observations_c i;
          foldM (fun problem corr =>
              do base_to_wrist <- idx (wp_wrist_poses p) i;
              do base_to_camera_orig <- idx (wp_base_to_camera_guess p) c;
              do intr <- idx (wp_intr p) c;
              Ok (problem ++ [RB [key_correction; key_wrist_target] (fun m =>
                    wrist_cost (in_image corr) intr base_to_wrist base_to_camera_orig (in_target corr)
                               (read_pose m key_correction) (read_pose m key_wrist_target))])%list)
            observations_c_i problem)
        (seq 0 (List.length (wp_wrist_poses p))) problem)
    (seq 0 (List.length (wp_base_to_camera_guess p))) [].

(** [wrist]:77-79, the initial values *)
Definition wrist_start (p : wrist_problem) : mem := fun k i =>
  match k with
  | 0%nat => pose_elem (poseEigenToCal iso_id) i
  | 1%nat => pose_elem (poseEigenToCal (wp_wrist_to_target_guess p)) i
  | _ => 0
  end.

(** [wrist]:74-127, optimize *)
Definition optimizeWrist (solve : block_solver) (p : wrist_problem) : res wrist_result :=
  do blocks <- wrist_blocks p;
  let m0 := wrist_start p in
  let '(m, summary) := solve blocks m0 in
  let n := INR (num_block_residuals blocks m0) in
  let base_to_camera_correction := iso_inv (poseCalToEigen (read_pose m key_correction)) in
  Ok (WR (term_convergence summary) (initial_cost summary / n) (final_cost summary / n)
         (poseCalToEigen (read_pose m key_wrist_target))
         (map (fun T => iso_mul base_to_camera_correction T) (wp_base_to_camera_guess p))).

(** ** Multi-camera PnP *)
(** experimental/multi_camera_pnp.h, MultiCameraPnPProblem *)
Record mpnp_problem := MP {
  mp_intr : list intrinsics;
  mp_base_to_camera : list iso;
  mp_image_observations : list (list (correspondence vec2));
  mp_base_to_target_guess : iso }.
(** MultiCameraPnPResult *)
Record mpnp_result := MR {
  mr_converged : bool;
  mr_initial_cost_per_obs : R;
  mr_final_cost_per_obs : R;
  mr_base_to_target : iso }.
Definition key_base_target : nat := 0.

(** [mpnp]:67-85, the residual blocks *)
Definition mpnp_blocks (p : mpnp_problem) : res (list rblock) :=
  foldM (fun problem c =>
      do observations_c <- idx (mp_image_observations p) c;
      foldM (fun problem corr =>
          do base_to_camera <- idx (mp_base_to_camera p) c;
          do intr <- idx (mp_intr p) c;
          Ok (problem ++ [RB [key_base_target] (fun m =>
                mpnp_cost (in_image corr) intr (iso_inv base_to_camera) (in_target corr)
                          (read_pose m key_base_target))])%list)
        observations_c problem)
    (seq 0 (List.length (mp_base_to_camera p))) [].

(** [mpnp]:60-98, optimize *)
Definition optimizeMpnp (solve : block_solver) (p : mpnp_problem) : res mpnp_result :=
  do blocks <- mpnp_blocks p;
  let m0 : mem := fun k i => if Nat.eqb k key_base_target
                             then pose_elem (poseEigenToCal (mp_base_to_target_guess p)) i else 0 in
  let '(m, summary) := solve blocks m0 in
  let n := INR (num_block_residuals blocks m0) in
  Ok (MR (term_convergence summary) (initial_cost summary / n) (final_cost summary / n)
         (poseCalToEigen (read_pose m key_base_target))).
