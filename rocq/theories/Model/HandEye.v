(** Hand-eye calibration: rct_optimizations/src/rct_optimizations/extrinsic_hand_eye.cpp *)
From Coq Require Import Reals String List.
From Verif.Base Require Import Geom Outcome Matrix.
From Verif.Model Require Import Pose Covariance Solver.
Import ListNotations.
Local Open Scope R_scope.

(** include/rct_optimizations/types.h:57-84, Correspondence; [I] is vec2 or vec3 *)
Record correspondence (I : Type) := Corr { in_image : I; in_target : vec3 }.
Arguments Corr {I}. Arguments in_image {I}. Arguments in_target {I}.

(** types.h:107-132, Observation *)
Record observation (I : Type) := Obs {
  correspondence_set : list (correspondence I);
  to_camera_mount : iso;
  to_target_mount : iso }.
Arguments Obs {I}. Arguments correspondence_set {I}. Arguments to_camera_mount {I}.
Arguments to_target_mount {I}.

(** extrinsic_hand_eye.cpp:27-36 and 67-71, the data stored in an ObservationCost *)
Record obs_cost (I : Type) := ObsCost {
  oc_obs : I;
  oc_camera_mount_to_base : pose6;
  oc_base_to_target_mount : pose6;
  oc_target_pt : vec3 }.
Arguments ObsCost {I}. Arguments oc_obs {I}. Arguments oc_camera_mount_to_base {I}.
Arguments oc_base_to_target_mount {I}. Arguments oc_target_pt {I}.

(** extrinsic_hand_eye.cpp:27-36, constructor *)
Definition mk_obs_cost {I} (obs : I) (camera_mount_to_base base_to_target_mount : iso)
  (point_in_target : vec3) : obs_cost I :=
  ObsCost obs (poseEigenToCal camera_mount_to_base) (poseEigenToCal base_to_target_mount)
          point_in_target.

(** extrinsic_hand_eye.cpp:41-65, getTargetPointInCamera *)
Definition getTargetPointInCamera {I} (c : obs_cost I)
  (pose_camera_to_camera_mount pose_target_mount_to_target : pose6) : vec3 :=
  let camera_angle_axis := pose_aa pose_camera_to_camera_mount in
  let camera_position := pose_pos pose_camera_to_camera_mount in
  let target_angle_axis := pose_aa pose_target_mount_to_target in
  let target_position := pose_pos pose_target_mount_to_target in
  let target_pt := V3 (vx (oc_target_pt c)) (vy (oc_target_pt c)) (vz (oc_target_pt c)) in
  let target_mount_point := transformPoint target_angle_axis target_position target_pt in
  let world_point := poseTransformPoint (oc_base_to_target_mount c) target_mount_point in
  let camera_mount_point := poseTransformPoint (oc_camera_mount_to_base c) world_point in
  transformPoint camera_angle_axis camera_position camera_mount_point.

(** The optimization variables: camera_to_camera_mount, target_mount_to_target *)
Definition he_vars : Type := pose6 * pose6.

(** extrinsic_hand_eye.cpp:89-105, ObservationCost2D3D::operator() *)
Definition cost2D3D (c : obs_cost vec2) (intr : intrinsics) : residual he_vars := fun x =>
  let camera_point := getTargetPointInCamera c (fst x) (snd x) in
  let xy_image := projectPoint_arr intr camera_point in
  [px xy_image - px (oc_obs c); py xy_image - py (oc_obs c)].

(** extrinsic_hand_eye.cpp:119-132, ObservationCost3D3D::operator() *)
Definition cost3D3D (c : obs_cost vec3) : residual he_vars := fun x =>
  let camera_point := getTargetPointInCamera c (fst x) (snd x) in
  [vx camera_point - vx (oc_obs c); vy camera_point - vy (oc_obs c); vz camera_point - vz (oc_obs c)].

(** extrinsic_hand_eye.cpp:135-147, isPointVisible *)
Definition isPointVisible (camera_to_camera_mount target_mount_to_target : pose6)
  (c : obs_cost vec2) : bool :=
  if Rlt_dec 0 (vz (getTargetPointInCamera c camera_to_camera_mount target_mount_to_target))
  then true else false.

(** include/rct_optimizations/extrinsic_hand_eye.h:26-43 and 45-61, problem definitions *)
Record he_labels := HeLabels {
  labels_isometry3d : list string;
  label_target_mount_to_target : string;
  label_camera_mount_to_camera : string }.
(** extrinsic_hand_eye.h:33-35 and 51-53, the default member initialisers *)
Definition default_he_labels : he_labels :=
  HeLabels ["x"; "y"; "z"; "rx"; "ry"; "rz"]%string
           "target_mount_to_target" "camera_mount_to_camera".
Record he_problem2D3D := HEP2 {
  h2_observations : list (observation vec2);
  h2_intr : intrinsics;
  h2_target_guess : iso;
  h2_camera_guess : iso;
  h2_labels : he_labels }.
Record he_problem3D3D := HEP3 {
  h3_observations : list (observation vec3);
  h3_target_guess : iso;
  h3_camera_guess : iso;
  h3_labels : he_labels }.

(** extrinsic_hand_eye.h:63-73, ExtrinsicHandEyeResult *)
Record he_result := HER {
  he_converged : bool;
  he_initial_cost_per_obs : R;
  he_final_cost_per_obs : R;
  he_target_mount_to_target : iso;
  he_camera_mount_to_camera : iso;
  he_covariance : cov_result }.

(** Keys of the two parameter blocks (their addresses in C++). *)
Definition key_camera : nat := 0.
Definition key_target : nat := 1.

(** extrinsic_hand_eye.cpp:203-219 / 265-281, label maps *)
Definition he_param_labels (l : he_labels) : amap (list string) :=
  let compose prefix := map (fun label_isometry => String.append prefix (String.append "_" label_isometry))
                            (labels_isometry3d l) in
  insert_key key_target (compose (label_target_mount_to_target l))
    (insert_key key_camera (compose (label_camera_mount_to_camera l)) []).

(** extrinsic_hand_eye.cpp:190-223 / 253-285: solve, convert back, covariance.
    A parameter block is part of the problem only once a residual block uses it. *)
Definition he_finish (u : nat -> nat -> R) (solve : solver he_vars) (cov : cov_oracle)
  (blocks : list (residual he_vars)) (x0 : he_vars) (l : he_labels) : res he_result :=
  let '(x, summary) := solve blocks x0 in
  let n := INR (num_residuals blocks x0) in
  let added := match blocks with
               | [] => []
               | _ => [(key_camera, 6%nat); (key_target, 6%nat)]
               end in
  do c <- computeCovariance_names u (mk_cov_problem cov added) (he_param_labels l) [];
  Ok (HER (term_convergence summary)
          (initial_cost summary / n) (final_cost summary / n)
          (poseCalToEigen (snd x)) (iso_inv (poseCalToEigen (fst x))) c).

(** extrinsic_hand_eye.cpp:153-224, optimize (2D-3D). The visibility check is made with
    the current values of the variables, which are the initial ones. *)
Definition optimize2D3D (u : nat -> nat -> R) (solve : solver he_vars) (cov : cov_oracle)
  (params : he_problem2D3D) : res he_result :=
  let internal_base_to_target := poseEigenToCal (h2_target_guess params) in
  let internal_camera_to_wrist := poseEigenToCal (iso_inv (h2_camera_guess params)) in
  do blocks <-
    foldM (fun problem observation =>
      foldM (fun problem correspondence =>
        let wrist_to_base := iso_inv (to_camera_mount observation) in
        let cost_fn := mk_obs_cost (in_image correspondence) wrist_to_base
                                   (to_target_mount observation) (in_target correspondence) in
        if negb (isPointVisible internal_camera_to_wrist internal_base_to_target cost_fn)
        then Throw RuntimeError
        else Ok (problem ++ [cost2D3D cost_fn (h2_intr params)])%list)
      (correspondence_set observation) problem)
    (h2_observations params) [];
  he_finish u solve cov blocks (internal_camera_to_wrist, internal_base_to_target) (h2_labels params).

(** extrinsic_hand_eye.cpp:226-286, optimize (3D-3D) *)
Definition optimize3D3D (u : nat -> nat -> R) (solve : solver he_vars) (cov : cov_oracle)
  (params : he_problem3D3D) : res he_result :=
  let internal_base_to_target := poseEigenToCal (h3_target_guess params) in
  let internal_camera_to_wrist := poseEigenToCal (iso_inv (h3_camera_guess params)) in
  let blocks :=
    fold_left (fun problem observation =>
      fold_left (fun problem correspondence =>
        let wrist_to_base := iso_inv (to_camera_mount observation) in
        let cost_fn := mk_obs_cost (in_image correspondence) wrist_to_base
                                   (to_target_mount observation) (in_target correspondence) in
        (problem ++ [cost3D3D cost_fn])%list)
      (correspondence_set observation) problem)
    (h3_observations params) [] in
  he_finish u solve cov blocks (internal_camera_to_wrist, internal_base_to_target) (h3_labels params).
