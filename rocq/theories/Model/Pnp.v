(** Perspective-n-point: rct_optimizations/src/rct_optimizations/pnp.cpp and
    rct_optimizations/include/rct_optimizations/pnp.h *)
From Coq Require Import Reals Arith String List.
From Verif.Base Require Import Geom Outcome Matrix.
From Verif.Model Require Import Pose Covariance Solver HandEye.
Import ListNotations.
Local Open Scope R_scope.

(** The optimization variables: cam_to_tgt_angle_axis, cam_to_tgt_translation *)
Definition pnp_vars : Type := vec3 * vec3.

(** pnp.cpp:29-31 / 67-69 and 117-118 / 175-176, the transform the variables stand for *)
Definition pnp_transform (x : pnp_vars) : iso :=
  iso_mul (iso_trans (snd x)) (iso_rot (aa_matrix (norm (fst x)) (normalized (fst x)))).

(** pnp.cpp:18-42, SolvePnPCostFunc::operator(), evaluated on doubles *)
Definition pnp_cost (intr : intrinsics) (in_target_ : vec3) (in_image_ : vec2) : residual pnp_vars := fun x =>
  let camera_to_target := pnp_transform x in
  let camera_pt := iso_app camera_to_target in_target_ in
  let xy_image := projectPoint_eig intr camera_pt in
  [px xy_image - px in_image_; py xy_image - py in_image_].

(** pnp.cpp:57-78, SolvePnPCostFunc3D::operator(), evaluated on doubles *)
Definition pnp_cost3D (in_target_ in_image_ : vec3) : residual pnp_vars := fun x =>
  let camera_to_target := pnp_transform x in
  let camera_pt := iso_app camera_to_target in_target_ in
  [vx camera_pt - vx in_image_; vy camera_pt - vy in_image_; vz camera_pt - vz in_image_].

(** pnp.h, PnPProblem and PnPProblem3D. The label arrays are constant members. *)
Record pnp_problem := PnP2 {
  pnp_intr : intrinsics;
  pnp_correspondences : list (correspondence vec2);
  pnp_guess : iso;
  pnp_label : string }.
Record pnp_problem3D := PnP3 {
  pnp3_correspondences : list (correspondence vec3);
  pnp3_guess : iso;
  pnp3_label : string }.
Definition pnp_labels_translation : list string := ["x"; "y"; "z"]%string.
Definition pnp_labels_rotation : list string := ["rx"; "ry"; "rz"]%string.

(** pnp.h, PnPResult *)
Record pnp_result := PnPR {
  pnp_converged : bool;
  pnp_initial_cost_per_obs : R;
  pnp_final_cost_per_obs : R;
  pnp_camera_to_target : iso;
  pnp_covariance : cov_result }.

(** Keys of the two parameter blocks. *)
Definition key_translation : nat := 0.
Definition key_angle_axis : nat := 1.

(** pnp.cpp:91-93 / 148-150, the initial values. [rotation()] of the guess is its linear part. *)
Definition pnp_start (guess : iso) : pnp_vars :=
  let aa := aa_of_mat (lin guess) in
  (vscale (aa_angle aa) (aa_axis aa), tr guess).

(** pnp.cpp:109-142 / 167-200: solve, convert back, covariance. *)
Definition pnp_finish (u : nat -> nat -> R) (solve : solver pnp_vars) (cov : cov_oracle)
  (blocks : list (residual pnp_vars)) (x0 : pnp_vars) (label : string) : res pnp_result :=
  let '(x, summary) := solve blocks x0 in
  let n := INR (num_residuals blocks x0) in
  let compose labels := map (fun l => String.append label (String.append "_" l)) labels in
  let param_labels := insert_key key_angle_axis (compose pnp_labels_rotation)
                        (insert_key key_translation (compose pnp_labels_translation) []) in
  let added := match blocks with
               | [] => []
               | _ => [(key_angle_axis, 3%nat); (key_translation, 3%nat)]
               end in
  do c <- computeCovariance u (mk_cov_problem cov added) [key_translation; key_angle_axis] param_labels [];
  Ok (PnPR (term_convergence summary) (initial_cost summary / n) (final_cost summary / n)
           (pnp_transform x) c).

(** pnp.cpp:88-143, optimize (2D) *)
Definition optimizePnP (u : nat -> nat -> R) (solve : solver pnp_vars) (cov : cov_oracle)
  (params : pnp_problem) : res pnp_result :=
  let blocks := fold_left (fun problem corr =>
      (problem ++ [pnp_cost (pnp_intr params) (in_target corr) (in_image corr)])%list)
    (pnp_correspondences params) [] in
  pnp_finish u solve cov blocks (pnp_start (pnp_guess params)) (pnp_label params).

(** pnp.cpp:145-201, optimize (3D) *)
Definition optimizePnP3D (u : nat -> nat -> R) (solve : solver pnp_vars) (cov : cov_oracle)
  (params : pnp_problem3D) : res pnp_result :=
  let blocks := fold_left (fun problem corr =>
      (problem ++ [pnp_cost3D (in_target corr) (in_image corr)])%list)
    (pnp3_correspondences params) [] in
  pnp_finish u solve cov blocks (pnp_start (pnp3_guess params)) (pnp3_label params).
