(** C30: residuals of the calibrations with several cameras. [read_pose m k] is the pose vector the
    solver holds in parameter block k, [poseCalToEigen] the transform it stands for (C01).
    [X_views] lists every correspondence with its camera and image, [X_error] is its reprojection
    error for given poses (Spec/MultiSpec.v). *)
From Coq Require Import Reals Arith List String.
From Verif.Base Require Import Geom Outcome.
From Verif.Model Require Import Pose Solver HandEye BlockSolver MultiCamera.
From Verif.Spec Require Import PinHole Frames PnpSpec MultiSpec.
From Verif.Proofs Require Import HandEyeProofs MultiCameraProofs.
Import ListNotations.
Local Open Scope R_scope.

(** [seen_error] is the pin-hole reprojection error. *)
Theorem C30_seen_error_is_pinhole :
  forall k T x, vz (iso_app T (in_target x)) <> 0 -> seen_error k T x = pixel_error k T x.
Proof. exact seen_error_pinhole. Qed.
Print Assumptions C30_seen_error_is_pinhole.

(** The five cost functions, for all poses. *)
Theorem C30_static_cost :
  forall k W x pc pt, plain_pose W ->
  static_cost (in_image x) k W (in_target x) pc pt =
  seen_error k (iso_mul (poseCalToEigen pc) (iso_mul W (poseCalToEigen pt))) x.
Proof. exact static_cost_physical. Qed.
Print Assumptions C30_static_cost.

Theorem C30_free_camera_cost :
  forall k x pc pt,
  free_camera_cost (in_image x) k (in_target x) pc pt =
  seen_error k (iso_mul (poseCalToEigen pc) (poseCalToEigen pt)) x.
Proof. exact free_camera_cost_eq. Qed.
Print Assumptions C30_free_camera_cost.

Theorem C30_fixed_camera_cost :
  forall k C x pt, plain_pose C ->
  fixed_camera_cost (in_image x) k C (in_target x) pt =
  seen_error k (iso_mul (iso_inv C) (poseCalToEigen pt)) x.
Proof. exact fixed_camera_cost_physical. Qed.
Print Assumptions C30_fixed_camera_cost.

Theorem C30_wrist_only_cost :
  forall k W C x pc pt, plain_pose W -> plain_pose C ->
  wrist_cost (in_image x) k W C (in_target x) pc pt =
  seen_error k (iso_mul (iso_inv C) (iso_mul (poseCalToEigen pc) (iso_mul W (poseCalToEigen pt)))) x.
Proof. exact wrist_cost_physical. Qed.
Print Assumptions C30_wrist_only_cost.

Theorem C30_multi_camera_pnp_cost :
  forall k C x pt, plain_pose C ->
  mpnp_cost (in_image x) k (iso_inv C) (in_target x) pt =
  seen_error k (iso_mul (iso_inv C) (poseCalToEigen pt)) x.
Proof. exact mpnp_cost_physical. Qed.
Print Assumptions C30_multi_camera_pnp_cost.

(** Multi-static-camera calibration: the solver is given one residual per correspondence, which is
    its reprojection error for exactly the poses that are then reported. Camera c is block c, the
    target on the wrist the block after the cameras. *)
Theorem C30_static_problem :
  forall p, let n := List.length (sp_base_to_camera_guess p) in
  static_sizes p -> plain_wrists p -> exists blocks,
  (forall m, (forall c, (c < n)%nat -> rigid (poseCalToEigen (read_pose m c))) ->
     map (fun b => rb_eval b m) blocks =
     map (static_error p (fun c => iso_inv (poseCalToEigen (read_pose m c))) (poseCalToEigen (read_pose m n)))
         (static_views p)) /\
  forall u solve cov r, optimizeStatic u solve cov p = Ok r ->
    exists m s, solve blocks (static_start p) = (m, s) /\
      sr_converged r = term_convergence s /\
      sr_wrist_to_target r = poseCalToEigen (read_pose m n) /\
      List.length (sr_base_to_camera r) = n /\
      (forall c T, nth_error (sr_base_to_camera r) c = Some T -> T = iso_inv (poseCalToEigen (read_pose m c))) /\
      sr_initial_cost_per_obs r = initial_cost s / INR (2 * List.length (static_views p)) /\
      sr_final_cost_per_obs r = final_cost s / INR (2 * List.length (static_views p)).
Proof. exact static_right. Qed.
Print Assumptions C30_static_problem.

Theorem C30_static_starts_at_the_guesses :
  forall p u solve cov r, static_sizes p -> guesses_plain_static p -> stands_still solve ->
  optimizeStatic u solve cov p = Ok r ->
  sr_wrist_to_target r = sp_wrist_to_target_guess p /\ sr_base_to_camera r = sp_base_to_camera_guess p.
Proof. exact static_unmoved. Qed.
Print Assumptions C30_static_starts_at_the_guesses.

(** It returns a result if every camera saw the target, and aborts if one did not. *)
Theorem C30_static_succeeds :
  forall p u solve cov, static_sizes p -> all_cameras_used p -> (0 < List.length (sp_base_to_camera_guess p))%nat ->
  (forall bs, co_compute cov bs = true) -> (forall bs, co_get cov bs = true) ->
  (forall b i c j, co_cov cov b i c j = co_cov cov c j b i) ->
  exists r, optimizeStatic u solve cov p = Ok r.
Proof. exact static_succeeds. Qed.
Print Assumptions C30_static_succeeds.

Theorem C30_static_unused_camera_aborts :
  forall p u solve cov c, static_sizes p -> (c < List.length (sp_base_to_camera_guess p))%nat ->
  (forall i x, ~ In (c, i, x) (static_views p)) -> optimizeStatic u solve cov p = UB.
Proof. exact static_unused_aborts. Qed.
Print Assumptions C30_static_unused_camera_aborts.

(** Camera-only calibration: camera c is block c, the target of image i the i-th block after them.
    A fixed first camera takes part with its guess. *)
Theorem C30_camera_only_problem :
  forall p, let n := List.length (op_base_to_camera_guess p) in
  only_sizes p ->
  (op_fix_first_camera p = true -> forall T, nth_error (op_base_to_camera_guess p) 0 = Some T -> plain_pose T) ->
  exists blocks,
  (forall m, (forall c, (c < n)%nat -> rigid (poseCalToEigen (read_pose m c))) ->
     map (fun b => rb_eval b m) blocks =
     map (only_error p
            (fun c => if andb (op_fix_first_camera p) (Nat.eqb c 0) then nth c (op_base_to_camera_guess p) iso_id
                      else iso_inv (poseCalToEigen (read_pose m c)))
            (fun i => poseCalToEigen (read_pose m (n + i)%nat))) (only_views p)) /\
  forall solve, exists m s r, solve blocks (only_start p) = (m, s) /\ optimizeOnly solve p = Ok r /\
      or_converged r = term_convergence s /\
      or_base_to_target r = map (fun i => poseCalToEigen (read_pose m (n + i)%nat))
                                (seq 0 (List.length (op_base_to_target_guess p))) /\
      or_base_to_camera r = map (fun c => iso_inv (poseCalToEigen (read_pose m c))) (seq 0 n) /\
      or_initial_cost_per_obs r = initial_cost s / INR (2 * List.length (only_views p)) /\
      or_final_cost_per_obs r = final_cost s / INR (2 * List.length (only_views p)).
Proof. exact only_right. Qed.
Print Assumptions C30_camera_only_problem.

(** Wrist-only calibration: the cameras are moved by a common correction, and the residuals are the
    reprojection errors for the moved cameras, which are the reported ones. *)
Theorem C30_wrist_only_problem :
  forall p, wrist_sizes p ->
  (forall T, In T (wp_wrist_poses p) -> plain_pose T) -> (forall T, In T (wp_base_to_camera_guess p) -> plain_pose T) ->
  exists blocks,
  (forall m, let K := poseCalToEigen (read_pose m key_correction) in rigid K ->
     map (fun b => rb_eval b m) blocks =
     map (wrist_error p (fun c => iso_mul (iso_inv K) (nth c (wp_base_to_camera_guess p) iso_id))
            (poseCalToEigen (read_pose m key_wrist_target))) (wrist_views p)) /\
  forall solve, exists m s r, solve blocks (wrist_start p) = (m, s) /\ optimizeWrist solve p = Ok r /\
      wr_converged r = term_convergence s /\
      wr_wrist_to_target r = poseCalToEigen (read_pose m key_wrist_target) /\
      wr_base_to_camera r =
        map (iso_mul (iso_inv (poseCalToEigen (read_pose m key_correction)))) (wp_base_to_camera_guess p) /\
      wr_initial_cost_per_obs r = initial_cost s / INR (2 * List.length (wrist_views p)) /\
      wr_final_cost_per_obs r = final_cost s / INR (2 * List.length (wrist_views p)).
Proof. exact wrist_right. Qed.
Print Assumptions C30_wrist_only_problem.

Theorem C30_wrist_only_starts_at_the_guesses :
  forall p solve r, stands_still solve -> plain_pose (wp_wrist_to_target_guess p) ->
  optimizeWrist solve p = Ok r ->
  wr_base_to_camera r = wp_base_to_camera_guess p /\ wr_wrist_to_target r = wp_wrist_to_target_guess p.
Proof. exact wrist_unmoved. Qed.
Print Assumptions C30_wrist_only_starts_at_the_guesses.

(** Multi-camera PnP: the camera poses are given, only the target pose is optimized. *)
Theorem C30_multi_camera_pnp_problem :
  forall p, mpnp_sizes p -> (forall T, In T (mp_base_to_camera p) -> plain_pose T) ->
  exists blocks,
  (forall m, map (fun b => rb_eval b m) blocks =
     map (mpnp_error p (poseCalToEigen (read_pose m key_base_target))) (mpnp_views p)) /\
  forall solve, exists m0 m s r, read_pose m0 key_base_target = poseEigenToCal (mp_base_to_target_guess p) /\
      solve blocks m0 = (m, s) /\ optimizeMpnp solve p = Ok r /\
      mr_converged r = term_convergence s /\
      mr_base_to_target r = poseCalToEigen (read_pose m key_base_target) /\
      mr_initial_cost_per_obs r = initial_cost s / INR (2 * List.length (mpnp_views p)) /\
      mr_final_cost_per_obs r = final_cost s / INR (2 * List.length (mpnp_views p)).
Proof. exact mpnp_right. Qed.
Print Assumptions C30_multi_camera_pnp_problem.

Theorem C30_multi_camera_pnp_starts_at_the_guess :
  forall p solve r, stands_still solve -> plain_pose (mp_base_to_target_guess p) ->
  optimizeMpnp solve p = Ok r -> mr_base_to_target r = mp_base_to_target_guess p.
Proof. exact mpnp_unmoved. Qed.
Print Assumptions C30_multi_camera_pnp_starts_at_the_guess.

Example C30_static_applies : static_sizes ex_static /\ plain_wrists ex_static /\ guesses_plain_static ex_static /\
  List.length (static_views ex_static) = 4%nat.
Proof. exact (conj ex_static_sizes ex_static_plain). Qed.
Example C30_static_returns : forall u solve, exists r, optimizeStatic u solve ex_cov_oracle ex_static = Ok r.
Proof. exact ex_static_ok. Qed.
Example C30_unused_applies : static_sizes ex_static_unused /\ (1 < 2)%nat /\
  (forall i x, ~ In (1%nat, i, x) (static_views ex_static_unused)) /\ static_views ex_static_unused <> [].
Proof. exact ex_static_unused_fits. Qed.
Example C30_camera_only_applies : only_sizes ex_only /\ op_fix_first_camera ex_only = true /\
  op_base_to_target_guess ex_only <> [] /\
  (forall T, In T (op_base_to_camera_guess ex_only) -> plain_pose T) /\
  (forall T, In T (op_base_to_target_guess ex_only) -> plain_pose T) /\ List.length (only_views ex_only) = 4%nat.
Proof. exact ex_only_fits. Qed.
Example C30_wrist_only_applies : wrist_sizes ex_wrist /\ (forall T, In T (wp_wrist_poses ex_wrist) -> plain_pose T) /\
  (forall T, In T (wp_base_to_camera_guess ex_wrist) -> plain_pose T) /\ plain_pose (wp_wrist_to_target_guess ex_wrist) /\
  List.length (wrist_views ex_wrist) = 2%nat.
Proof. exact (conj ex_wrist_sizes ex_wrist_plain). Qed.
Example C30_multi_camera_pnp_applies : mpnp_sizes ex_mpnp /\ (forall T, In T (mp_base_to_camera ex_mpnp) -> plain_pose T) /\
  plain_pose (mp_base_to_target_guess ex_mpnp) /\ List.length (mpnp_views ex_mpnp) = 3%nat.
Proof. exact ex_mpnp_fits. Qed.
