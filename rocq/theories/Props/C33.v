(** C33: images in the intrinsic calibration. [located i T] says that pose estimation on image i
    returns a converged result with pose T, [not_located i] that it throws or does not converge
    (Spec/IntrinsicSpec.v). [psolve i], [pcov i] are what Ceres does for image i, [solve] and [cov]
    what it does in the calibration. Pose i is parameter block i, the camera the block after them. *)
From Coq Require Import Reals Arith List String Sorted.
From Verif.Base Require Import Geom Outcome.
From Verif.Model Require Import Pose Covariance Solver HandEye BlockSolver Pnp Intrinsic.
From Verif.Spec Require Import ReportSpec IntrinsicSpec.
From Verif.Proofs Require Import HandEyeProofs IntrinsicProofs.
Import ListNotations.
Local Open Scope R_scope.

(** The residuals that are built are those of exactly the images that were located, and the poses
    start where pose estimation put them. *)
Theorem C33_residuals_of_located_images :
  forall u psolve pcov p poses used blocks,
  initial_poses u psolve pcov p = Ok (poses, used) -> intrinsic_blocks p used = Ok blocks ->
  StronglySorted lt used /\
  (forall i, In i used <-> exists T, located u psolve pcov p i T) /\
  (forall i T, located u psolve pcov p i T -> read_pose (intrinsic_start p poses) i = poseEigenToCal T) /\
  List.length blocks = List.length (image_views p used) /\
  forall m j b i x, nth_error blocks j = Some b -> nth_error (image_views p used) j = Some (i, x) ->
    let T := poseCalToEigen (read_pose m i) in let a := m (intrinsics_key p) in
    vz (iso_app T (in_target x)) <> 0 -> rb_eval b m = lens_error (camera_of a) (lens_of a) T x.
Proof. exact images_used. Qed.
Print Assumptions C33_residuals_of_located_images.

(** The covariance, however, is requested for the poses of all images. The pose of a skipped image
    is not part of the optimization, and asking Ceres for its size aborts: a single image that pose
    estimation fails on makes the calibration abort, whatever the solver does. *)
Theorem C33_failed_image_aborts :
  forall u psolve pcov solve cov p i,
  not_located u psolve pcov p i -> optimizeIntrinsic u psolve pcov solve cov p = UB.
Proof. exact failed_image_aborts. Qed.
Print Assumptions C33_failed_image_aborts.

Theorem C33_skips_failed_images_refuted :
  exists p psolve pcov, forall u,
  (exists T, located u psolve pcov p 0 T) /\ not_located u psolve pcov p 1 /\
  forall solve cov, optimizeIntrinsic u psolve pcov solve cov p = UB.
Proof. exact intrinsic_refuted. Qed.
Print Assumptions C33_skips_failed_images_refuted.

(** So does an image without correspondences, and having no image at all. *)
Theorem C33_empty_image_aborts :
  forall u psolve pcov solve cov p i,
  nth_error (ip_image_observations p) i = Some [] -> optimizeIntrinsic u psolve pcov solve cov p = UB.
Proof. exact empty_image_aborts. Qed.
Print Assumptions C33_empty_image_aborts.

Theorem C33_no_images_aborts :
  forall u psolve pcov solve cov p,
  ip_image_observations p = [] -> optimizeIntrinsic u psolve pcov solve cov p = UB.
Proof. exact no_images_aborts. Qed.
Print Assumptions C33_no_images_aborts.

(** What holds: if there is a result then all images were located, the solver was given one
    residual per correspondence, starting at the guess without distortion and at the located poses,
    and the result is read from where it ended. *)
Theorem C33_result_uses_all_images_partial :
  forall u psolve pcov p, let n := List.length (ip_image_observations p) in
  exists blocks,
  List.length blocks = List.length (image_views p (seq 0 n)) /\
  (forall m j b i x, nth_error blocks j = Some b -> nth_error (image_views p (seq 0 n)) j = Some (i, x) ->
    let T := poseCalToEigen (read_pose m i) in
    vz (iso_app T (in_target x)) <> 0 -> rb_eval b m = lens_error (camera_of (m n)) (lens_of (m n)) T x) /\
  forall solve cov r, optimizeIntrinsic u psolve pcov solve cov p = Ok r ->
    (0 < n)%nat /\ (forall i, (i < n)%nat -> exists T, located u psolve pcov p i T) /\
    exists start m s, solve blocks start = (m, s) /\
      camera_of (start n) = ip_intrinsics_guess p /\ lens_of (start n) = no_distortion /\
      (forall i T, located u psolve pcov p i T -> read_pose start i = poseEigenToCal T) /\
      ir_converged r = term_convergence s /\
      ir_intrinsics r = camera_of (m n) /\
      ir_distortions r = (let d := lens_of (m n) in [d_k1 d; d_k2 d; d_p1 d; d_p2 d; d_k3 d]) /\
      ir_initial_cost_per_obs r = initial_cost s / INR (2 * List.length (image_views p (seq 0 n))) /\
      ir_final_cost_per_obs r = final_cost s / INR (2 * List.length (image_views p (seq 0 n))).
Proof. exact intrinsic_result_right. Qed.
Print Assumptions C33_result_uses_all_images_partial.

(** And there is a result whenever all images are located and the covariance can be computed. *)
Theorem C33_succeeds_partial :
  forall u psolve pcov solve cov p, let n := List.length (ip_image_observations p) in
  (0 < n)%nat -> (forall i, (i < n)%nat -> exists T, located u psolve pcov p i T) ->
  (forall bs, co_compute cov bs = true) -> (forall bs, co_get cov bs = true) ->
  (forall b i c j, co_cov cov b i c j = co_cov cov c j b i) ->
  exists r, optimizeIntrinsic u psolve pcov solve cov p = Ok r.
Proof. exact intrinsic_succeeds. Qed.
Print Assumptions C33_succeeds_partial.

Example C33_two_images : forall u solve, exists r,
  optimizeIntrinsic u ex_solves (fun _ => ex_cov_oracle) solve ex_cov_oracle ex_intrinsic = Ok r.
Proof. exact ex_intrinsic_ok. Qed.
Example C33_second_image_fails : forall u, not_located u ex_fails_second (fun _ => ex_cov_oracle) ex_intrinsic 1.
Proof. exact ex_second_fails. Qed.
