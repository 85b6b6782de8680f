(** C109: the intrinsic calibration and locating the target in every picture. [located_error] is the sum of the errors of
    the pose estimates, [ends_at_best] says that the optimization ends at a best fit (Spec/LensAgreeSpec.v,
    Spec/LensChoicesSpec.v). *)
From Coq Require Import Reals Arith List String.
From Verif.Base Require Import Geom Outcome.
From Verif.Model Require Import Pose Covariance Solver HandEye BlockSolver Pnp Intrinsic.
From Verif.Spec Require Import Frames PinHole PnpSpec IntrinsicSpec UniqueSpec SameDataSpec LensChoicesSpec LensAgreeSpec RestartSpec.
From Verif.Proofs Require Import HandEyeProofs CovarianceProofs IntrinsicProofs IntrinsicUniqueExample LensAgreeProofs LensAgreeExample.
Import ListNotations.
Local Open Scope R_scope.

(** It never fits worse than pose estimates with one and the same camera, whatever that camera is. *)
Theorem C109_never_worse :
  forall u psolve pcov solve cov p r k rs,
  honest_blocks solve -> (forall blocks start, ends_at_best p (fst (solve blocks start))) ->
  optimizeIntrinsic u psolve pcov solve cov p = Ok r ->
  target_located p k rs ->
  (forall i, (i < number_of_images p)%nat -> all_in_front (pnp_camera_to_target (rs i)) (picture p i)) ->
  ir_final_cost_per_obs r * all_residuals p <= located_error p rs.
Proof. exact lens_no_worse. Qed.
Print Assumptions C109_never_worse.

(** If the lens it finds has no distortion, best pose estimates with the camera it finds have exactly its error. *)
Theorem C109_same_with_found_camera :
  forall u psolve pcov solve cov p r rs,
  honest_blocks solve -> (forall blocks start, ends_at_best p (fst (solve blocks start))) ->
  optimizeIntrinsic u psolve pcov solve cov p = Ok r -> ir_distortions r = [0; 0; 0; 0; 0] ->
  target_located p (ir_intrinsics r) rs ->
  (forall i, (i < number_of_images p)%nat -> all_in_front (pnp_camera_to_target (rs i)) (picture p i) /\
     best_pose (ir_intrinsics r) (picture p i) (pnp_camera_to_target (rs i))) ->
  located_error p rs = ir_final_cost_per_obs r * all_residuals p.
Proof. exact lens_found_camera. Qed.
Print Assumptions C109_same_with_found_camera.

(** The initial error it reports is the error of its own pose estimates with the guessed camera. *)
Theorem C109_initial_error :
  forall u psolve pcov solve cov p r rs,
  honest_start_blocks solve -> (forall i, honest (psolve i)) ->
  optimizeIntrinsic u psolve pcov solve cov p = Ok r ->
  (forall i, (i < number_of_images p)%nat -> optimizePnP u (psolve i) (pcov i) (image_pnp p (picture p i)) = Ok (rs i) /\
     pnp_converged (rs i) = true /\
     plain_pose (pnp_camera_to_target (rs i)) /\ all_in_front (pnp_camera_to_target (rs i)) (picture p i)) ->
  ir_initial_cost_per_obs r * all_residuals p = located_error p rs.
Proof. exact lens_initial. Qed.
Print Assumptions C109_initial_error.

(** Two tilted squares, with a calibration and with pose estimates that find the true poses. *)
Example C109_estimates_apply : forall u, exists r rs,
  honest_blocks sc_finds /\ (forall blocks start, ends_at_best sc_views (fst (sc_finds blocks start))) /\
  optimizeIntrinsic u la_solves (fun _ => ex_cov_oracle) sc_finds ex_cov_oracle sc_views = Ok r /\ ir_distortions r = [0; 0; 0; 0; 0] /\
  target_located sc_views (ir_intrinsics r) rs /\
  (forall i, (i < number_of_images sc_views)%nat ->
     all_in_front (pnp_camera_to_target (rs i)) (picture sc_views i) /\
     best_pose (ir_intrinsics r) (picture sc_views i) (pnp_camera_to_target (rs i))).
Proof. exact la_example. Qed.

(** The same from a wrong guess of the camera. *)
Example C109_initial_applies : forall u, exists r rs,
  honest_start_blocks sc_finds /\ (forall i, honest (la_solves i)) /\
  optimizeIntrinsic u la_solves (fun _ => ex_cov_oracle) sc_finds ex_cov_oracle sc_views = Ok r /\
  (forall i, (i < number_of_images sc_views)%nat ->
     optimizePnP u (la_solves i) ex_cov_oracle (image_pnp sc_views (picture sc_views i)) = Ok (rs i) /\
     pnp_converged (rs i) = true /\
     plain_pose (pnp_camera_to_target (rs i)) /\ all_in_front (pnp_camera_to_target (rs i)) (picture sc_views i)).
Proof. exact la_initial. Qed.
