(** C32: fixing the first camera. *)
From Coq Require Import Reals Arith List.
From Verif.Base Require Import Geom Outcome.
From Verif.Model Require Import Pose Solver HandEye BlockSolver MultiCamera.
From Verif.Spec Require Import Frames MultiSpec.
From Verif.Proofs Require Import HandEyeProofs MultiCameraProofs.
Import ListNotations.
Local Open Scope R_scope.

(** Full statement: the theorems below without the hypothesis [op_base_to_target_guess p <> []].
    Without images the guesses are ignored and every camera is returned at the base. *)
Theorem C32_first_camera_fixed_refuted :
  exists p r T, only_sizes p /\ op_fix_first_camera p = true /\
  plain_pose T /\ nth_error (op_base_to_camera_guess p) 0 = Some T /\
  (exists solve, leaves_others solve /\ stands_still solve /\ optimizeOnly solve p = Ok r) /\
  nth_error (or_base_to_camera r) 0 <> Some T.
Proof. exact only_empty_refuted. Qed.
Print Assumptions C32_first_camera_fixed_refuted.

Theorem C32_without_images :
  forall p solve r, op_base_to_target_guess p = [] -> leaves_others solve ->
  optimizeOnly solve p = Ok r ->
  or_base_to_camera r = repeat iso_id (List.length (op_base_to_camera_guess p)).
Proof. exact only_no_images. Qed.
Print Assumptions C32_without_images.

(** With images the first camera stays at its guess for every solver that changes only parameters
    of the problem it was given. *)
Theorem C32_first_camera_fixed_partial :
  forall p solve r T, only_sizes p -> leaves_others solve -> op_fix_first_camera p = true ->
  op_base_to_target_guess p <> [] -> nth_error (op_base_to_camera_guess p) 0 = Some T -> plain_pose T ->
  optimizeOnly solve p = Ok r -> nth_error (or_base_to_camera r) 0 = Some T.
Proof. exact only_first_fixed. Qed.
Print Assumptions C32_first_camera_fixed_partial.

(** The calibration never fails on a problem of consistent sizes. *)
Theorem C32_always_returns :
  forall p solve, only_sizes p -> exists r, optimizeOnly solve p = Ok r /\
  List.length (or_base_to_camera r) = List.length (op_base_to_camera_guess p) /\
  List.length (or_base_to_target r) = List.length (op_base_to_target_guess p).
Proof. exact only_returns. Qed.
Print Assumptions C32_always_returns.

Theorem C32_unmoved_returns_guesses_partial :
  forall p solve r, only_sizes p -> stands_still solve -> op_base_to_target_guess p <> [] ->
  (forall T, In T (op_base_to_camera_guess p) -> plain_pose T) ->
  (forall T, In T (op_base_to_target_guess p) -> plain_pose T) ->
  optimizeOnly solve p = Ok r ->
  or_base_to_camera r = op_base_to_camera_guess p /\ or_base_to_target r = op_base_to_target_guess p.
Proof. exact only_unmoved. Qed.
Print Assumptions C32_unmoved_returns_guesses_partial.

Example C32_applies : only_sizes ex_only /\ op_fix_first_camera ex_only = true /\
  op_base_to_target_guess ex_only <> [] /\
  (forall T, In T (op_base_to_camera_guess ex_only) -> plain_pose T) /\
  (forall T, In T (op_base_to_target_guess ex_only) -> plain_pose T) /\ List.length (only_views ex_only) = 4%nat.
Proof. exact ex_only_fits. Qed.
(** A solver that moves everything it may move. *)
Example C32_solver_applies : exists solve, leaves_others solve /\ ~ stands_still solve.
Proof. exact ex_moving_solver. Qed.
