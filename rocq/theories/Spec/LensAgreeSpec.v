(** Vocabulary for comparing the intrinsic calibration with locating the target in every picture. *)
From Coq Require Import Reals Arith List.
From Verif.Base Require Import Geom Outcome.
From Verif.Model Require Import Pose Covariance Solver HandEye BlockSolver Pnp Intrinsic.
From Verif.Spec Require Import UniqueSpec SameDataSpec ToolsAgreeSpec LensChoicesSpec.
Import ListNotations.
Local Open Scope R_scope.

(** The number of residuals of an image and of all images. *)
Definition residuals_of (p : intrinsic_problem) (i : nat) : R := INR (2 * length (picture p i)).
Definition number_of_images (p : intrinsic_problem) : nat := length (ip_image_observations p).
Definition all_residuals (p : intrinsic_problem) : R := sum_over (seq 0 (number_of_images p)) (residuals_of p).
(** [rs i] are what the pose estimation reports for image [i] with camera [k], from any initial pose. *)
Definition target_located (p : intrinsic_problem) (k : intrinsics) (rs : nat -> pnp_result) : Prop :=
  forall i, (i < number_of_images p)%nat ->
  exists u solve cov guess label, honest solve /\
    optimizePnP u solve cov (PnP2 k (picture p i) guess label) = Ok (rs i).
(** The sum of their errors. *)
Definition located_error (p : intrinsic_problem) (rs : nat -> pnp_result) : R :=
  sum_over (seq 0 (number_of_images p)) (fun i => pnp_final_cost_per_obs (rs i) * residuals_of p i).
