(** Vocabulary for what is reported of the initial values of a calibration, and for calibrating again from a result. *)
From Coq Require Import Reals List.
From Verif.Base Require Import Geom.
From Verif.Model Require Import Pose Covariance Solver HandEye Pnp BlockSolver CircleFit MultiCamera.
From Verif.Spec Require Import UniqueSpec ToolsAgreeSpec.
Import ListNotations.
Local Open Scope R_scope.

(** The solver reports as initial cost the sum of the squared residuals at the values it starts from. *)
Definition honest_start {X} (solve : solver X) : Prop :=
  forall blocks x0, initial_cost (snd (solve blocks x0)) = half_squares (flat_map (fun f => f x0) blocks).
Definition honest_start_blocks (solve : block_solver) : Prop :=
  forall blocks m0, initial_cost (snd (solve blocks m0)) = half_squares (flat_map (fun b => rb_eval b m0) blocks).
(** The solver does not end with larger costs than it started with. *)
Definition improving {X} (solve : solver X) : Prop :=
  forall blocks x0, final_cost (snd (solve blocks x0)) <= initial_cost (snd (solve blocks x0)).
Definition improving_blocks (solve : block_solver) : Prop :=
  forall blocks m0, final_cost (snd (solve blocks m0)) <= initial_cost (snd (solve blocks m0)).

(** The same problem with the result of a calibration as the guess. *)
Definition he2_again (p : he_problem2D3D) (r : he_result) : he_problem2D3D :=
  HEP2 (h2_observations p) (h2_intr p) (he_target_mount_to_target r) (he_camera_mount_to_camera r) (h2_labels p).
Definition he3_again (p : he_problem3D3D) (r : he_result) : he_problem3D3D :=
  HEP3 (h3_observations p) (he_target_mount_to_target r) (he_camera_mount_to_camera r) (h3_labels p).
Definition pnp_again (p : pnp_problem) (r : pnp_result) : pnp_problem :=
  PnP2 (pnp_intr p) (pnp_correspondences p) (pnp_camera_to_target r) (pnp_label p).
Definition pnp3_again (p : pnp_problem3D) (r : pnp_result) : pnp_problem3D :=
  PnP3 (pnp3_correspondences p) (pnp_camera_to_target r) (pnp3_label p).
Definition static_again (p : static_problem) (r : static_result) : static_problem :=
  SP (sp_intr p) (sp_wrist_poses p) (sp_image_observations p) (sr_wrist_to_target r) (sr_base_to_camera r)
     (sp_label_wrist_to_target p) (sp_label_base_to_camera p).
Definition wrist_again (p : wrist_problem) (r : wrist_result) : wrist_problem :=
  WP (wp_intr p) (wp_wrist_poses p) (wp_image_observations p) (wr_wrist_to_target r) (wr_base_to_camera r).
Definition only_again (p : only_problem) (r : only_result) : only_problem :=
  OP (op_fix_first_camera p) (op_intr p) (op_image_observations p) (or_base_to_target r) (or_base_to_camera r).
Definition mpnp_again (p : mpnp_problem) (r : mpnp_result) : mpnp_problem :=
  MP (mp_intr p) (mp_base_to_camera p) (mp_image_observations p) (mr_base_to_target r).
Definition circle_again (p : circle_problem) (r : circle_result) : circle_problem :=
  CirProb (cf_observations p) (cf_x_center r) (cf_y_center r) (cf_radius r).

(** The poses of the target in the cameras that the guesses stand for. *)
Definition static_guessed (p : static_problem) : poses := fun c i =>
  iso_mul (iso_inv (nth c (sp_base_to_camera_guess p) iso_id)) (iso_mul (static_wrist p c i) (sp_wrist_to_target_guess p)).
Definition wrist_guessed (p : wrist_problem) : poses := fun c i =>
  iso_mul (iso_inv (nth c (wp_base_to_camera_guess p) iso_id)) (iso_mul (nth i (wp_wrist_poses p) iso_id) (wp_wrist_to_target_guess p)).
Definition only_guessed (p : only_problem) : poses := fun c i =>
  iso_mul (iso_inv (nth c (op_base_to_camera_guess p) iso_id)) (nth i (op_base_to_target_guess p) iso_id).
Definition mpnp_guessed (p : mpnp_problem) : poses := fun c _ =>
  iso_mul (iso_inv (nth c (mp_base_to_camera p) iso_id)) (mp_base_to_target_guess p).

(** Half the sum of the squares of: the square of the radius less the square of the distance from the centre. *)
Definition circle_error (points : list vec2) (x y radius : R) : R :=
  half_squares (map (fun o => radius ^ 2 - ((px o - x) ^ 2 + (py o - y) ^ 2)) points).
