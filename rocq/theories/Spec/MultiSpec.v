(** Vocabulary for the calibrations with several cameras. *)
From Coq Require Import Reals Arith List.
From Verif.Base Require Import Geom Matrix.
From Verif.Model Require Import Pose Solver HandEye BlockSolver MultiCamera.
From Verif.Spec Require Import Frames.
Import ListNotations.
Local Open Scope R_scope.

(** Difference between where a camera sees the target point and the observed pixel, for a target at
    pose [T] in the camera frame. *)
Definition seen_error (k : intrinsics) (T : iso) (x : correspondence vec2) : list R :=
  let q := projectPoint_arr k (iso_app T (in_target x)) in
  [px q - px (in_image x); py q - py (in_image x)].

(** The solver changes no parameter block outside the problem it is given. *)
Definition leaves_others (solve : block_solver) : Prop :=
  forall blocks m k i, ~ In k (flat_map rb_keys blocks) -> fst (solve blocks m) k i = m k i.
(** The solver does not move at all. *)
Definition stands_still (solve : block_solver) : Prop := forall blocks m, fst (solve blocks m) = m.

(** Every correspondence, with the camera c and image i it belongs to. *)
Definition view : Type := nat * nat * correspondence vec2.
Definition views (images : list (list (list (correspondence vec2)))) (order : list (nat * nat)) : list view :=
  flat_map (fun ci => map (fun x => (fst ci, snd ci, x)) (nth (snd ci) (nth (fst ci) images []) [])) order.
(** Cameras first, then images; or images first, then cameras. *)
Definition camera_major (images : nat -> nat) (cameras : nat) : list (nat * nat) :=
  flat_map (fun c => map (fun i => (c, i)) (seq 0 (images c))) (seq 0 cameras).
Definition image_major (images cameras : nat) : list (nat * nat) :=
  flat_map (fun i => map (fun c => (c, i)) (seq 0 cameras)) (seq 0 images).

Definition intr0 : intrinsics := Intr 0 0 0 0.

(** *** Multi-static-camera calibration: moving target, one list of wrist poses per camera. *)
Definition static_sizes (p : static_problem) : Prop :=
  let n := length (sp_base_to_camera_guess p) in
  length (sp_intr p) = n /\ length (sp_wrist_poses p) = n /\ length (sp_image_observations p) = n /\
  forall c, (c < n)%nat -> length (nth c (sp_image_observations p) []) = length (nth c (sp_wrist_poses p) []).
Definition static_views (p : static_problem) : list view :=
  views (sp_image_observations p)
    (camera_major (fun c => length (nth c (sp_wrist_poses p) [])) (length (sp_base_to_camera_guess p))).
(** Reprojection error, given the camera poses and the target pose on the wrist:
    camera <- base <- wrist <- target. *)
Definition static_error (p : static_problem) (base_to_camera : nat -> iso) (wrist_to_target : iso) (v : view) : list R :=
  let '(c, i, x) := v in
  let base_to_wrist := nth i (nth c (sp_wrist_poses p) []) iso_id in
  seen_error (nth c (sp_intr p) intr0)
    (iso_mul (iso_inv (base_to_camera c)) (iso_mul base_to_wrist wrist_to_target)) x.

(** Wrist poses and guesses whose rotation survives the conversion to a pose vector (Spec/Frames.v). *)
Definition plain_wrists (p : static_problem) : Prop :=
  forall c W, In W (nth c (sp_wrist_poses p) []) -> plain_pose W.
Definition guesses_plain_static (p : static_problem) : Prop :=
  plain_pose (sp_wrist_to_target_guess p) /\ forall T, In T (sp_base_to_camera_guess p) -> plain_pose T.
(** Every camera saw the target in some image. *)
Definition all_cameras_used (p : static_problem) : Prop :=
  forall c, (c < length (sp_base_to_camera_guess p))%nat -> exists i x, In (c, i, x) (static_views p).

(** *** Camera-only calibration: target at the same pose for all cameras in image i. *)
Definition only_sizes (p : only_problem) : Prop :=
  let n := length (op_base_to_camera_guess p) in
  length (op_intr p) = n /\ length (op_image_observations p) = n /\
  forall c, (c < n)%nat -> length (nth c (op_image_observations p) []) = length (op_base_to_target_guess p).
Definition only_views (p : only_problem) : list view :=
  views (op_image_observations p)
    (image_major (length (op_base_to_target_guess p)) (length (op_base_to_camera_guess p))).
Definition only_error (p : only_problem) (base_to_camera base_to_target : nat -> iso) (v : view) : list R :=
  let '(c, i, x) := v in
  seen_error (nth c (op_intr p) intr0) (iso_mul (iso_inv (base_to_camera c)) (base_to_target i)) x.

(** *** Wrist-only calibration: all cameras moved by a common correction. *)
Definition wrist_sizes (p : wrist_problem) : Prop :=
  let n := length (wp_base_to_camera_guess p) in
  length (wp_intr p) = n /\ length (wp_image_observations p) = n /\
  forall c, (c < n)%nat -> length (nth c (wp_image_observations p) []) = length (wp_wrist_poses p).
Definition wrist_views (p : wrist_problem) : list view :=
  views (wp_image_observations p)
    (camera_major (fun _ => length (wp_wrist_poses p)) (length (wp_base_to_camera_guess p))).
Definition wrist_error (p : wrist_problem) (base_to_camera : nat -> iso) (wrist_to_target : iso) (v : view) : list R :=
  let '(c, i, x) := v in
  seen_error (nth c (wp_intr p) intr0)
    (iso_mul (iso_inv (base_to_camera c)) (iso_mul (nth i (wp_wrist_poses p) iso_id) wrist_to_target)) x.

(** *** Multi-camera PnP: one image per camera. *)
Definition mpnp_sizes (p : mpnp_problem) : Prop :=
  let n := length (mp_base_to_camera p) in
  length (mp_intr p) = n /\ length (mp_image_observations p) = n.
Definition mpnp_views (p : mpnp_problem) : list (nat * correspondence vec2) :=
  flat_map (fun c => map (pair c) (nth c (mp_image_observations p) [])) (seq 0 (length (mp_base_to_camera p))).
Definition mpnp_error (p : mpnp_problem) (base_to_target : iso) (v : nat * correspondence vec2) : list R :=
  seen_error (nth (fst v) (mp_intr p) intr0)
    (iso_mul (iso_inv (nth (fst v) (mp_base_to_camera p) iso_id)) base_to_target) (snd v).
