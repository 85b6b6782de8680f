(** Vocabulary for comparing the calibrations offered for the same data. *)
From Coq Require Import Reals Arith List.
From Verif.Base Require Import Geom Outcome.
From Verif.Model Require Import Pose Covariance Solver HandEye Pnp MultiCamera.
From Verif.Spec Require Import Frames PinHole PnpSpec UniqueSpec MultiSpec SameDataSpec.
Import ListNotations.
Local Open Scope R_scope.

Definition sum_over {A} (l : list A) (f : A -> R) : R := fold_right (fun a acc => f a + acc) 0 l.

(** For every camera and image the pose of the target in the camera. *)
Definition poses : Type := nat -> nat -> iso.
(** Half the sum of the squared distances in the images, for views that say which camera and image they belong to. *)
Definition rig_error (k : nat -> intrinsics) (vs : list view) (T : poses) : R :=
  half_squares (flat_map (fun v => let '(c, i, x) := v in pixel_error (k c) (T c i) x) vs).
Definition rig_in_view (vs : list view) (T : poses) : Prop :=
  forall c i x, In (c, i, x) vs -> rigid (T c i) /\ 0 < vz (iso_app (T c i) (in_target x)).
(** No poses of the family have a smaller error. *)
Definition best_of (family : poses -> Prop) (k : nat -> intrinsics) (vs : list view) (T : poses) : Prop :=
  family T /\ rig_in_view vs T /\
  forall T', family T' -> rig_in_view vs T' -> rig_error k vs T <= rig_error k vs T'.

(** What the calibrations may adjust, for cameras 0 .. n-1:
    every camera, and the target in every image; *)
Definition cameras_and_targets (n : nat) (T : poses) : Prop :=
  exists C B, (forall c, rigid (C c)) /\ (forall i, rigid (B i)) /\
    forall c i, (c < n)%nat -> T c i = iso_mul (iso_inv (C c)) (B i).
(** every camera, and how the target sits on the wrist, whose poses are known; *)
Definition cameras_and_wrist (n : nat) (wrist : nat -> nat -> iso) (T : poses) : Prop :=
  exists C Z, (forall c, rigid (C c)) /\ rigid Z /\
    forall c i, (c < n)%nat -> T c i = iso_mul (iso_inv (C c)) (iso_mul (wrist c i) Z).
(** the set of cameras as a whole, and how the target sits on the wrist; *)
Definition rig_and_wrist (n : nat) (cameras : nat -> iso) (wrist : nat -> iso) (T : poses) : Prop :=
  exists K Z, rigid K /\ rigid Z /\
    forall c i, (c < n)%nat -> T c i = iso_mul (iso_inv (iso_mul K (cameras c))) (iso_mul (wrist i) Z).
(** the target, which does not move, with known cameras. *)
Definition known_cameras (n : nat) (cameras : nat -> iso) (T : poses) : Prop :=
  exists B, rigid B /\ forall c i, (c < n)%nat -> T c i = iso_mul (iso_inv (cameras c)) B.

(** The poses a result stands for. *)
Definition static_wrist (p : static_problem) (c i : nat) : iso := nth i (nth c (sp_wrist_poses p) []) iso_id.
Definition static_poses (p : static_problem) (r : static_result) : poses := fun c i =>
  iso_mul (iso_inv (nth c (sr_base_to_camera r) iso_id)) (iso_mul (static_wrist p c i) (sr_wrist_to_target r)).
Definition wrist_poses (p : wrist_problem) (r : wrist_result) : poses := fun c i =>
  iso_mul (iso_inv (nth c (wr_base_to_camera r) iso_id)) (iso_mul (nth i (wp_wrist_poses p) iso_id) (wr_wrist_to_target r)).
Definition only_poses (r : only_result) : poses := fun c i =>
  iso_mul (iso_inv (nth c (or_base_to_camera r) iso_id)) (nth i (or_base_to_target r) iso_id).
Definition mpnp_poses (p : mpnp_problem) (r : mpnp_result) : poses := fun c _ =>
  iso_mul (iso_inv (nth c (mp_base_to_camera p) iso_id)) (mr_base_to_target r).
Definition camera_of (ks : list intrinsics) (c : nat) : intrinsics := nth c ks intr0.
(** In multi-camera PnP every camera has one image. *)
Definition single_views (p : mpnp_problem) : list view := map (fun v => (fst v, 0%nat, snd v)) (mpnp_views p).

(** The data of one camera as a hand-eye problem: the camera is static, the target is on the wrist. *)
Definition images_of (images : list (list (list (correspondence vec2)))) (c i : nat) : list (correspondence vec2) :=
  nth i (nth c images []) [].
Definition static_observations (p : static_problem) (c : nat) : list (observation vec2) :=
  map (fun i => Obs (images_of (sp_image_observations p) c i) iso_id (static_wrist p c i))
      (seq 0 (length (nth c (sp_wrist_poses p) []))).
Definition wrist_observations (p : wrist_problem) (c : nat) : list (observation vec2) :=
  map (fun i => Obs (images_of (wp_image_observations p) c i) iso_id (nth i (wp_wrist_poses p) iso_id))
      (seq 0 (length (wp_wrist_poses p))).

(** Two problems on the same pictures. *)
Definition static_of_wrist (p : static_problem) (q : wrist_problem) : Prop :=
  let n := length (wp_base_to_camera_guess q) in
  length (sp_base_to_camera_guess p) = n /\ sp_intr p = wp_intr q /\
  sp_image_observations p = wp_image_observations q /\
  forall c, (c < n)%nat -> nth c (sp_wrist_poses p) [] = wp_wrist_poses q.
Definition only_of_wrist (p : only_problem) (q : wrist_problem) : Prop :=
  length (op_base_to_camera_guess p) = length (wp_base_to_camera_guess q) /\
  op_intr p = wp_intr q /\ op_image_observations p = wp_image_observations q /\
  length (op_base_to_target_guess p) = length (wp_wrist_poses q).

(** One picture on its own: a best pose, from the pose estimation. *)
Definition estimated (k : intrinsics) (cs : list (correspondence vec2)) (r : pnp_result) : Prop :=
  exists u solve cov p, honest solve /\ optimizePnP u solve cov p = Ok r /\
    pnp_intr p = k /\ pnp_correspondences p = cs /\
    all_in_front (pnp_camera_to_target r) cs /\ best_pose k cs (pnp_camera_to_target r).
(** One camera on its own: a best calibration, from the hand-eye calibration. *)
Definition calibrated (k : intrinsics) (os : list (observation vec2)) (r : he_result) : Prop :=
  exists u solve cov p, honest solve /\ optimize2D3D u solve cov p = Ok r /\
    h2_intr p = k /\ h2_observations p = os /\
    best_for_images k (sightings os) (he_camera_mount_to_camera r) (he_target_mount_to_target r).
