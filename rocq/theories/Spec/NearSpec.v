(** Data that are nearly perfect, and results that are nearly right. *)
From Coq Require Import Reals List.
From Verif.Base Require Import Geom.
From Verif.Model Require Import Pose HandEye MultiCamera.
From Verif.Spec Require Import PinHole UniqueSpec.
Import ListNotations.
Local Open Scope R_scope.

(** Points and pixels that differ by at most [e] in every coordinate *)
Definition point_close (e : R) (p q : vec3) : Prop :=
  Rabs (vx p - vx q) <= e /\ Rabs (vy p - vy q) <= e /\ Rabs (vz p - vz q) <= e.
Definition pixel_close (e : R) (p q : vec2) : Prop := Rabs (px p - px q) <= e /\ Rabs (py p - py q) <= e.
(** Poses whose rotation matrices differ by at most [e] in every entry, and whose positions do in every coordinate *)
Definition near_pose (e : R) (T T0 : iso) : Prop := mat_close e (lin T) (lin T0) /\ point_close e (tr T) (tr T0).

(** The same point of the target, seen or measured at nearly the same place *)
Definition near_pixel (d : R) (c c0 : correspondence vec2) : Prop :=
  in_target c = in_target c0 /\ pixel_close d (in_image c) (in_image c0).
Definition near_point (d : R) (c c0 : correspondence vec3) : Prop :=
  in_target c = in_target c0 /\ point_close d (in_image c) (in_image c0).
Definition near_picture (d : R) : list (correspondence vec2) -> list (correspondence vec2) -> Prop := Forall2 (near_pixel d).
(** The robot was nearly where it is said to be. *)
Definition near_observation {I} (near : R -> correspondence I -> correspondence I -> Prop) (d : R) (o o0 : observation I) : Prop :=
  near_pose d (to_camera_mount o) (to_camera_mount o0) /\ near_pose d (to_target_mount o) (to_target_mount o0) /\
  Forall2 (near d) (correspondence_set o) (correspondence_set o0).

(** The same cameras with nearly the same poses and pictures *)
Definition near_pictures (d : R) : list (list (list (correspondence vec2))) -> list (list (list (correspondence vec2))) -> Prop :=
  Forall2 (Forall2 (near_picture d)).
Definition near_mpnp (d : R) (p p0 : mpnp_problem) : Prop :=
  mp_intr p = mp_intr p0 /\ Forall2 (near_pose d) (mp_base_to_camera p) (mp_base_to_camera p0) /\
  Forall2 (near_picture d) (mp_image_observations p) (mp_image_observations p0).
Definition near_static (d : R) (p p0 : static_problem) : Prop :=
  sp_intr p = sp_intr p0 /\ Forall2 (Forall2 (near_pose d)) (sp_wrist_poses p) (sp_wrist_poses p0) /\
  near_pictures d (sp_image_observations p) (sp_image_observations p0).
Definition near_wrist (d : R) (p p0 : wrist_problem) : Prop :=
  wp_intr p = wp_intr p0 /\ Forall2 (near_pose d) (wp_base_to_camera_guess p) (wp_base_to_camera_guess p0) /\
  Forall2 (near_pose d) (wp_wrist_poses p) (wp_wrist_poses p0) /\
  near_pictures d (wp_image_observations p) (wp_image_observations p0).
Definition near_only (d : R) (p p0 : only_problem) : Prop :=
  op_intr p = op_intr p0 /\ near_pictures d (op_image_observations p) (op_image_observations p0) /\
  List.length (op_base_to_target_guess p) = List.length (op_base_to_target_guess p0).

(** The cost per observation, as it is reported, of a set of errors *)
Definition cost_of (errors : list R) : R := half_squares errors / INR (List.length errors).
