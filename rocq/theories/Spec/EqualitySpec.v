(** What it means that two observations agree, independent of how the operators compare them. *)
From Coq Require Import Reals List.
From Verif.Base Require Import Geom.
From Verif.Model Require Import Pose HandEye Kinematic.
Import ListNotations.
Local Open Scope R_scope.

(** A distance of at most 1e-12 times either size. *)
Definition within (dist size1 size2 : R) : Prop := dist <= / 10 ^ 12 * size1 /\ dist <= / 10 ^ 12 * size2.
Definition close2 (a b : vec2) : Prop := within (norm2 (V2 (px a - px b) (py a - py b))) (norm2 a) (norm2 b).
Definition close3 (a b : vec3) : Prop := within (norm (vsub a b)) (norm a) (norm b).
(** The squared distance of two matrices, as nine numbers. *)
Definition mat_dist2 (a b : mat3) : R :=
  (m00 a - m00 b)² + (m01 a - m01 b)² + (m02 a - m02 b)² + (m10 a - m10 b)² + (m11 a - m11 b)² + (m12 a - m12 b)² +
  (m20 a - m20 b)² + (m21 a - m21 b)² + (m22 a - m22 b)².
(** Rigid transforms: the size of the matrix of a rotation is the square root of 3, and its last row adds 1. *)
Definition close_pose (A B : iso) : Prop :=
  within (sqrt (mat_dist2 (lin A) (lin B) + norm (vsub (tr A) (tr B)) ^ 2))
         (sqrt (4 + norm (tr A) ^ 2)) (sqrt (4 + norm (tr B) ^ 2)).
(** Vectors of joint values. *)
Definition joints_size2 (a : list R) : R := fold_right (fun x s => x² + s) 0 a.
Definition close_joints (a b : list R) : Prop :=
  length a = length b /\
  within (sqrt (joints_size2 (map (fun p => fst p - snd p) (combine a b)))) (sqrt (joints_size2 a)) (sqrt (joints_size2 b)).

Definition close_correspondence {I} (close : I -> I -> Prop) (a b : correspondence I) : Prop :=
  close (in_image a) (in_image b) /\ close3 (in_target a) (in_target b).
(** The correspondences agree one by one, and there are as many. *)
Definition close_observation {I} (close : I -> I -> Prop) (a b : observation I) : Prop :=
  close_pose (to_camera_mount a) (to_camera_mount b) /\ close_pose (to_target_mount a) (to_target_mount b) /\
  Forall2 (close_correspondence close) (correspondence_set a) (correspondence_set b).
Definition close_kinematic {I} (close : I -> I -> Prop) (a b : kin_observation I) : Prop :=
  close_joints (ko_camera_chain_joints a) (ko_camera_chain_joints b) /\
  close_joints (ko_target_chain_joints a) (ko_target_chain_joints b) /\
  Forall2 (close_correspondence close) (ko_correspondence_set a) (ko_correspondence_set b).
