(** Vocabulary for lines, planes and back-projection. *)
From Coq Require Import Reals List.
From Verif.Base Require Import Geom.
From Verif.Model Require Import Pose HandEye.
From Verif.Spec Require Import PinHole.
Import ListNotations.
Local Open Scope R_scope.

Definition on_plane (normal pt p : vec3) : Prop := dot (vsub p pt) normal = 0.
Definition on_line (direction pt p : vec3) : Prop := exists t, p = vadd pt (vscale t direction).

(** The camera matrix of a camera. *)
Definition camera_matrix (k : intrinsics) : mat3 := M3 (fx k) 0 (cx k) 0 (fy k) (cy k) 0 0 1.
(** Direction, in the camera frame, in which a pixel looks. *)
Definition sight (k : intrinsics) (pixel : vec2) : vec3 :=
  V3 ((px pixel - cx k) / fx k) ((py pixel - cy k) / fy k) 1.
(** The direction crosses the target's plane at an angle whose sine is at least one millionth. *)
Definition crosses_plane (T : iso) (direction : vec3) : Prop :=
  1 / 10 ^ 6 * norm direction <= Rabs (dot direction (col2 (lin T))).
