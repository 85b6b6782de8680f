(** Which scalar sits where in a pose vector, and the names it should be reported under. *)
From Coq Require Import Reals Arith String List.
From Verif.Base Require Import Geom.
From Verif.Model Require Import Pose Covariance HandEye MultiCamera Intrinsic.
Import ListNotations.
Local Open Scope R_scope.

(** Six numbers as a pose vector (types.h:33-52). *)
Definition pose_of_slots (a : nat -> R) : pose6 := P6 (a 0%nat) (a 1%nat) (a 2%nat) (a 3%nat) (a 4%nat) (a 5%nat).
(** The name of each slot: three of the rotation vector, then three of the translation. *)
Definition slot_name (i : nat) : string := nth i ["rx"; "ry"; "rz"; "x"; "y"; "z"]%string ""%string.
(** The name of element [snd e] of the pose in block [fst e]. *)
Definition pose_name (pose : nat -> string) (e : nat * nat) : string :=
  String.append (pose (fst e)) (String.append "_" (slot_name (snd e))).
(** The names the code uses: those of a vector that starts with the translation. *)
Definition swapped_name (pose : nat -> string) (e : nat * nat) : string :=
  String.append (pose (fst e)) (String.append "_" (nth (snd e) ["x"; "y"; "z"; "rx"; "ry"; "rz"]%string ""%string)).

(** The pose each block is reported under: hand-eye, several static cameras, intrinsic. *)
Definition he_pose (l : he_labels) (k : nat) : string :=
  if Nat.eqb k key_camera then label_camera_mount_to_camera l else label_target_mount_to_target l.
Definition static_pose (p : static_problem) (k : nat) : string :=
  if Nat.eqb k (List.length (sp_base_to_camera_guess p)) then sp_label_wrist_to_target p
  else String.append (sp_label_base_to_camera p) (to_string k).
Definition intrinsic_pose (p : intrinsic_problem) (k : nat) : string := String.append (ip_label_extr p) (to_string k).
