(** Vocabulary for kinematic calibration. *)
From Coq Require Import Reals List.
From Verif.Base Require Import Geom Matrix.
Import ListNotations.
Local Open Scope R_scope.

(** Pose of the target in the camera frame: the camera sits at [camera_mount_to_camera] on the
    tip of the camera chain, the target at [target_mount_to_target] on the tip of the target
    chain, whose base is at [base_to_base] in the base frame of the camera chain. *)
Definition kin_target_in_camera (camera_tip camera_mount_to_camera base_to_base target_tip
                                 target_mount_to_target : iso) : iso :=
  iso_mul (iso_inv (iso_mul camera_tip camera_mount_to_camera))
          (iso_mul base_to_base (iso_mul target_tip target_mount_to_target)).

(** A rigid transform whose rotation is none at all or by more than machine epsilon (rad). *)
Definition turns_enough (T : iso) : Prop :=
  rigid T /\
  (lin T = I3 \/
   exists a u, dot u u = 1 /\ lin T = aa_matrix a u /\ 0 <= a <= PI /\ DBL_EPS < a).

(** [a] is the angle of the rotation taking orientation [B] to orientation [A]. *)
Definition angle_between (A B : mat3) (a : R) : Prop :=
  0 <= a <= PI /\ exists u, dot u u = 1 /\ A = mmul (aa_matrix a u) B.

(** Two matrices of the same dimensions with the same entries. *)
Definition same_matrix (A B : matrix) : Prop :=
  rows A = rows B /\ cols A = cols B /\
  forall i j, (i < rows A)%nat -> (j < cols A)%nat -> ent A i j = ent B i j.
