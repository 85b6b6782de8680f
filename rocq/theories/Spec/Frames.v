(** Frame vocabulary for the calibration properties. *)
From Coq Require Import Reals List.
From Verif.Base Require Import Geom.
From Verif.Model Require Import HandEye.
Import ListNotations.
Local Open Scope R_scope.

(** A rigid transform whose rotation is either none at all or by an angle whose square
    exceeds machine epsilon (that is, larger than about 1.5e-8 rad). *)
Definition plain_pose (T : iso) : Prop :=
  rigid T /\
  (lin T = I3 \/
   exists a u, dot u u = 1 /\ lin T = aa_matrix a u /\ 0 <= a <= PI /\ DBL_EPS < a * a).

(** All mount poses of the data set are such. *)
Definition plain_obs {I} (os : list (observation I)) : Prop :=
  forall o, In o os -> plain_pose (to_camera_mount o) /\ plain_pose (to_target_mount o).

(** Pose of the target in the camera frame, from the two calibrated transforms and the
    two mount poses:  (M_c C)^-1 (M_t T). *)
Definition target_in_camera (camera_mount_to_camera to_camera_mount to_target_mount
                             target_mount_to_target : iso) : iso :=
  iso_mul (iso_inv (iso_mul to_camera_mount camera_mount_to_camera))
          (iso_mul to_target_mount target_mount_to_target).

(** All (observation, correspondence) pairs in the order they are stored. *)
Definition all_pairs {I} (os : list (observation I)) : list (observation I * correspondence I) :=
  flat_map (fun o => map (fun c => (o, c)) (correspondence_set o)) os.
