(** Vocabulary for the question when pictures of a flat target determine the intrinsics of a camera. *)
From Coq Require Import Reals List.
From Verif.Base Require Import Geom.
From Verif.Model Require Import Pose Solver HandEye BlockSolver Intrinsic.
From Verif.Spec Require Import PinHole PnpSpec IntrinsicSpec UniqueSpec.
Import ListNotations.
Local Open Scope R_scope.

(** The sides of the target, as directions in the camera frame. *)
Definition side_x (T : iso) : vec3 := V3 (m00 (lin T)) (m10 (lin T)) (m20 (lin T)).
Definition side_y (T : iso) : vec3 := V3 (m01 (lin T)) (m11 (lin T)) (m21 (lin T)).

(** The conditions which a picture puts on a camera: both sides of the target are equally long and perpendicular.
    For a symmetric matrix A with A01 = A22 = 0 (the other entries are p, q, r, s) these are linear equations. *)
Definition form (p q r s : R) (u v : vec3) : R :=
  p * (vx u * vx v) + q * (vy u * vy v) + r * (vx u * vz v + vz u * vx v) + s * (vy u * vz v + vz u * vy v).
(** The target poses determine a camera: the equations of all pictures together have only the zero solution. *)
Definition poses_determine_camera (views : list iso) : Prop :=
  forall p q r s,
  (forall T, In T views ->
     form p q r s (side_x T) (side_y T) = 0 /\ form p q r s (side_x T) (side_x T) = form p q r s (side_y T) (side_y T)) ->
  p = 0 /\ q = 0 /\ r = 0 /\ s = 0.

(** The target plane is parallel to the image. *)
Definition parallel_to_image (T : iso) : Prop := m20 (lin T) = 0 /\ m21 (lin T) = 0.

(** A picture without measurement error, of a flat target at pose [T], by a camera with this lens. *)
Definition perfect_lens_image (k : intrinsics) (d : distortion) (T : iso) (cs : list (correspondence vec2)) : Prop :=
  forall c, In c cs -> vz (in_target c) = 0 /\ in_front (iso_app T (in_target c)) /\
    in_image c = lens_project k d (iso_app T (in_target c)).

(** The poses at which an optimization ends are rigid, and no point lies in the plane of the camera. *)
Definition ends_at_poses (p : intrinsic_problem) (m : mem) : Prop :=
  forall i cs, nth_error (ip_image_observations p) i = Some cs ->
  let T := poseCalToEigen (read_pose m i) in rigid T /\ forall c, In c cs -> vz (iso_app T (in_target c)) <> 0.

(** The lens that, on a target [l] times as far away, looks like [d]. *)
Definition stretched (l : R) (d : distortion) : distortion :=
  Dist (l ^ 2 * d_k1 d) (l ^ 4 * d_k2 d) (l * d_p1 d) (l * d_p2 d) (l ^ 6 * d_k3 d).
