(** Vocabulary for the homography validation. *)
From Coq Require Import Reals List.
From Verif.Base Require Import Geom Matrix.
From Verif.Model Require Import Pose HandEye Homography.
From Verif.Spec Require Import PinHole.
Import ListNotations.
Local Open Scope R_scope.

(** A point of the target plane in homogeneous coordinates. *)
Definition plane_point (p : vec3) : vec3 := V3 (vx p) (vy p) 1.

(** The homography H takes the target point of the correspondence to its image point. *)
Definition related (H : mat3) (c : correspondence vec2) : Prop :=
  let q := mvec H (plane_point (in_target c)) in
  vz q <> 0 /\ px (in_image c) = vx q / vz q /\ py (in_image c) = vy q / vz q.

(** Three points of the plane are not on a line: the triangle has an area. *)
Definition not_collinear (a b c : vec3) : Prop :=
  (vx b - vx a) * (vy c - vy a) - (vx c - vx a) * (vy b - vy a) <> 0.
(** Four points of which no three are on a line. *)
Definition general_position (a b c d : vec3) : Prop :=
  not_collinear a b c /\ not_collinear a b d /\ not_collinear a c d /\ not_collinear b c d.

(** The values x solve the linear equations. *)
Definition sum8 (f : nat -> R) : R :=
  f 0%nat + f 1%nat + f 2%nat + f 3%nat + f 4%nat + f 5%nat + f 6%nat + f 7%nat.
Definition solves (x : nat -> R) (system : list ((nat -> R) * R)) : Prop :=
  forall a b, In (a, b) system -> sum8 (fun j => a j * x j) = b.
(** The solver returns a solution whenever there is one. *)
Definition exact_solver (lu : lu_solver) : Prop :=
  forall system, (exists x, solves x system) -> solves (lu system) system.

(** The homography H is consistent with the correspondence, up to scale (also at infinity). *)
Definition fits (H : mat3) (c : correspondence vec2) : Prop :=
  let q := mvec H (plane_point (in_target c)) in
  vx q = px (in_image c) * vz q /\ vy q = py (in_image c) * vz q.
(** Distance in the image between the observed point and the one the homography predicts. *)
Definition transfer_error (H : mat3) (c : correspondence vec2) : R :=
  let q := mvec H (plane_point (in_target c)) in
  norm2 (v2sub (in_image c) (V2 (vx q / vz q) (vy q / vz q))).

(** A flat target (z = 0) seen by a pin-hole camera, the target being at pose [T] in the camera frame. *)
Definition seen_by_camera (k : intrinsics) (T : iso) (c : correspondence vec2) : Prop :=
  vz (in_target c) = 0 /\ vz (iso_app T (in_target c)) <> 0 /\
  in_image c = pinhole k (iso_app T (in_target c)).
(** The same for a sensor that measures points. *)
Definition seen_by_sensor (T : iso) (c : correspondence vec3) : Prop :=
  vz (in_target c) = 0 /\ vz (iso_app T (in_target c)) <> 0 /\
  in_image c = iso_app T (in_target c).
