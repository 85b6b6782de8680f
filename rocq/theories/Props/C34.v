(** C34: the lens model of the intrinsic calibration. [lens_project] is pin-hole projection through
    the Brown-Conrady model (Spec/IntrinsicSpec.v); [camera_of] and [lens_of] read the parameters from
    the array in the order fx, fy, cx, cy, k1, k2, p1, p2, k3. *)
From Coq Require Import Reals Arith List String.
From Verif.Base Require Import Geom Outcome.
From Verif.Model Require Import Pose Solver HandEye BlockSolver Intrinsic.
From Verif.Spec Require Import PinHole PnpSpec IntrinsicSpec.
From Verif.Proofs Require Import IntrinsicProofs.
Import ListNotations.
Local Open Scope R_scope.

Theorem C34_projection_is_brown_conrady :
  forall a p, vz p <> 0 -> projectPoints2 a p = lens_project (camera_of a) (lens_of a) p.
Proof. exact lens_eq. Qed.
Print Assumptions C34_projection_is_brown_conrady.

(** A point in the plane of the camera is projected as if it were at distance 1. *)
Theorem C34_projection_in_camera_plane :
  forall a p, vz p = 0 -> projectPoints2 a p = lens_project (camera_of a) (lens_of a) (V3 (vx p) (vy p) 1).
Proof. exact lens_plane. Qed.
Print Assumptions C34_projection_in_camera_plane.

Theorem C34_no_distortion_is_pinhole :
  forall k p, lens_project k no_distortion p = pinhole k p.
Proof. exact lens_none. Qed.
Print Assumptions C34_no_distortion_is_pinhole.

Theorem C34_principal_point_undistorted :
  forall k d z, lens_project k d (V3 0 0 z) = V2 (cx k) (cy k).
Proof. exact lens_axis. Qed.
Print Assumptions C34_principal_point_undistorted.

(** The cost of a correspondence is its reprojection error through the lens. *)
Theorem C34_cost_is_lens_error :
  forall x P a, vz (iso_app (poseCalToEigen P) (in_target x)) <> 0 ->
  intrinsic_cost (in_target x) (in_image x) P a = lens_error (camera_of a) (lens_of a) (poseCalToEigen P) x.
Proof. exact intrinsic_cost_eq. Qed.
Print Assumptions C34_cost_is_lens_error.

Theorem C34_undistorted_cost_is_pinhole_error :
  forall x P a, lens_of a = no_distortion -> vz (iso_app (poseCalToEigen P) (in_target x)) <> 0 ->
  intrinsic_cost (in_target x) (in_image x) P a = pixel_error (camera_of a) (poseCalToEigen P) x.
Proof. exact intrinsic_cost_undistorted. Qed.
Print Assumptions C34_undistorted_cost_is_pinhole_error.

(** No two lenses project all points alike: none of the five coefficients is redundant. *)
Theorem C34_coefficients_identifiable :
  forall k d d', fx k <> 0 -> fy k <> 0 ->
  (forall p, vz p <> 0 -> lens_project k d p = lens_project k d' p) -> d = d'.
Proof. exact lens_injective. Qed.
Print Assumptions C34_coefficients_identifiable.

Example C34_distorted_point :
  lens_project (Intr 500 400 320 240) (Dist (1/10) 0 (1/5) (3/10) 0) (V3 2 2 2) = V2 1720 1280.
Proof. exact ex_lens. Qed.
