(** Vocabulary for the PnP and multi-camera properties. *)
From Coq Require Import Reals List.
From Verif.Base Require Import Geom.
From Verif.Model Require Import Pose HandEye.
From Verif.Spec Require Import PinHole.
Import ListNotations.
Local Open Scope R_scope.

(** The point lies in front of the camera, by more than the 1e-10 the code asks for. *)
Definition in_front (p : vec3) : Prop := 1 / 10 ^ 10 < vz p.
(** Pin-hole reprojection error of a correspondence, for a target at pose [T] in the camera frame. *)
Definition pixel_error (k : intrinsics) (T : iso) (c : correspondence vec2) : list R :=
  let q := pinhole k (iso_app T (in_target c)) in
  [px q - px (in_image c); py q - py (in_image c)].
(** Position error of a 3D correspondence. *)
Definition point_error (T : iso) (c : correspondence vec3) : list R :=
  let q := iso_app T (in_target c) in
  [vx q - vx (in_image c); vy q - vy (in_image c); vz q - vz (in_image c)].
