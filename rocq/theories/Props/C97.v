(** C97: projection in double precision. [projectPoint64] and [projectPointEigen64] are the two functions on IEEE doubles,
    rounding at every operation (Base/Float.v, Model/FloatCode.v). [pixel_of], [point_of] and [intrinsics_of] are the real
    numbers that doubles stand for; [unit64] is 2^-53, [least64] is 2^-1074 (Spec/FloatSpec.v). *)
From Coq Require Import ZArith Reals.
From Verif.Base Require Import Geom Float.
From Verif.Model Require Import Pose FloatCode.
From Verif.Spec Require Import PinHole FloatSpec.
From Verif.Proofs Require Import FloatProjection.
Local Open Scope R_scope.

(** The result is finite, and its error is a few roundings of the distance from the principal point, of the principal point
    itself, and what gets lost in underflow. *)
Theorem C97_error :
  forall k p, finite_intrinsics k -> finite_point p -> dval (dz p) <> 0 -> moderate (intrinsics_of k) (point_of p) ->
  let exact_pixel := pinhole (intrinsics_of k) (point_of p) in
  let q := pixel_of (projectPoint64 k p) in
  finite_pixel (projectPoint64 k p) /\
  Rabs (px q - px exact_pixel) <=
    4 * unit64 * Rabs (px exact_pixel - dval (dcx k)) + unit64 * Rabs (dval (dcx k)) + least64 * (Rabs (dval (dfx k)) + 2) /\
  Rabs (py q - py exact_pixel) <=
    4 * unit64 * Rabs (py exact_pixel - dval (dcy k)) + unit64 * Rabs (dval (dcy k)) + least64 * (Rabs (dval (dfy k)) + 2).
Proof. exact project64. Qed.
Print Assumptions C97_error.

(** For cameras and images of ordinary size it is below 10^-10 of a pixel. *)
Theorem C97_pixels :
  forall k p, finite_intrinsics k -> finite_point p -> dval (dz p) <> 0 ->
  let e := pinhole (intrinsics_of k) (point_of p) in
  Rabs (dval (dfx k)) <= 1000000 -> Rabs (dval (dfy k)) <= 1000000 ->
  Rabs (dval (dcx k)) <= 10000 -> Rabs (dval (dcy k)) <= 10000 ->
  Rabs (dval (dx p) / dval (dz p)) <= 1000000 -> Rabs (dval (dy p) / dval (dz p)) <= 1000000 ->
  Rabs (px e) <= 10000 -> Rabs (py e) <= 10000 ->
  let q := pixel_of (projectPoint64 k p) in
  finite_pixel (projectPoint64 k p) /\ Rabs (px q - px e) <= 1 / 10 ^ 10 /\ Rabs (py q - py e) <= 1 / 10 ^ 10.
Proof. exact project64_pixels. Qed.
Print Assumptions C97_pixels.

(** In front of the camera both functions return the same numbers, in whichever order Eigen adds. *)
Theorem C97_functions_agree :
  forall left k p, finite_intrinsics k -> finite_point p -> moderate (intrinsics_of k) (point_of p) ->
  1 / 10 ^ 9 <= dval (dz p) <= two_to 1000 ->
  finite_pixel (projectPointEigen64 left k p) /\ pixel_of (projectPointEigen64 left k p) = pixel_of (projectPoint64 k p).
Proof. exact projections_agree. Qed.
Print Assumptions C97_functions_agree.

Example C97_example :
  finite_intrinsics ex_dcamera /\ finite_point ex_dpoint /\ dval (dz ex_dpoint) <> 0 /\
  moderate (intrinsics_of ex_dcamera) (point_of ex_dpoint) /\
  1 / 10 ^ 9 <= dval (dz ex_dpoint) <= two_to 1000 /\
  pinhole (intrinsics_of ex_dcamera) (point_of ex_dpoint) = V2 (320 + 500 / 3) (240 - 1000 / 3).
Proof. exact ex_dproject. Qed.
