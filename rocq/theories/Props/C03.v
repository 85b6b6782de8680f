(** C03: converting a rigid transform to a pose vector and back. *)
From Coq Require Import Reals.
From Verif.Base Require Import Geom.
From Verif.Model Require Import Pose.
From Verif.Spec Require Import PinHole.
From Verif.Proofs Require Import PoseProofs AngleAxisLemmas.
Local Open Scope R_scope.

(** Exact, unless the rotation vector is non-zero with squared norm at most epsilon. *)
Theorem C03_round_trip_exact :
  forall T : iso, rigid T ->
    pose_aa (poseEigenToCal T) = vzero \/
    DBL_EPS < dot (pose_aa (poseEigenToCal T)) (pose_aa (poseEigenToCal T)) ->
    poseCalToEigen (poseEigenToCal T) = T.
Proof. exact round_trip_exact. Qed.
Print Assumptions C03_round_trip_exact.

(** In every case: same translation, and every matrix entry within epsilon. *)
Theorem C03_round_trip_close :
  forall T : iso, rigid T ->
    tr (poseCalToEigen (poseEigenToCal T)) = tr T /\
    mat_close DBL_EPS (lin (poseCalToEigen (poseEigenToCal T))) (lin T).
Proof. exact round_trip_close. Qed.
Print Assumptions C03_round_trip_close.

(** The rotation vector is at most a half turn. *)
Theorem C03_half_turn :
  forall T : iso, rigid T -> norm (pose_aa (poseEigenToCal T)) <= PI.
Proof. exact eigen_to_cal_range. Qed.
Print Assumptions C03_half_turn.

(** Vector to matrix to vector, for rotations of less than half a turn. *)
Theorem C03_vector_round_trip :
  forall p : pose6,
    DBL_EPS < dot (pose_aa p) (pose_aa p) -> norm (pose_aa p) < PI ->
    poseEigenToCal (poseCalToEigen p) = p.
Proof. exact round_trip_cal. Qed.
Print Assumptions C03_vector_round_trip.

(** The hypotheses hold for a quarter turn about x, which is recovered exactly. *)
Example C03_quarter_turn :
  poseEigenToCal (poseCalToEigen (P6 (PI / 2) 0 0 1 2 3)) = P6 (PI / 2) 0 0 1 2 3.
Proof. exact quarter_x_round. Qed.

(** A half turn about x: the matrix where the angle-axis extraction is most delicate. *)
Example C03_half_turn_x :
  poseCalToEigen (poseEigenToCal (Iso (M3 1 0 0 0 (-1) 0 0 0 (-1)) (V3 1 2 3)))
  = Iso (M3 1 0 0 0 (-1) 0 0 0 (-1)) (V3 1 2 3).
Proof. exact half_x_round. Qed.
