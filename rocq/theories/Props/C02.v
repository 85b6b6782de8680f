(** C02: when poseCalToEigen returns a rigid transform, and how far it is off otherwise. *)
From Coq Require Import Reals.
From Verif.Base Require Import Geom.
From Verif.Model Require Import Pose.
From Verif.Spec Require Import PinHole.
From Verif.Proofs Require Import PoseProofs.
Local Open Scope R_scope.

(** [rigid T] : the linear part is orthonormal with determinant 1. *)
Theorem C02_rigid_iff :
  forall p : pose6,
    rigid (poseCalToEigen p) <->
    V3 (p_rx p) (p_ry p) (p_rz p) = vzero \/
    DBL_EPS < p_rx p * p_rx p + p_ry p * p_ry p + p_rz p * p_rz p.
Proof. exact cal_to_eigen_rigid_iff. Qed.
Print Assumptions C02_rigid_iff.

(** In every case R^T R and det R are within machine epsilon of a rotation's. *)
Theorem C02_deviation_bounded :
  forall p : pose6,
    mat_close DBL_EPS (mmul (mT (lin (poseCalToEigen p))) (lin (poseCalToEigen p))) I3 /\
    Rabs (det (lin (poseCalToEigen p)) - 1) <= DBL_EPS.
Proof. exact (fun p => conj (cal_to_eigen_gram p) (cal_to_eigen_det p)). Qed.
Print Assumptions C02_deviation_bounded.

(** The exact branch is inhabited by an ordinary pose ... *)
Example C02_ordinary : rigid (poseCalToEigen (P6 (PI / 2) 0 0 1 2 3)).
Proof. exact (proj2 (C02_rigid_iff quarter_x) (or_intror quarter_x_big)). Qed.

(** ... and there are poses whose matrix is not a rotation. *)
Theorem C02_always_rigid_refuted : exists p : pose6, ~ rigid (poseCalToEigen p).
Proof. exact small_not_rigid. Qed.
Print Assumptions C02_always_rigid_refuted.
