(** C01: transforming a point with a pose vector and with the matrix made from it agree. *)
From Coq Require Import Reals.
From Verif.Base Require Import Geom.
From Verif.Model Require Import Pose.
From Verif.Proofs Require Import PoseProofs.
Local Open Scope R_scope.

Theorem C01_pose_vector_and_matrix_agree :
  forall (p : pose6) (pt : vec3), poseTransformPoint p pt = iso_app (poseCalToEigen p) pt.
Proof. exact (fun p pt => eq_sym (cal_to_eigen_acts p pt)). Qed.
Print Assumptions C01_pose_vector_and_matrix_agree.

(** The same for the form taking angle-axis and translation separately. *)
Theorem C01_transformPoint_agrees :
  forall (p : pose6) (pt : vec3),
    transformPoint (V3 (p_rx p) (p_ry p) (p_rz p)) (V3 (p_x p) (p_y p) (p_z p)) pt
    = iso_app (poseCalToEigen p) pt.
Proof. exact transformPoint_pose. Qed.
Print Assumptions C01_transformPoint_agrees.

(** A quarter turn about x followed by a translation, on the y unit vector. *)
Example C01_quarter_turn : poseTransformPoint (P6 (PI / 2) 0 0 1 2 3) (V3 0 1 0) = V3 1 2 4.
Proof. exact quarter_x_acts. Qed.
