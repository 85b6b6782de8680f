(** C07: the two projectPoint overloads. *)
From Coq Require Import Reals Lra.
From Verif.Base Require Import Geom.
From Verif.Model Require Import Pose.
From Verif.Proofs Require Import PoseProofs.
Local Open Scope R_scope.

(** They do not agree everywhere: for a point behind the camera one divides by z and
    the other does not. *)
Theorem C07_overloads_agree_refuted :
  exists (k : intrinsics) (p : vec3), projectPoint_arr k p <> projectPoint_eig k p.
Proof. exact overloads_differ. Qed.
Print Assumptions C07_overloads_agree_refuted.

(** Exactly where they agree. *)
Theorem C07_overloads_agree_iff :
  forall (k : intrinsics) (p : vec3),
    projectPoint_arr k p = projectPoint_eig k p <->
    (vz p = 0 \/ 1 / 10 ^ 10 < vz p \/
     ((fx k = 0 \/ vx p = 0) /\ (fy k = 0 \/ vy p = 0))).
Proof. exact overloads_agree_iff. Qed.
Print Assumptions C07_overloads_agree_iff.

(** What holds: agreement for all points more than 1e-10 in front of the camera. *)
Theorem C07_overloads_agree_partial :
  forall (k : intrinsics) (p : vec3), 1 / 10 ^ 10 < vz p ->
    projectPoint_arr k p = projectPoint_eig k p.
Proof. exact (fun k p H => proj2 (overloads_agree_iff k p) (or_intror (or_introl H))). Qed.
Print Assumptions C07_overloads_agree_partial.

Example C07_in_front : 1 / 10 ^ 10 < vz (V3 1 2 4).
Proof. cbn. lra. Qed.
