(** C60 Printed transforms and differences describe the transforms. *)
From Coq Require Import Reals String List.
From Verif.Base Require Import Geom.
From Verif.Model Require Import Print.
From Verif.Spec Require Import YamlSpec PrintSpec.
From Verif.Proofs Require Import EulerProofs PrintProofs.
Import ListNotations.
Local Open Scope string_scope.
Local Open Scope R_scope.

(** printTransform: the matrix, the translation, roll, pitch and yaw (radians and degrees) that give the rotation, and a unit quaternion (x, y, z, w) that gives it too. *)
Theorem C60_transform : forall parent child text, no_label parent -> no_label child -> no_label text -> forall T, rigid T -> exists roll pitch yaw q,
  let out := printTransform T parent child text in
  matrices out = [T] /\ said "xyz=""" out = [xyz_numbers (tr T)] /\ said "rpy=""" out = [rpy_numbers roll pitch yaw] /\ said "qxyzw=""" out = [[qx q; qy q; qz q; qw q]] /\
  rpy_matrix roll pitch yaw = lin T /\ qnorm2 q = 1 /\ q_matrix q = lin T.
Proof. exact transform_numbers. Qed.
Print Assumptions C60_transform.

(** printTransformDiff: the transform that takes the first to the second; both distances printed are the distance between the origins; the angle is the angle of the difference rotation in degrees (between 0 and 180); roll, pitch and yaw give that rotation. *)
Theorem C60_difference : forall parent child text, no_label parent -> no_label child -> no_label text -> forall T1 T2, rigid T1 -> rigid T2 -> exists D angle roll pitch yaw,
  let out := printTransformDiff T1 T2 parent child text in
  let moved := vsub (tr T2) (tr T1) in
  iso_mul T1 D = T2 /\ rpy_matrix roll pitch yaw = lin D /\ turns_by (lin D) angle /\
  matrices out = [D] /\
  said "DELTA S: " out = [norm moved :: xyz_numbers moved; norm moved :: xyz_numbers (tr D)] /\
  said "DELTA A: " out = [degrees angle :: rpy_numbers roll pitch yaw; degrees angle :: rpy_numbers roll pitch yaw].
Proof. exact diff_numbers. Qed.
Print Assumptions C60_difference.

(** printOptResults: the square roots of the costs per observation. *)
Theorem C60_costs : forall converged initial final, 0 <= initial -> 0 <= final -> exists x y, let out := printOptResults converged initial final in
  said "Did converge?: " out = [[if converged then 1 else 0]] /\ said "Initial cost?: " out = [[x]] /\ said "Final cost?: " out = [[y]] /\ 0 <= x /\ 0 <= y /\ x * x = initial /\ y * y = final.
Proof. exact opt_numbers. Qed.
Print Assumptions C60_costs.

(** The frame names in use are no labels; transforms are rigid. *)
Example C60_names : no_label "Base" /\ no_label "Camera" /\ no_label "Base to Camera".
Proof. repeat split; intros H; cbn in H; repeat (destruct H as [H | H]; [ discriminate | ]); exact H. Qed.
Example C60_rigid : rigid (Iso (rot_z 1) (V3 1 2 3)).
Proof. exact (rot_z_rot 1). Qed.
