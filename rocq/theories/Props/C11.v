(** C11: baking DH offsets into a chain preserves its kinematics. *)
From Coq Require Import Reals List.
From Verif.Base Require Import Geom Outcome Matrix.
From Verif.Model Require Import DhChain.
From Verif.Proofs Require Import DhProofs.
Import ListNotations.
Local Open Scope R_scope.

(** Same outcome for every joint vector, exceptions included. *)
Theorem C11_same_kinematics :
  forall seeds c offsets c', bake_offsets seeds c offsets = Ok c' ->
  forall q, getFK0 c' q = getFK c q offsets.
Proof. exact (fun seeds c o c' H q => bake_fk seeds c o c' q H). Qed.
Print Assumptions C11_same_kinematics.

(** Further offsets on the new chain add to the baked ones. *)
Theorem C11_further_offsets :
  forall seeds c offsets c', bake_offsets seeds c offsets = Ok c' ->
  forall q more,
  getFK c' q more = getFK c q (Mat (rows more) 4 (fun i j => ent offsets i j + ent more i j)).
Proof. exact (fun seeds c o c' H q more => bake_fk_more seeds c o c' q more H). Qed.
Print Assumptions C11_further_offsets.

Theorem C11_same_shape :
  forall seeds c offsets c', bake_offsets seeds c offsets = Ok c' ->
  dof c' = dof c /\ getJointTypes c' = getJointTypes c /\ base_offset c' = base_offset c.
Proof. exact bake_shape. Qed.
Print Assumptions C11_same_shape.

(** The constructor succeeds exactly when there is a row per link. *)
Theorem C11_defined_iff :
  forall seeds c offsets, (dof c <= rows offsets)%nat <-> exists c', bake_offsets seeds c offsets = Ok c'.
Proof. exact bake_exists. Qed.
Print Assumptions C11_defined_iff.

Example C11_example : forall seeds, exists c', bake_offsets seeds ex_chain ex_offsets = Ok c'.
Proof. exact ex_bake. Qed.
