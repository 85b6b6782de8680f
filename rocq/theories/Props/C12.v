(** C12: baking DH offsets keeps joint names and limits. The code does not do this. *)
From Coq Require Import Reals String List.
From Verif.Base Require Import Geom Outcome Matrix.
From Verif.Model Require Import DhChain.
From Verif.Proofs Require Import DhProofs.
Import ListNotations.
Local Open Scope R_scope.

(** Full property: names, limits and labels are those of the original chain. *)
Theorem C12_keeps_names_and_limits_refuted :
  exists seeds c offsets c', bake_offsets seeds c offsets = Ok c' /\
  (dof c <= rows offsets)%nat /\
  map jname (transforms c') <> map jname (transforms c) /\
  map jmax (transforms c') <> map jmax (transforms c) /\
  map jmin (transforms c') <> map jmin (transforms c) /\
  chainParamLabels c' <> chainParamLabels c.
Proof. exact names_lost. Qed.
Print Assumptions C12_keeps_names_and_limits_refuted.

(** It holds exactly for chains that have the default name and limits already. *)
Theorem C12_keeps_names_and_limits_partial :
  forall seeds c offsets c', bake_offsets seeds c offsets = Ok c' ->
  (map (fun t => (jname t, (jmin t, jmax t))) (transforms c')
   = map (fun t => (jname t, (jmin t, jmax t))) (transforms c) <->
   forall t, In t (transforms c) -> jname t = "joint"%string /\ jmin t = - PI /\ jmax t = PI).
Proof. exact bake_keeps_iff. Qed.
Print Assumptions C12_keeps_names_and_limits_partial.

Theorem C12_keeps_labels_partial :
  forall seeds c offsets c', bake_offsets seeds c offsets = Ok c' ->
  (chainParamLabels c' = chainParamLabels c <-> forall t, In t (transforms c) -> jname t = "joint"%string).
Proof. exact bake_labels_iff. Qed.
Print Assumptions C12_keeps_labels_partial.

Example C12_example : forall seeds, exists c', bake_offsets seeds ex_chain ex_offsets = Ok c'.
Proof. exact ex_bake. Qed.
