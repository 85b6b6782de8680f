(** C52: the accessors of a DH chain report its links. *)
From Coq Require Import Reals ZArith String List.
From Verif.Base Require Import Geom Outcome Matrix.
From Verif.Model Require Import DhChain.
From Verif.Proofs Require Import DhProofs DhExamples.
Import ListNotations.
Local Open Scope R_scope.

(** Every entry of the table is set, whatever the matrix held before. *)
Theorem C52_dh_table :
  forall u c, rows (getDHTable u c) = dof c /\ cols (getDHTable u c) = 4%nat /\
  forall i j t, nth_error (transforms c) i = Some t -> (j < 4)%nat ->
  ent (getDHTable u c) i j = coef4 (params t) j.
Proof. exact dh_table. Qed.
Print Assumptions C52_dh_table.

Theorem C52_joint_types : forall c, getJointTypes c = map jtype (transforms c).
Proof. exact getJointTypes_map. Qed.
Print Assumptions C52_joint_types.

Theorem C52_labels : forall c, chainParamLabels c =
  map (fun t => [String.append (jname t) "_d"; String.append (jname t) "_theta";
                 String.append (jname t) "_r"; String.append (jname t) "_alpha"]%string) (transforms c).
Proof. exact chainParamLabels_map. Qed.
Print Assumptions C52_labels.

(** getRelativeTransform throws for every index outside the chain, negative ones included. *)
Theorem C52_relative_transform :
  forall c i q, getRelativeTransform c i q =
  match (if (i <? 0)%Z then None else nth_error (transforms c) (Z.to_nat i)) with
  | None => Throw RuntimeError
  | Some t => createRelativeTransform t q (V4 0 0 0 0)
  end.
Proof. exact relative_index. Qed.
Print Assumptions C52_relative_transform.

Example C52_example : let c := DHChain [DHT (V4 1 0 2 0) REVOLUTE PI (- PI) "j1" 0; DHT (V4 3 0 4 0) LINEAR 1 0 "j2" 0] iso_id in
  (forall u, ent (getDHTable u c) 1 2 = 4) /\ getRelativeTransform c (-1) 0 = Throw RuntimeError /\
  getRelativeTransform c 2 0 = Throw RuntimeError /\ exists T, getRelativeTransform c 1 0 = Ok T.
Proof. exact ex_access. Qed.
