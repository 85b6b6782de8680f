(** C10: forward kinematics composes the links and validates sizes. *)
From Coq Require Import Reals ZArith List.
From Verif.Base Require Import Geom Outcome Matrix.
From Verif.Model Require Import DhChain.
From Verif.Spec Require Import DhSpec.
From Verif.Proofs Require Import DhProofs.
Import ListNotations.
Local Open Scope R_scope.

Theorem C10_value :
  forall c q offsets T, getFK c q offsets = Ok T ->
  exists links,
    (length links = length q /\
     forall i t x, nth_error (transforms c) i = Some t -> nth_error q i = Some x ->
                   nth_error links i = Some (link t (ent offsets i) x)) /\
    T = product (base_offset c) links.
Proof. exact fk_value_ok. Qed.
Print Assumptions C10_value.

Theorem C10_throws_iff :
  forall c q offsets, getFK c q offsets = Throw RuntimeError <->
  (dof c < length q)%nat \/ (rows offsets < length q)%nat \/
  (exists i t, (i < length q)%nat /\ nth_error (transforms c) i = Some t /\ jtype t = OTHER).
Proof. exact fk_throws_iff. Qed.
Print Assumptions C10_throws_iff.

Theorem C10_returns_iff :
  forall c q offsets, (exists T, getFK c q offsets = Ok T) <->
  (length q <= dof c)%nat /\ (length q <= rows offsets)%nat /\
  (forall i t, (i < length q)%nat -> nth_error (transforms c) i = Some t -> jtype t <> OTHER).
Proof. exact fk_ok_iff. Qed.
Print Assumptions C10_returns_iff.

Theorem C10_rigid :
  forall c q offsets T, rigid (base_offset c) -> getFK c q offsets = Ok T -> rigid T.
Proof. exact fk_rigid. Qed.
Print Assumptions C10_rigid.

Theorem C10_extend :
  forall c q offsets T t x, getFK c q offsets = Ok T ->
  nth_error (transforms c) (length q) = Some t -> jtype t <> OTHER -> (length q < rows offsets)%nat ->
  getFK c (q ++ [x]) offsets = Ok (iso_mul T (link t (ent offsets (length q)) x)).
Proof. exact fk_extend. Qed.
Print Assumptions C10_extend.

(** The same, without offsets, through getRelativeTransform. *)
Theorem C10_extend_relative :
  forall c q T L x, getFK0 c q = Ok T ->
  getRelativeTransform c (Z.of_nat (length q)) x = Ok L -> getFK0 c (q ++ [x]) = Ok (iso_mul T L).
Proof. exact fk_extend_relative. Qed.
Print Assumptions C10_extend_relative.

Example C10_example : exists T, getFK ex_chain [1; 1/2] ex_offsets = Ok T /\ rigid T.
Proof. exact ex_fk. Qed.
