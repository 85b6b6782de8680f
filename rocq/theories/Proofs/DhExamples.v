(** Examples for C09 and C52. *)
From Coq Require Import Reals ZArith String List Lra.
From Verif.Base Require Import Geom Outcome Matrix.
From Verif.Model Require Import DhChain.
From Verif.Spec Require Import DhSpec.
From Verif.Proofs Require Import DhProofs.
Import ListNotations.
Local Open Scope R_scope.

Lemma ex_quarter_joint :
  createRelativeTransform (DHT (V4 1 0 2 0) REVOLUTE PI (- PI) "j" 0) (PI / 2) (V4 0 0 1 0)
  = Ok (Iso (M3 0 (-1) 0 1 0 0 0 0 1) (V3 0 3 1)).
Proof.
  rewrite relative_revolute. f_equal. unfold dh_matrix.
  replace (0 + 0 + PI / 2) with (PI / 2) by lra. replace (0 + 0) with 0 by lra.
  rewrite cos_PI2, sin_PI2, cos_0, sin_0. f_equal; f_equal; lra.
Qed.

Lemma ex_access : let c := DHChain [DHT (V4 1 0 2 0) REVOLUTE PI (- PI) "j1" 0; DHT (V4 3 0 4 0) LINEAR 1 0 "j2" 0] iso_id in
  (forall u, ent (getDHTable u c) 1 2 = 4) /\ getRelativeTransform c (-1) 0 = Throw RuntimeError /\
  getRelativeTransform c 2 0 = Throw RuntimeError /\ exists T, getRelativeTransform c 1 0 = Ok T.
Proof.
  intro c. split; [ | split; [ | split ] ].
  - intro u. exact (proj2 (proj2 (dh_table u c)) 1%nat 2%nat (DHT (V4 3 0 4 0) LINEAR 1 0 "j2" 0) eq_refl (le_S _ _ (le_n 3))).
  - rewrite relative_index. reflexivity.
  - rewrite relative_index. reflexivity.
  - eexists. rewrite relative_index. reflexivity.
Qed.
