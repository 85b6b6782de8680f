(** C15: the quaternion update stays on the unit sphere and acts as a rotation update. *)
From Coq Require Import Reals.
From Verif.Base Require Import Geom.
From Verif.Model Require Import LocalParam.
From Verif.Proofs Require Import LocalParamProofs.
Local Open Scope R_scope.

(** The norm never changes; in particular unit quaternions stay unit. *)
Theorem C15_norm_preserved : forall x d, qnorm2 (quaternion_plus x d) = qnorm2 x.
Proof. exact plus_norm. Qed.
Print Assumptions C15_norm_preserved.

Theorem C15_zero_increment : forall x, quaternion_plus x (V3 0 0 0) = x.
Proof. exact plus_zero. Qed.
Print Assumptions C15_zero_increment.

Theorem C15_additive_along_direction :
  forall x d a b,
  quaternion_plus (quaternion_plus x (vscale a d)) (vscale b d) = quaternion_plus x (vscale (a + b) d).
Proof. exact plus_add_same_dir. Qed.
Print Assumptions C15_additive_along_direction.

Theorem C15_reaches_everything :
  forall x y, qnorm2 x = 1 -> qnorm2 y = 1 -> exists d, norm d <= PI /\ quaternion_plus x d = y.
Proof. exact plus_reaches. Qed.
Print Assumptions C15_reaches_everything.

(** The update is a rotation by twice the increment's length about its direction. *)
Theorem C15_rotation :
  forall x d, qnorm2 x = 1 ->
  q_matrix (quaternion_plus x d) = mmul (aa_matrix (2 * norm d) (normalized d)) (q_matrix x).
Proof. exact plus_rotates. Qed.
Print Assumptions C15_rotation.

Example C15_example : qnorm2 (Q (1/2) (1/2) (-1/2) (1/2)) = 1.
Proof. exact ex_unit. Qed.
