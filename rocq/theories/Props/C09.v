(** C09: a DH link transform is the classical DH matrix, and rigid. *)
From Coq Require Import Reals String List.
From Verif.Base Require Import Geom Outcome.
From Verif.Model Require Import DhChain.
From Verif.Spec Require Import DhSpec.
From Verif.Proofs Require Import DhProofs DhExamples.
Local Open Scope R_scope.

Theorem C09_linear_joint :
  forall d theta r alpha mx mn name seed q od otheta or_ oalpha,
  createRelativeTransform (DHT (V4 d theta r alpha) LINEAR mx mn name seed) q (V4 od otheta or_ oalpha)
  = Ok (dh_matrix (d + od + q) (theta + otheta) (r + or_) (alpha + oalpha)).
Proof. exact relative_linear. Qed.
Print Assumptions C09_linear_joint.

Theorem C09_revolute_joint :
  forall d theta r alpha mx mn name seed q od otheta or_ oalpha,
  createRelativeTransform (DHT (V4 d theta r alpha) REVOLUTE mx mn name seed) q (V4 od otheta or_ oalpha)
  = Ok (dh_matrix (d + od) (theta + otheta + q) (r + or_) (alpha + oalpha)).
Proof. exact relative_revolute. Qed.
Print Assumptions C09_revolute_joint.

Theorem C09_unknown_joint_type :
  forall t q offsets, jtype t = OTHER -> createRelativeTransform t q offsets = Throw RuntimeError.
Proof. exact relative_other. Qed.
Print Assumptions C09_unknown_joint_type.

Theorem C09_dh_matrix_is_product :
  forall d theta r alpha,
  dh_matrix d theta r alpha
  = iso_mul (iso_mul (iso_mul (trans_z d) (rot_z theta)) (trans_x r)) (rot_x alpha).
Proof. exact dh_factors. Qed.
Print Assumptions C09_dh_matrix_is_product.

Theorem C09_dh_matrix_rigid : forall d theta r alpha, rigid (dh_matrix d theta r alpha).
Proof. exact dh_rigid. Qed.
Print Assumptions C09_dh_matrix_rigid.

(** A quarter turn of a joint with an offset in r *)
Example C09_example :
  createRelativeTransform (DHT (V4 1 0 2 0) REVOLUTE PI (- PI) "j" 0) (PI / 2) (V4 0 0 1 0)
  = Ok (Iso (M3 0 (-1) 0 1 0 0 0 0 1) (V3 0 3 1)).
Proof. exact ex_quarter_joint. Qed.
