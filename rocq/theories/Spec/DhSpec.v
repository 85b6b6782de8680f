(** Classical Denavit-Hartenberg kinematics, stated independently of the code. *)
From Coq Require Import Reals List.
From Verif.Base Require Import Geom.
From Verif.Model Require Import DhChain.
Import ListNotations.
Local Open Scope R_scope.

(** The textbook link matrix for parameters d, theta, r, alpha. *)
Definition dh_matrix (d theta r alpha : R) : iso :=
  Iso (M3 (cos theta) (- sin theta * cos alpha) (sin theta * sin alpha)
          (sin theta) (cos theta * cos alpha)   (- cos theta * sin alpha)
          0           (sin alpha)               (cos alpha))
      (V3 (r * cos theta) (r * sin theta) d).

(** Elementary motions. *)
Definition trans_z (d : R) : iso := iso_trans (V3 0 0 d).
Definition trans_x (r : R) : iso := iso_trans (V3 r 0 0).
Definition rot_z (t : R) : iso :=
  Iso (M3 (cos t) (- sin t) 0 (sin t) (cos t) 0 0 0 1) vzero.
Definition rot_x (a : R) : iso :=
  Iso (M3 1 0 0 0 (cos a) (- sin a) 0 (sin a) (cos a)) vzero.

(** Product of a base transform and a list of links, in order. *)
Definition product (base : iso) (links : list iso) : iso := fold_left iso_mul links base.

(** The transform of one joint: offsets are added to the parameters, the joint value to d
    (linear joint) or to theta (revolute joint). Only meant for known joint types. *)
Definition link (t : dh_transform) (offset : nat -> R) (q : R) : iso :=
  let p := params t in
  match jtype t with
  | LINEAR => dh_matrix (e0 p + offset 0%nat + q) (e1 p + offset 1%nat) (e2 p + offset 2%nat) (e3 p + offset 3%nat)
  | REVOLUTE => dh_matrix (e0 p + offset 0%nat) (e1 p + offset 1%nat + q) (e2 p + offset 2%nat) (e3 p + offset 3%nat)
  | OTHER => iso_id
  end.

(** The first [n] joints have a known type. *)
Definition known_types (c : dh_chain) (n : nat) : Prop :=
  forall i t, (i < n)%nat -> nth_error (transforms c) i = Some t -> jtype t <> OTHER.
