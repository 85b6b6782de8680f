(** When the motions of a data set determine the calibration. *)
From Coq Require Import Reals List.
From Verif.Base Require Import Geom.
From Verif.Model Require Import HandEye.
From Verif.Spec Require Import UniqueSpec.
Import ListNotations.
Local Open Scope R_scope.

(** All motions leave some direction alone. *)
Definition leave_a_direction (motions : list iso) : Prop :=
  exists d, d <> vzero /\ forall A, In A motions -> mvec (lin A) d = d.
(** The line through [q] with direction [u] *)
Definition on_line (q u x : vec3) : Prop := exists s, x = vadd q (vscale s u).
(** All motions take some line to itself. *)
Definition keep_a_line (motions : list iso) : Prop :=
  exists q u, u <> vzero /\ forall A, In A motions -> forall x, on_line q u x -> on_line q u (iso_app A x).
Definition tell_all (motions : list iso) : Prop := ~ leave_a_direction motions /\ ~ keep_a_line motions.

(** The calibrations [X], [Z] that cannot be told from [X0], [Z0] when the target mount was at [Ws] in the frame of the camera
    mount: the camera is moved by a [G] that does not change any of the motions, and the target so that it is where it was
    as seen from the camera. *)
Definition alternative (Ws : list iso) (X0 Z0 X Z : iso) : Prop :=
  exists G, rigid G /\ (forall A, In A (motions_of Ws) -> iso_mul G A = iso_mul A G) /\
    X = iso_mul G X0 /\ forall W, In W Ws -> iso_mul W Z = iso_mul G (iso_mul W Z0).

(** How the wrist moved, in its own frame, between the pictures that one camera took, for all cameras. *)
Definition wrist_motions (cameras : nat) (pictures : nat -> nat) (wrist : nat -> nat -> iso) : list iso :=
  flat_map (fun c => flat_map (fun i => map (fun j => iso_mul (iso_inv (wrist c i)) (wrist c j)) (seq 0 (pictures c)))
    (seq 0 (pictures c))) (seq 0 cameras).
(** The target is moved by [H] on the wrist, and every camera as the target moves in each of its pictures. *)
Definition static_alternative (cameras : nat) (pictures : nat -> nat) (wrist : nat -> nat -> iso)
    (C0 : nat -> iso) (Z0 : iso) (C : nat -> iso) (Z : iso) : Prop :=
  exists H, rigid H /\ Z = iso_mul H Z0 /\
    forall c i, (c < cameras)%nat -> (i < pictures c)%nat ->
      C c = iso_mul (wrist c i) (iso_mul H (iso_mul (iso_inv (wrist c i)) (C0 c))).
