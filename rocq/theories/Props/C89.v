(** C89: camera poses with a random turn about the optical axis. *)
From Coq Require Import Reals ZArith List.
From Verif.Base Require Import Geom Outcome Matrix.
From Verif.Model Require Import Pose Solver HandEye Simulation.
From Verif.Spec Require Import SimulationSpec.
From Verif.Proofs Require Import SimPoseProofs.
Import ListNotations.
Local Open Scope R_scope.

(** Full property: each pose of the inner generator is turned by a random angle within the range. *)
Theorem C89_turned_refuted :
  exists (uniform : R -> R -> unit -> R * unit) pg lo hi T poses g,
  in_bounds uniform /\ lo <= hi /\ random_z_generate uniform pg lo hi tt T = Ok (poses, g) /\
  ~ Forall2 (fun P Q => exists a, lo <= a <= hi /\ Q = turned_z a P) (pg T) poses.
Proof. exact random_z_not_turned. Qed.
Print Assumptions C89_turned_refuted.

(** The poses are those of the inner generator, whatever the angles: each angle is drawn and thrown away. *)
Theorem C89_unturned_partial :
  forall (G : Type) (uniform : R -> R -> G -> R * G) pg lo hi g T, lo <= hi ->
  random_z_generate uniform pg lo hi g T = Ok (pg T, Nat.iter (length (pg T)) (fun g => snd (uniform lo hi g)) g).
Proof. exact (@random_z_same). Qed.
Print Assumptions C89_unturned_partial.

Example C89_example :
  length (conical_generate 1 2 5 0 iso_id iso_id) = 5%nat.
Proof. exact (proj1 (proj2 generated_lengths) 1 2 5%nat 0 iso_id iso_id). Qed.
