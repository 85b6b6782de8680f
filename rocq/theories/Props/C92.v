(** C92: poses with noise.
    [s] is the noise in position, [a] that of the angle. [o1] and [o2] are the orders in which the compiler evaluates the
    arguments of two constructors. *)
From Coq Require Import Reals ZArith List.
From Verif.Base Require Import Geom Outcome Matrix.
From Verif.Model Require Import Pose Solver HandEye Simulation.
From Verif.Spec Require Import SimulationSpec.
From Verif.Proofs Require Import DhProofs SimPerturbProofs SimExamples.
Import ListNotations.
Local Open Scope R_scope.

(** Every pose is moved by one and the same small transform: two calls have the same error. *)
Theorem C92_same_small_move :
  forall (G : Type) (seeded : nat -> G) uniform o1 o2 seed, in_bounds uniform -> stretches uniform ->
  forall s a, 0 <= s -> 0 <= a ->
  exists D, small_move s a D /\ forall pose, perturbPose seeded uniform o1 o2 seed pose s a = Ok (iso_mul pose D).
Proof. exact (@perturb_same). Qed.
Print Assumptions C92_same_small_move.

Theorem C92_rigid :
  forall s a D, small_move s a D -> rigid D.
Proof. exact small_rigid. Qed.
Print Assumptions C92_rigid.

Theorem C92_no_noise :
  forall D, small_move 0 0 D -> D = iso_id.
Proof. exact small_none. Qed.
Print Assumptions C92_no_noise.

(** Negative noise is undefined behaviour. *)
Theorem C92_negative :
  forall (G : Type) (seeded : nat -> G) uniform o1 o2 seed pose s a, s < 0 \/ a < 0 ->
  perturbPose seeded uniform o1 o2 seed pose s a = UB.
Proof. exact (@perturb_undefined). Qed.
Print Assumptions C92_negative.

(** If both are evaluated in the same order, the noise is always a screw motion: the move is along the axis of the turn. *)
Theorem C92_screw :
  forall (G : Type) (seeded : nat -> G) uniform o seed pose s a P, in_bounds uniform -> stretches uniform -> rigid pose ->
  perturbPose seeded uniform o o seed pose s a = Ok P -> screw (iso_mul (iso_inv pose) P).
Proof. exact (@perturb_screw). Qed.
Print Assumptions C92_screw.

(** A generator that always draws the same *)
Example C92_example :
  in_bounds ex_halves /\ stretches ex_halves.
Proof. exact ex_halves_fits. Qed.
