(** C93: chains with noise in their DH parameters. [normal] draws from a normal distribution, [start] seeds its generator. *)
From Coq Require Import Reals ZArith String List.
From Verif.Base Require Import Geom Outcome Matrix.
From Verif.Model Require Import DhChain Covariance Simulation.
From Verif.Spec Require Import SimulationSpec.
From Verif.Proofs Require Import SimPerturbProofs.
Import ListNotations.
Local Open Scope R_scope.

(** Full property: the chain is the same except for the noise in its DH parameters. *)
Theorem C93_limits_refuted :
  forall N (start : nat -> N) normal u seed stddev, 0 < stddev ->
  exists c c' t t', perturbDHChain start normal u seed c stddev = Ok c' /\
    nth_error (transforms c) 1 = Some t /\ nth_error (transforms c') 1 = Some t' /\
    jmin t = -2 * PI /\ jmax t = 2 * PI /\ jmin t' <> jmin t /\ jmax t' <> jmax t.
Proof. exact perturb_forgets. Qed.
Print Assumptions C93_limits_refuted.

Theorem C93_names_refuted :
  forall N (start : nat -> N) normal u seed stddev, 0 < stddev ->
  exists c c' t t', perturbDHChain start normal u seed c stddev = Ok c' /\
    nth_error (transforms c) 0 = Some t /\ nth_error (transforms c') 0 = Some t' /\ jname t' <> jname t.
Proof. exact perturb_renames. Qed.
Print Assumptions C93_names_refuted.

(** Number and types of the joints and the base stay. Each parameter gets its own draw. *)
Theorem C93_noise_partial :
  forall (N : Type) (start : nat -> N) normal u seed c stddev, 0 < stddev ->
  exists c', perturbDHChain start normal u seed c stddev = Ok c' /\ dof c' = dof c /\ base_offset c' = base_offset c /\
    forall i t, nth_error (transforms c) i = Some t -> exists t', nth_error (transforms c') i = Some t' /\
      jtype t' = jtype t /\
      (forall j, (j < 4)%nat ->
         coef4 (params t') j = coef4 (params t) j + draw_no normal stddev (start seed) (j * dof c + i)) /\
      jname t' = String.append "j" (to_string (i + 1)) /\ jmin t' = - PI /\ jmax t' = PI.
Proof. exact (@perturb_chain). Qed.
Print Assumptions C93_noise_partial.

(** Without noise the call is undefined behaviour. *)
Theorem C93_no_noise :
  forall (N : Type) (start : nat -> N) normal u seed c stddev, ~ 0 < stddev ->
  perturbDHChain start normal u seed c stddev = UB.
Proof. exact (@perturb_chain_undefined). Qed.
Print Assumptions C93_no_noise.

Example C93_example :
  exists c', perturbDHChain (fun n => n) (fun s n => (s, S n)) (fun _ _ => 0) 1 (createABBIRB2400 1) (1 / 1000) = Ok c' /\
  dof c' = 6%nat.
Proof. exact ex_noisy_robot. Qed.
