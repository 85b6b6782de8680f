(** C51: random joint poses respect the limits and the seeds. *)
From Coq Require Import Reals List.
From Verif.Base Require Import Geom Outcome.
From Verif.Model Require Import DhChain.
From Verif.Proofs Require Import DhProofs.
Import ListNotations.
Local Open Scope R_scope.

(** For every generator and every distribution that stays in its bounds. *)
Theorem C51_within_limits_partial :
  forall (G : Type) (seeded : nat -> G) (uniform : R -> R -> G -> R * G) c st,
  (forall a b g, a <= b -> a <= fst (uniform a b g) <= b) ->
  (forall t, In t (transforms c) -> jmin t <= jmax t) ->
  exists q st', createUniformlyRandomPose seeded uniform c st = Ok (q, st') /\
    length q = dof c /\
    forall i t x, nth_error (transforms c) i = Some t -> nth_error q i = Some x -> jmin t <= x <= jmax t.
Proof. exact (fun G => @random_in_limits G). Qed.
Print Assumptions C51_within_limits_partial.

(** The seed of a joint should decide the values drawn for it. It does not: after any other
    joint has been sampled in the process, the joint's seed is not used. *)
Theorem C51_seed_decides_value_refuted :
  exists (G : Type) (seeded : nat -> G) (uniform : R -> R -> G -> R * G) (first t : dh_transform) v1 st v,
  (forall a b g, a <= b -> a <= fst (uniform a b g) <= b) /\
  createRandomJointValue seeded uniform first None = Ok (v1, st) /\
  createRandomJointValue seeded uniform t None
    = Ok (v, Some (snd (uniform (jmin t) (jmax t) (seeded (random_seed t))))) /\
  createRandomJointValue seeded uniform t st
    <> Ok (v, Some (snd (uniform (jmin t) (jmax t) (seeded (random_seed t))))).
Proof. exact seed_not_honoured. Qed.
Print Assumptions C51_seed_decides_value_refuted.

Theorem C51_seed_only_used_once :
  forall (G : Type) (seeded : nat -> G) (uniform : R -> R -> G -> R * G) t1 t2 g,
  jmin t1 = jmin t2 -> jmax t1 = jmax t2 ->
  createRandomJointValue seeded uniform t1 (Some g) = createRandomJointValue seeded uniform t2 (Some g).
Proof. exact (fun G => @random_seed_ignored G). Qed.
Print Assumptions C51_seed_only_used_once.

Example C51_example : forall t, In t (transforms ex_chain) -> jmin t <= jmax t.
Proof. exact ex_limits. Qed.
