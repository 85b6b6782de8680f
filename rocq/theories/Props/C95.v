(** C95: simulated observations of chains in Cartesian form.
    [C] is the pose of the camera and [T] that of the target on their mounts, [B] that of the target base in the camera base. *)
From Coq Require Import Reals ZArith List.
From Verif.Base Require Import Geom Outcome Matrix.
From Verif.Model Require Import Pose Solver HandEye DhChain LocalParam Kinematic Simulation.
From Verif.Spec Require Import PinHole Frames PnpSpec KinSpec KinReport UniqueSpec KinUniqueSpec SimulationSpec.
From Verif.Proofs Require Import SimKinematicProofs SimExamples.
Import ListNotations.
Local Open Scope R_scope.

(** Full property: the observations fit the hand-eye calibration with the true mounts [C] and [T]. *)
Theorem C95_fits_refuted :
  exists camera_chain target_chain C T B,
  usable_chain camera_chain /\ usable_chain target_chain /\ rigid C /\ rigid T /\ rigid B /\
  forall (G : Type) (seeded : nat -> G) uniform static n os st, in_bounds uniform ->
  chainObservations3D seeded uniform camera_chain target_chain C T B ex_board n static = Ok (os, st) ->
  forall o, In o os -> ~ perfect_points (target_in_camera C (to_camera_mount o) (to_target_mount o) T) (correspondence_set o).
Proof. exact chain3_does_not_fit. Qed.
Print Assumptions C95_fits_refuted.

(** They fit exactly if the two bases are the same: the pose of the target base is left out. *)
Theorem C95_fits_partial :
  forall (G : Type) (seeded : nat -> G) uniform camera_chain target_chain C T B,
  usable_chain camera_chain -> usable_chain target_chain -> in_bounds uniform ->
  rigid (base_offset camera_chain) -> rigid (base_offset target_chain) -> rigid C -> rigid T -> rigid B ->
  forall target camera n static os st o,
  let Q := kin_target_in_camera (to_camera_mount o) C B (to_target_mount o) T in
  fx (sim_intr camera) <> 0 -> fy (sim_intr camera) <> 0 ->
  chainObservations2D seeded uniform camera_chain target_chain C T B target camera n static = Ok (os, st) -> In o os ->
  usable (sim_intr camera) Q (correspondence_set o) -> all_in_front Q (correspondence_set o) ->
  (perfect_image (sim_intr camera) (target_in_camera C (to_camera_mount o) (to_target_mount o) T) (correspondence_set o)
   <-> B = iso_id).
Proof. exact (@chain2_fits). Qed.
Print Assumptions C95_fits_partial.

Theorem C95_fits_points_partial :
  forall (G : Type) (seeded : nat -> G) uniform camera_chain target_chain C T B,
  usable_chain camera_chain -> usable_chain target_chain -> in_bounds uniform ->
  rigid (base_offset camera_chain) -> rigid (base_offset target_chain) -> rigid C -> rigid T -> rigid B ->
  forall target n static os st o, not_on_a_line (sim_points target) ->
  chainObservations3D seeded uniform camera_chain target_chain C T B target n static = Ok (os, st) -> In o os ->
  (perfect_points (target_in_camera C (to_camera_mount o) (to_target_mount o) T) (correspondence_set o) <-> B = iso_id).
Proof. exact (@chain3_fits). Qed.
Print Assumptions C95_fits_points_partial.

(** The mounts are the tips of the chains, and what is seen is what it should be. *)
Theorem C95_points :
  forall (G : Type) (seeded : nat -> G) uniform camera_chain target_chain C T B,
  usable_chain camera_chain -> usable_chain target_chain -> in_bounds uniform ->
  forall target n static, exists os st,
  chainObservations3D seeded uniform camera_chain target_chain C T B target n static = Ok (os, st) /\ length os = n /\
  Forall (fun o => exists qc qt, both_within camera_chain target_chain qc qt /\
    tips camera_chain target_chain qc qt (to_camera_mount o) (to_target_mount o) /\
    correspondence_set o =
    measured (kin_target_in_camera (to_camera_mount o) C B (to_target_mount o) T) (sim_points target)) os.
Proof. exact (@chain3_ok). Qed.
Print Assumptions C95_points.

Theorem C95_images :
  forall (G : Type) (seeded : nat -> G) uniform camera_chain target_chain C T B,
  usable_chain camera_chain -> usable_chain target_chain -> in_bounds uniform ->
  forall target camera n static,
  chainObservations2D seeded uniform camera_chain target_chain C T B target camera n static = Throw RuntimeError \/
  exists os st, chainObservations2D seeded uniform camera_chain target_chain C T B target camera n static = Ok (os, st) /\
  Forall (fun o => exists qc qt, both_within camera_chain target_chain qc qt /\
    tips camera_chain target_chain qc qt (to_camera_mount o) (to_target_mount o) /\ correspondence_set o <> [] /\
    seen camera (kin_target_in_camera (to_camera_mount o) C B (to_target_mount o) T) (sim_points target)
      (correspondence_set o)) os.
Proof. exact (@chain2_ok). Qed.
Print Assumptions C95_images.

Example C95_example :
  not_on_a_line (sim_points ex_board) /\ usable_chain (createABBIRB2400 0) /\ usable_chain (createTwoAxisPositioner 0) /\
  rigid (base_offset (createTwoAxisPositioner 0)).
Proof. exact (conj ex_board_not_on_a_line (conj (abb_usable 0) (conj (positioner_usable 0) (positioner_base 0)))). Qed.
