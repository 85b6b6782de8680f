(** C90: where the cameras of simulated observations look.
    [T] is the pose of the target, [X] that of the camera on its mount, [B] that of the target base in the camera base. *)
From Coq Require Import Reals ZArith List.
From Verif.Base Require Import Geom Outcome Matrix.
From Verif.Model Require Import Pose Solver HandEye Simulation.
From Verif.Spec Require Import SimulationSpec.
From Verif.Proofs Require Import GeomLemmas SimPoseProofs.
Import ListNotations.
Local Open Scope R_scope.

(** Full property: without an offset the cameras look at the origin of the target. *)
Theorem C90_looks_refuted :
  exists target gens T o, rigid T /\ Forall (pattern iso_id) gens /\
  In o (createObservations3D target gens T iso_id iso_id) /\ rigid (camera_in_target T iso_id iso_id o) /\
  ~ looks_at (camera_in_target T iso_id iso_id o) vzero.
Proof. exact looks_past. Qed.
Print Assumptions C90_looks_refuted.

(** They look at the point O (tr T) of the target frame: the position of the target counts twice. *)
Theorem C90_looks_partial :
  forall camera target gens O T X B os o, rigid O -> rigid T -> rigid X -> rigid B -> Forall (pattern O) gens ->
  createObservations2D camera target gens T X B = Ok os -> In o os ->
  rigid (camera_in_target T X B o) -> looks_at (camera_in_target T X B o) (iso_app O (tr T)).
Proof. exact sim_looks2. Qed.
Print Assumptions C90_looks_partial.

Theorem C90_looks_points_partial :
  forall target gens O T X B o, rigid O -> rigid T -> rigid X -> rigid B -> Forall (pattern O) gens ->
  In o (createObservations3D target gens T X B) ->
  rigid (camera_in_target T X B o) -> looks_at (camera_in_target T X B o) (iso_app O (tr T)).
Proof. exact sim_looks3. Qed.
Print Assumptions C90_looks_points_partial.

Example C90_example :
  pattern iso_id (conical_generate 1 2 5 0 iso_id) /\ rigid iso_id.
Proof. exact (conj (pattern_cone iso_id 1 2 5 0) rigid_id). Qed.
