(** C94: the grid target for simulated data. *)
From Coq Require Import Reals ZArith List.
From Verif.Base Require Import Geom Outcome Matrix.
From Verif.Model Require Import Pose Solver HandEye Simulation.
From Verif.Spec Require Import TargetSpec SimulationSpec.
From Verif.Proofs Require Import SimulationProofs SimExamples.
Import ListNotations.
Local Open Scope R_scope.

(** Full property: points, origin and centre are those of a grid of rows and columns. *)
Theorem C94_center_refuted :
  exists rows cols spacing, (0 < rows)%nat /\ (0 < cols)%nat /\ 0 < spacing /\
  ~ centre (sim_center (mk_target rows cols spacing)) (sim_points (mk_target rows cols spacing)).
Proof. exact target_center_refuted. Qed.
Print Assumptions C94_center_refuted.

(** The centre is right exactly for square targets. *)
Theorem C94_center_partial :
  forall rows cols spacing,
  (0 < rows)%nat -> (0 < cols)%nat -> (Z.of_nat rows + 1 < 2 ^ 32)%Z -> (Z.of_nat cols < 2 ^ 32)%Z -> spacing <> 0 ->
  (centre (sim_center (mk_target rows cols spacing)) (sim_points (mk_target rows cols spacing)) <-> rows = cols).
Proof. exact target_center_iff. Qed.
Print Assumptions C94_center_partial.

(** Rows and columns are exchanged. *)
Theorem C94_center_value :
  forall rows cols spacing,
  (0 < rows)%nat -> (0 < cols)%nat -> (Z.of_nat rows < 2 ^ 32)%Z -> (Z.of_nat cols < 2 ^ 32)%Z ->
  sim_center (mk_target rows cols spacing) = V3 (INR (rows - 1) * spacing / 2) (INR (cols - 1) * spacing / 2) 0.
Proof. exact target_center. Qed.
Print Assumptions C94_center_value.

Theorem C94_points :
  forall rows cols spacing, (Z.of_nat rows + 1 < 2 ^ 32)%Z ->
  sim_points (mk_target rows cols spacing) = layout rows cols (grid_point rows spacing).
Proof. exact target_points. Qed.
Print Assumptions C94_points.

Theorem C94_origin :
  forall rows cols spacing,
  (0 < rows)%nat -> (0 < cols)%nat -> (Z.of_nat rows + 1 < 2 ^ 32)%Z -> (Z.of_nat rows * Z.of_nat cols < 2 ^ 32)%Z ->
  sim_origin_idx (mk_target rows cols spacing) = Z.of_nat ((rows - 1) * cols) /\
  nth_error (sim_points (mk_target rows cols spacing)) ((rows - 1) * cols) = Some vzero.
Proof. exact target_origin. Qed.
Print Assumptions C94_origin.

Example C94_example :
  sim_points (mk_target 2 2 1) = [V3 0 1 0; V3 1 1 0; V3 0 0 0; V3 1 0 0].
Proof. exact ex_board_points. Qed.
