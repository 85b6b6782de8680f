(** C80: with perfect points, a fitted circle without error is the true one. *)
From Coq Require Import Reals Arith List.
From Verif.Base Require Import Geom Outcome.
From Verif.Model Require Import Solver CircleFit.
From Verif.Spec Require Import CircleSpec UniqueSpec.
From Verif.Proofs Require Import UniqueCircle.
Import ListNotations.
Local Open Scope R_scope.

Theorem C80_error_zero_iff_true_circle :
  forall u solve cov p r centre radius,
  honest solve -> optimizeCircle u solve cov p = Ok r ->
  0 <= radius -> three_different (cf_observations p) -> (forall o, In o (cf_observations p) -> on_circle centre radius o) ->
  (cf_final_cost_per_obs r = 0 <-> V2 (cf_x_center r) (cf_y_center r) = centre /\ cf_radius r = radius).
Proof. exact circle_unique. Qed.
Print Assumptions C80_error_zero_iff_true_circle.

(** Two points are not enough: circles of any size go through them. *)
Theorem C80_two_points_leave_it_open :
  forall a b size, a <> b ->
  exists centre radius, size <= radius /\ on_circle centre radius a /\ on_circle centre radius b.
Proof. exact circle_two_points. Qed.
Print Assumptions C80_two_points_leave_it_open.

Example C80_applies :
  exists u solve cov p r centre radius, honest solve /\ optimizeCircle u solve cov p = Ok r /\
  0 <= radius /\ three_different (cf_observations p) /\ (forall o, In o (cf_observations p) -> on_circle centre radius o) /\
  cf_final_cost_per_obs r = 0.
Proof. exact ex_circle_unique. Qed.
