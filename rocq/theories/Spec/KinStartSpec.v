(** What is reported of the initial values of a kinematic calibration. *)
From Coq Require Import Reals List.
From Verif.Base Require Import Geom Outcome Matrix.
From Verif.Model Require Import Pose Solver HandEye DhChain LocalParam Kinematic.
From Verif.Spec Require Import KinSpec KinReport UniqueSpec RedundancySpec KinUniqueSpec KinFitSpec.
Import ListNotations.
Local Open Scope R_scope.

(** The solver reports as initial cost the cost of the values it starts from, if the residuals can be evaluated there. *)
Definition honest_start_kin (solve : kin_solver) : Prop :=
  forall residuals p m0 m s, solve residuals p m0 = (m, s) ->
  (exists vs, mapM (fun f : kin_residual => f m0) residuals = Ok vs) -> cost_is residuals m0 (initial_cost s).
(** The reported initial error is the whole error of the guesses, with chains as designed, over the number of numbers. *)
Definition reports_start (com : kin_common) (errors : kin_estimate -> list (res (list R))) (n : nat) (r : kin_result) : Prop :=
  exists total c, counted com n total /\ whole_error com errors (guess_estimate com) c /\ kr_initial_cost_per_obs r = c / INR total.
