(** The interface to the Ceres solver, as oracles. Nothing here is derived from
    Ceres' source; theorems quantify over these oracles. *)
From Coq Require Import Reals Arith List.
From Verif.Base Require Import Geom Outcome Matrix.
From Verif.Model Require Import Covariance.
Import ListNotations.
Local Open Scope R_scope.

(** A residual block, as a function of the values of all parameter blocks. *)
Definition residual (X : Type) := X -> list R.

(** ceres::Solver::Summary, the fields the code reads. *)
Record summary := Summary {
  term_convergence : bool;   (* termination_type == CONVERGENCE *)
  initial_cost : R;
  final_cost : R }.

(** ceres::Solve: from the residual blocks and the initial values to final values. *)
Definition solver (X : Type) := list (residual X) -> X -> X * summary.

(** Summary::num_residuals: the length of the stacked residual vector. *)
Definition num_residuals {X} (blocks : list (residual X)) (x : X) : nat :=
  length (flat_map (fun f => f x) blocks).

(** The cost function Ceres minimises: half the sum of squared residuals. *)
Definition cost {X} (blocks : list (residual X)) (x : X) : R :=
  / 2 * fold_right (fun r acc => r * r + acc) 0 (flat_map (fun f => f x) blocks).

(** What ceres::Covariance may answer. [co_order] is the order in which
    GetParameterBlocks lists the blocks of the problem. *)
Record cov_oracle := CovOracle {
  co_order : list nat -> list nat;
  co_compute : list nat -> bool;
  co_get : list nat -> bool;
  co_cov : nat -> nat -> nat -> nat -> R }.

(** The ceres::Problem seen by covariance analysis, given the blocks that were added
    to it (key, size). *)
Definition mk_cov_problem (o : cov_oracle) (added : amap nat) : cov_problem :=
  CP (co_order o (keys added)) (fun b => find_key b added) (co_compute o) (co_get o) (co_cov o).
