(** Assumptions about the solver and the covariance that Ceres computes. *)
From Coq Require Import List Permutation.
From Verif.Model Require Import Solver.

(** The covariance oracle behaves: it lists the problem's blocks in some order. *)
Definition lists_blocks (cov : cov_oracle) : Prop := forall l, Permutation l (co_order cov l).
(** A solver that returns its starting point. *)
Definition stays {X} (solve : solver X) : Prop := forall blocks x, fst (solve blocks x) = x.
