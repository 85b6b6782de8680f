(** A ceres::Problem made of residual blocks on addressed parameter blocks, and ceres::Solve on it. *)
From Coq Require Import Reals Arith List.
From Verif.Base Require Import Geom Outcome Matrix.
From Verif.Model Require Import Pose Solver.
Import ListNotations.
Local Open Scope R_scope.

(** The doubles the parameter blocks point to: block key, element. *)
Definition mem := nat -> nat -> R.

(** problem.AddResidualBlock(cost, NULL, keys...): the parameter blocks and the cost function. *)
Record rblock := RB { rb_keys : list nat; rb_eval : mem -> list R }.

(** ceres::Solve *)
Definition block_solver := list rblock -> mem -> mem * summary.

(** Summary::num_residuals *)
Definition num_block_residuals (blocks : list rblock) (m : mem) : nat :=
  length (flat_map (fun b => rb_eval b m) blocks).

(** The parameter blocks of the problem: those some residual block uses. *)
Definition added_blocks (size : nat -> nat) (blocks : list rblock) : amap nat :=
  fold_left (fun added k => insert_key k (size k) added) (flat_map rb_keys blocks) [].

(** Pose6d blocks (types.h:33-52), values in the order rx, ry, rz, x, y, z. *)
Definition read_pose (m : mem) (k : nat) : pose6 :=
  P6 (m k 0%nat) (m k 1%nat) (m k 2%nat) (m k 3%nat) (m k 4%nat) (m k 5%nat).
Definition pose_elem (p : pose6) (i : nat) : R := nth i (pose_values p) 0.
(** types.h:38: a default constructed Pose6d is all zero. *)
Definition zero_pose : pose6 := P6 0 0 0 0 0 0.
