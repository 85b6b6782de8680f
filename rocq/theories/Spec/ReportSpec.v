(** What a covariance report says about which optimized scalars. *)
From Coq Require Import Reals Arith String List.
From Verif.Base Require Import Geom Matrix.
From Verif.Model Require Import Covariance Solver.
Import ListNotations.
Local Open Scope R_scope.

(** The report [r] lists the optimized scalars [elems] (parameter block, element), each under its
    [name], with the covariances [cov] has for them. *)
Definition reports (r : cov_result) (cov : cov_oracle) (elems : list (nat * nat)) (name : nat * nat -> string) : Prop :=
  map (fun p => fst (np_names p)) (standard_deviations r) = map name elems /\
  rows (covariance_matrix r) = List.length elems /\ cols (covariance_matrix r) = List.length elems /\
  forall p q a b, nth_error elems p = Some a -> nth_error elems q = Some b ->
    ent (covariance_matrix r) p q = co_cov cov (fst a) (snd a) (fst b) (snd b).

(** All elements of some blocks, in order. *)
Definition elements (size : nat -> nat) (blocks : list nat) : list (nat * nat) :=
  flat_map (fun b => map (pair b) (seq 0 (size b))) blocks.
