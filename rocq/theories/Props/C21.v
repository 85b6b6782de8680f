(** C21: the maximum-likelihood prior. *)
From Coq Require Import Reals List.
From Verif.Base Require Import Outcome Matrix.
From Verif.Model Require Import MaxLikelihood.
From Verif.Proofs Require Import MaxLikelihoodProofs.
Import ListNotations.
Local Open Scope R_scope.

(** Element (i, j) of the parameters is stored at offset j * rows + i. *)
Theorem C21_residual_value :
  forall mean stdev, rows mean = rows stdev /\ cols mean = cols stdev ->
  exists ml, MaximumLikelihood mean stdev = Ok ml /\
  forall x, exists l, ml_residual ml x = Ok l /\ length l = (rows mean * cols mean)%nat /\
    forall i j, (i < rows mean)%nat -> (j < cols mean)%nat ->
      nth_error l (j * rows mean + i) = Some ((x (j * rows mean + i)%nat - ent mean i j) / ent stdev i j).
Proof. exact ml_value. Qed.
Print Assumptions C21_residual_value.

Theorem C21_zero_iff_mean :
  forall mean stdev x ml l, rows mean = rows stdev /\ cols mean = cols stdev ->
  (forall i j, (i < rows mean)%nat -> (j < cols mean)%nat -> ent stdev i j <> 0) ->
  MaximumLikelihood mean stdev = Ok ml -> ml_residual ml x = Ok l ->
  (forall r, In r l -> r = 0) <->
  (forall i j, (i < rows mean)%nat -> (j < cols mean)%nat -> x (j * rows mean + i)%nat = ent mean i j).
Proof. exact ml_zero_iff. Qed.
Print Assumptions C21_zero_iff_mean.

(** Full property: the constructor throws iff the dimensions differ. It throws exactly when
    the numbers of elements differ. *)
Theorem C21_dimension_check_partial :
  forall mean stdev, MaximumLikelihood mean stdev = Throw OptimizationException <->
  (rows mean * cols mean)%nat <> (rows stdev * cols stdev)%nat.
Proof. exact ml_throws_iff. Qed.
Print Assumptions C21_dimension_check_partial.

(** A 2x3 mean with a 3x2 standard deviation is accepted; every evaluation then combines
    arrays of different dimensions. *)
Theorem C21_dimension_check_refuted :
  exists mean stdev ml, ~ (rows mean = rows stdev /\ cols mean = cols stdev) /\
  MaximumLikelihood mean stdev = Ok ml /\ forall x, ml_residual ml x = UB.
Proof. exact ml_shape_refuted. Qed.
Print Assumptions C21_dimension_check_refuted.

Example C21_example :
  let mean := Mat 2 2 (fun i j => INR (i + j)) in
  let stdev := Mat 2 2 (fun _ _ => 2) in
  (rows mean = rows stdev /\ cols mean = cols stdev) /\
  forall i j, (i < rows mean)%nat -> (j < cols mean)%nat -> ent stdev i j <> 0.
Proof. exact (conj (conj eq_refl eq_refl) (fun _ _ _ _ => not_eq_sym (Rlt_not_eq 0 2 Rlt_0_2))). Qed.
