(** C16: computeCorrelationsFromCovariance. [u] is the content of uninitialised memory. *)
From Coq Require Import Reals Arith.
From Verif.Base Require Import Geom Outcome Matrix.
From Verif.Model Require Import Covariance.
From Verif.Spec Require Import CovarianceSpec.
From Verif.Proofs Require Import CorrelationProofs.
Local Open Scope R_scope.

Theorem C16_throws_iff_not_square :
  forall u m, computeCorrelationsFromCovariance u m = Throw CovarianceException <-> rows m <> cols m.
Proof. exact correlations_throw_iff. Qed.
Print Assumptions C16_throws_iff_not_square.

(** For every symmetric positive semi-definite matrix the off-diagonal part is
    symmetric and bounded by one. *)
Theorem C16_offdiagonal_symmetric_bounded :
  forall u m out, covariance_like m -> computeCorrelationsFromCovariance u m = Ok out ->
  forall i j, (i < rows m)%nat -> (j < rows m)%nat -> i <> j ->
    ent out i j = ent out j i /\ Rabs (ent out i j) <= 1.
Proof. exact corr_offdiag_all. Qed.
Print Assumptions C16_offdiagonal_symmetric_bounded.

(** The entries are the standard deviations and correlation coefficients, as long as
    the standard deviations involved are at least machine epsilon. *)
Theorem C16_entries_partial :
  forall u m out, covariance_like m -> computeCorrelationsFromCovariance u m = Ok out ->
  rows out = rows m /\ cols out = rows m /\
  forall i j, (i < rows m)%nat -> (j < rows m)%nat ->
    DBL_EPS <= stdev m i -> DBL_EPS <= stdev m j ->
    ent out i j = if Nat.eqb i j then stdev m i else ent m i j / (stdev m i * stdev m j).
Proof. exact corr_exact. Qed.
Print Assumptions C16_entries_partial.

(** Full statement for the diagonal: [ent out i i = stdev m i]. It fails: for a
    parameter other than the first with (nearly) zero variance, 1 is reported. *)
Theorem C16_diagonal_is_stdev_refuted :
  forall u, exists m out i, covariance_like m /\
  computeCorrelationsFromCovariance u m = Ok out /\ (i < rows m)%nat /\ ent out i i <> stdev m i.
Proof. exact corr_diag_refuted. Qed.
Print Assumptions C16_diagonal_is_stdev_refuted.

(** Exactly what is reported for such a parameter. *)
Theorem C16_diagonal_of_tiny_variance :
  forall u m out, covariance_like m -> computeCorrelationsFromCovariance u m = Ok out ->
  forall i, (i < rows m)%nat -> stdev m i < DBL_EPS ->
    ent out i i = if Nat.eqb i 0 then stdev m i else 1.
Proof. exact corr_diag_small. Qed.
Print Assumptions C16_diagonal_of_tiny_variance.

(** [[4,3],[3,9]] is a covariance matrix; its correlation matrix is [[2,1/2],[1/2,3]]. *)
Example C16_example_hypotheses :
  covariance_like (Mat 2 2 (fun i j => match i, j with 0%nat, 0%nat => 4 | 1%nat, 1%nat => 9 | _, _ => 3 end)).
Proof. exact ex_cov_like. Qed.
Example C16_example : forall u, exists out,
  computeCorrelationsFromCovariance u
    (Mat 2 2 (fun i j => match i, j with 0%nat, 0%nat => 4 | 1%nat, 1%nat => 9 | _, _ => 3 end)) = Ok out /\
  ent out 0 0 = 2 /\ ent out 1 1 = 3 /\ ent out 0 1 = 1 / 2 /\ ent out 1 0 = 1 / 2.
Proof. exact ex_cov_corr. Qed.
