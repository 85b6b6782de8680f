(** C17: computeCovarianceResults. *)
From Coq Require Import Reals Arith String List.
From Verif.Base Require Import Outcome Matrix.
From Verif.Model Require Import Covariance.
From Verif.Spec Require Import CovarianceSpec.
From Verif.Proofs Require Import CovarianceProofs.
Import ListNotations.
Local Open Scope nat_scope.

(** [ps] is the list of all index pairs i < j < n in row-major order. *)
Theorem C17_every_pair_once_with_its_names :
  forall u cov names, rows cov = cols cov -> List.length names = rows cov ->
  exists r ps,
    computeCovarianceResults u cov names = Ok r /\
    upper_pairs (rows cov) ps /\
    covariance_matrix r = cov /\
    computeCorrelationsFromCovariance u cov = Ok (correlation_matrix r) /\
    standard_deviations r =
      map (fun i => NP (nth i names ""%string, ""%string) (ent (correlation_matrix r) i i)) (seq 0 (rows cov)) /\
    correlation_coeffs r =
      map (fun p => NP (nth (fst p) names ""%string, nth (snd p) names ""%string)
                       (ent (correlation_matrix r) (fst p) (snd p))) ps /\
    covariances r =
      map (fun p => NP (nth (fst p) names ""%string, nth (snd p) names ""%string)
                       (ent cov (fst p) (snd p))) ps.
Proof. exact results_summary. Qed.
Print Assumptions C17_every_pair_once_with_its_names.

(** A row-major list of pairs contains no pair twice, and is determined by n. *)
Theorem C17_pairs_unique :
  forall n ps qs, upper_pairs n ps -> upper_pairs n qs -> NoDup ps /\ ps = qs.
Proof. exact upper_pairs_unique. Qed.
Print Assumptions C17_pairs_unique.

(** With fewer names than parameters the unchecked access is undefined behaviour. *)
Theorem C17_too_few_names :
  forall u cov names, rows cov = cols cov -> List.length names < rows cov ->
  computeCovarianceResults u cov names = UB.
Proof. exact results_few_names. Qed.
Print Assumptions C17_too_few_names.

Example C17_three_parameters : upper_pairs 3 [(0, 1); (0, 2); (1, 2)].
Proof. exact (pairs_spec 3). Qed.
