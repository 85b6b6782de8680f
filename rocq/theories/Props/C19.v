(** C19: getCorrelationCoeffOutsideThreshold, for any std::sort meeting its contract. *)
From Coq Require Import Reals Lra List Sorted Permutation String.
From Verif.Base Require Import Outcome Matrix.
From Verif.Model Require Import Covariance.
From Verif.Spec Require Import CovarianceSpec.
From Verif.Proofs Require Import CovarianceProofs.
Import ListNotations.
Local Open Scope R_scope.

Theorem C19_filter_exact_and_ordered :
  forall std_sort, sort_contract std_sort -> forall r t,
  let out := getCorrelationCoeffOutsideThreshold std_sort r t in
  (exists kept,
     Permutation kept out /\
     kept = filter (fun c => if Rlt_dec t (Rabs (np_value c)) then true else false) (correlation_coeffs r)) /\
  (forall c, In c out <-> In c (correlation_coeffs r) /\ t < Rabs (np_value c)) /\
  StronglySorted (fun a b => Rabs (np_value b) <= Rabs (np_value a)) out.
Proof. exact threshold_summary. Qed.
Print Assumptions C19_filter_exact_and_ordered.

(** The contract is satisfiable. *)
Example C19_contract_satisfiable : sort_contract (@insertion_sort named_param).
Proof. exact insertion_sort_contract. Qed.

Example C19_example :
  getCorrelationCoeffOutsideThreshold insertion_sort
    (CR [] [NP ("a", "b")%string (6/10); NP ("a", "c")%string (1/10); NP ("b", "c")%string (- (9/10))] []
        (Mat 0 0 (fun _ _ => 0)) (Mat 0 0 (fun _ _ => 0))) (1/2)
  = [NP ("b", "c")%string (- (9/10)); NP ("a", "b")%string (6/10)].
Proof. exact threshold_example. Qed.
