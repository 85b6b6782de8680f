(** C64: statistics of the projection errors. *)
From Coq Require Import Reals Arith List.
From Verif.Base Require Import Outcome.
From Verif.Model Require Import ExampleTools.
From Verif.Spec Require Import StatSpec ToolSpec.
From Verif.Proofs Require Import AnalysisProofs.
Import ListNotations.
Local Open Scope R_scope.

(** The printed numbers are the mean, the sample standard deviation (not a number for a single error), the smallest and
    the largest of the errors. *)
Theorem C64_statistics :
  forall es, es <> [] -> exists s, errorStats es = Ok s /\ err_mean s = average es /\
    (List.length es = 1%nat -> err_stdev s = None) /\ ((2 <= List.length es)%nat -> err_stdev s = Some (sample_dev es)) /\
    smallest es (err_min s) /\ largest es (err_max s).
Proof. exact error_stats_spec. Qed.
Print Assumptions C64_statistics.

(** Without errors, the mean of an empty array fails an assertion. *)
Theorem C64_no_errors_aborts : errorStats [] = UB.
Proof. exact error_stats_empty. Qed.
Print Assumptions C64_no_errors_aborts.

Example C64_three : exists s, errorStats [3; 1; 2] = Ok s /\ err_mean s = 2 /\ err_stdev s = Some 1 /\ err_min s = 1 /\ err_max s = 3.
Proof. exact ex_stats. Qed.
