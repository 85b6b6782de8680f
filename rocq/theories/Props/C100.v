(** C100: means and standard deviations in double precision. [mean64] and [stdev64] are what is reported for samples; [average]
    and [std_dev] are those of the exact numbers; [resolved M D] says that the samples are at most M and differ by at most D
    (Spec/FloatSpec.v, Spec/StatSpec.v). *)
From Coq Require Import Reals List.
From Flocq Require Import BinarySingleNaN.
From Verif.Base Require Import Float.
From Verif.Model Require Import FloatCode.
From Verif.Spec Require Import FloatSpec StatSpec.
From Verif.Proofs Require Import FloatStat.
Import ListNotations.
Local Open Scope R_scope.

Theorem C100_mean :
  forall M D samples, samples <> [] -> resolved M D samples ->
  dfin (mean64 samples) = true /\
  Rabs (dval (mean64 samples) - average (map dval samples)) <= 4 * INR (length samples) * unit64 * M.
Proof. exact mean64_near. Qed.
Print Assumptions C100_mean.

(** The standard deviation is a number and not negative. Its error is small against the true one s: below
    70 n 2^-53 M D / s; and if s is zero or tiny, below 9 sqrt (n 2^-53 M D). *)
Theorem C100_standard_deviation :
  forall M D samples, samples <> [] -> resolved M D samples ->
  let s := dval (stdev64 samples) in let exact_s := std_dev (map dval samples) in
  dfin (stdev64 samples) = true /\ 0 <= s /\
  exact_s * Rabs (s - exact_s) <= 70 * INR (length samples) * unit64 * M * D /\
  Rabs (s - exact_s) <= 9 * sqrt (INR (length samples) * unit64 * M * D).
Proof. exact stdev64_near. Qed.
Print Assumptions C100_standard_deviation.

(** Without samples the mean is not a number. *)
Theorem C100_no_samples : mean64 [] = B754_nan /\ dval (stdev64 []) = 0.
Proof. exact no_samples. Qed.
Print Assumptions C100_no_samples.

Example C100_example :
  resolved 4 3 ex_samples /\ average (map dval ex_samples) = 7 / 3 /\ std_dev (map dval ex_samples) = sqrt (14 / 9).
Proof. exact ex_resolved. Qed.
