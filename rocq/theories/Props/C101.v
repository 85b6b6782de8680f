(** C101: correlations in double precision. [correlation64 c_ij c_ii c_jj] is the correlation that is computed from a covariance
    and the two on the diagonal (Model/FloatCode.v); [unit64] is 2^-53, [least64] 2^-1074 (Spec/FloatSpec.v). *)
From Coq Require Import ZArith Reals.
From Verif.Base Require Import Float.
From Verif.Model Require Import FloatCode.
From Verif.Spec Require Import FloatSpec.
From Verif.Proofs Require Import FloatCorrelation.
Local Open Scope R_scope.

(** Accurate to five roundings, if the standard deviations are at least 2^-52, where the code starts to take them for one. *)
Theorem C101_accurate :
  forall c_ij c_ii c_jj, dfin c_ij = true -> dfin c_ii = true -> dfin c_jj = true ->
  let s_i := sqrt (Rabs (dval c_ii)) in let s_j := sqrt (Rabs (dval c_jj)) in
  two_to (-52) <= s_i -> two_to (-52) <= s_j -> Rabs (dval c_ii) <= two_to 900 -> Rabs (dval c_jj) <= two_to 900 ->
  Rabs (dval c_ij) <= s_i * s_j ->
  dfin (correlation64 c_ij c_ii c_jj) = true /\
  Rabs (dval (correlation64 c_ij c_ii c_jj) - dval c_ij / (s_i * s_j)) <= 5 * unit64 * Rabs (dval c_ij / (s_i * s_j)) + least64.
Proof. exact correlation_near. Qed.
Print Assumptions C101_accurate.

(** So it is in [-1, 1] up to 2^-50. *)
Theorem C101_bounded :
  forall c_ij c_ii c_jj, dfin c_ij = true -> dfin c_ii = true -> dfin c_jj = true ->
  let s_i := sqrt (Rabs (dval c_ii)) in let s_j := sqrt (Rabs (dval c_jj)) in
  two_to (-52) <= s_i -> two_to (-52) <= s_j -> Rabs (dval c_ii) <= two_to 900 -> Rabs (dval c_jj) <= two_to 900 ->
  Rabs (dval c_ij) <= s_i * s_j -> Rabs (dval (correlation64 c_ij c_ii c_jj)) <= 1 + two_to (-50).
Proof. exact correlation_bound. Qed.
Print Assumptions C101_bounded.

(** The standard deviations reported on the diagonal *)
Theorem C101_diagonal :
  forall c, dfin c = true ->
  dfin (correlation_diagonal64 c) = true /\ 0 <= dval (correlation_diagonal64 c) /\
  Rabs (dval (correlation_diagonal64 c) - sqrt (Rabs (dval c))) <= unit64 * sqrt (Rabs (dval c)) + least64.
Proof. exact diagonal_near. Qed.
Print Assumptions C101_diagonal.

(** Two parameters with the same variance 3 that always move together get a correlation above one. *)
Theorem C101_above_one : dlt (dint 1) (correlation64 (dint 3) (dint 3) (dint 3)) = true.
Proof. exact above_one. Qed.
Print Assumptions C101_above_one.
Example C101_example : let s := sqrt (Rabs (dval (dint 3))) in
  dfin (dint 3) = true /\ two_to (-52) <= s /\ Rabs (dval (dint 3)) <= two_to 900 /\ Rabs (dval (dint 3)) <= s * s.
Proof. exact ex_correlation. Qed.
