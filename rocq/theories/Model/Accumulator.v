(** Boost.Accumulators with the features mean and variance, as used by
    camera_intrinsic_calibration_validation.cpp:83-86 and noise_qualification.cpp:80-83. *)
From Coq Require Import Reals List.
From Verif.Base Require Import Outcome.
Import ListNotations.
Local Open Scope R_scope.

(** Boost: count, sum, immediate_mean, variance *)
Record accumulator := Acc { acc_count : nat; acc_sum : R; acc_immediate_mean : R; acc_variance : R }.
Definition acc_empty : accumulator := Acc 0 0 0 0.

(** Boost: accumulator_set::operator(). Features are updated in the order of their dependencies:
    count, sum, immediate_mean, variance. *)
Definition acc_push (a : accumulator) (x : R) : accumulator :=
  let cnt := S (acc_count a) in
  let s := acc_sum a + x in
  let mean := (acc_immediate_mean a * INR (cnt - 1) + x) / INR cnt in
  let var :=
    if Nat.ltb 1 cnt then
      let tmp := x - mean in acc_variance a * INR (cnt - 1) / INR cnt + tmp * tmp / INR (cnt - 1)
    else acc_variance a in
  Acc cnt s mean var.

(** Boost: extract mean, sum / count. With no samples this is 0/0, NaN, which reals cannot
    express: the outcome is UB. *)
Definition acc_mean (a : accumulator) : res R :=
  match acc_count a with O => UB | n => Ok (acc_sum a / INR n) end.
