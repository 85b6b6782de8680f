(** C99: the thresholds of the circle detector in machine numbers. [threshold64 p i] is the i-th threshold, computed from floats
    in double precision (Model/FloatCode.v); [evenly a b n i] the i-th of n evenly spaced numbers from a to b; [unit32] is
    2^-24, [unit64] 2^-53, [least64] 2^-1074 (Spec/FloatSpec.v). *)
From Coq Require Import ZArith Reals List.
From Verif.Base Require Import Float.
From Verif.Model Require Import FloatCode.
From Verif.Spec Require Import FloatSpec.
From Verif.Proofs Require Import ThresholdProofs.
Local Open Scope R_scope.

(** The first is exactly the minimum. *)
Theorem C99_first :
  forall p, threshold_bounds p -> many_thresholds p -> dval (threshold64 p 0) = fval (d_minThreshold p).
Proof. exact first_step. Qed.
Print Assumptions C99_first.

(** They are finite, not below the minimum, and do not decrease. *)
Theorem C99_finite :
  forall p, threshold_bounds p -> many_thresholds p ->
  forall i, (i < d_nThresholds p)%nat -> dfin (threshold64 p i) = true.
Proof. exact (fun p B N i H => proj1 (step_ok p B N i H)). Qed.
Print Assumptions C99_finite.

Theorem C99_rising :
  forall p, threshold_bounds p -> many_thresholds p -> forall i j, (i <= j < d_nThresholds p)%nat ->
  fval (d_minThreshold p) <= dval (threshold64 p i) <= dval (threshold64 p j).
Proof. exact steps_rise. Qed.
Print Assumptions C99_rising.

(** They are evenly spaced up to one rounding of the range to float and a few to double. *)
Theorem C99_even :
  forall p i, threshold_bounds p -> many_thresholds p -> (i < d_nThresholds p)%nat ->
  let lo := fval (d_minThreshold p) in let hi := fval (d_maxThreshold p) in
  Rabs (dval (threshold64 p i) - evenly lo hi (d_nThresholds p) i) <=
    unit32 * (hi - lo) + 8 * unit64 * (Rabs lo + (hi - lo)) + 4 * least64 * (1 + (hi - lo)).
Proof. exact thresholds_even. Qed.
Print Assumptions C99_even.

(** If the range is a float, the error is one of doubles only and the last is exactly the maximum. *)
Theorem C99_even_exact :
  forall p i, threshold_bounds p -> many_thresholds p -> (i < d_nThresholds p)%nat ->
  let lo := fval (d_minThreshold p) in let hi := fval (d_maxThreshold p) in
  (exists w : f32, fval w = hi - lo) ->
  Rabs (dval (threshold64 p i) - evenly lo hi (d_nThresholds p) i) <= 4 * unit64 * (Rabs lo + (hi - lo)) + 2 * least64 * (1 + (hi - lo)).
Proof. exact thresholds_even_exact. Qed.
Print Assumptions C99_even_exact.

Theorem C99_last :
  forall p, threshold_bounds p -> many_thresholds p ->
  (exists w : f32, fval w = fval (d_maxThreshold p) - fval (d_minThreshold p)) ->
  dval (threshold64 p (d_nThresholds p - 1)) = fval (d_maxThreshold p).
Proof. exact last_exact. Qed.
Print Assumptions C99_last.

(** Whole numbers below 2^23 have such a range. *)
Theorem C99_whole_range :
  forall p a b, fval (d_minThreshold p) = IZR a -> fval (d_maxThreshold p) = IZR b -> (Z.abs a < 2 ^ 23)%Z -> (Z.abs b < 2 ^ 23)%Z ->
  exists w : f32, fval w = fval (d_maxThreshold p) - fval (d_minThreshold p).
Proof. exact whole_range. Qed.
Print Assumptions C99_whole_range.

(** A single threshold is the middle. *)
Theorem C99_single :
  forall p, threshold_bounds p -> d_nThresholds p = 1%nat ->
  let lo := fval (d_minThreshold p) in let hi := fval (d_maxThreshold p) in
  dfin (threshold64 p 0) = true /\
  Rabs (dval (threshold64 p 0) - (lo + hi) / 2) <= unit32 * (hi - lo) + 8 * unit64 * (Rabs lo + (hi - lo)) + 4 * least64 * (1 + (hi - lo)).
Proof. exact single_threshold. Qed.
Print Assumptions C99_single.

(** The default parameters meet the hypotheses, and all their thresholds are exact. *)
Example C99_example :
  threshold_bounds ex_default_thresholds /\ many_thresholds ex_default_thresholds /\
  (exists w : f32, fval w = fval (d_maxThreshold ex_default_thresholds) - fval (d_minThreshold ex_default_thresholds)) /\
  forallb (fun i => deq (threshold64 ex_default_thresholds i) (dint (50 + 10 * Z.of_nat i))) (seq 0 18) = true.
Proof. exact default_bounds. Qed.

(** Not all whole numbers come out exactly: with steps of one from 0 to 22 the threshold 15 is too small. *)
Theorem C99_whole_step_missed :
  dlt (threshold64 ex_unit_steps 15) (dint 15) = true /\
  evenly (fval (d_minThreshold ex_unit_steps)) (fval (d_maxThreshold ex_unit_steps)) 23 15 = 15.
Proof. exact unit_step_missed. Qed.
Print Assumptions C99_whole_step_missed.
