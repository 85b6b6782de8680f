(** C39: the thresholds of the circle detector. *)
From Coq Require Import Reals Arith List.
From Verif.Base Require Import Geom Outcome.
From Verif.Model Require Import CircleDetector.
From Verif.Spec Require Import DetectorSpec.
From Verif.Proofs Require Import DetectorProofs FilterProofs.
Import ListNotations.
Local Open Scope R_scope.

Theorem C39_thresholds :
  forall p, exists ts,
  length ts = nThresholds p /\
  (nThresholds p = 1%nat -> ts = [(minThreshold p + maxThreshold p) / 2]) /\
  ((2 <= nThresholds p)%nat ->
     nth_error ts 0 = Some (minThreshold p) /\ nth_error ts (nThresholds p - 1) = Some (maxThreshold p) /\
     forall i a b, nth_error ts i = Some a -> nth_error ts (i + 1) = Some b ->
       b - a = (maxThreshold p - minThreshold p) / INR (nThresholds p - 1)) /\
  forall image, applyThresholds image p =
    if Nat.ltb (nThresholds p) (minRepeatability p) then Throw RuntimeError else mapM (fun t => findCircles (image t) p) ts.
Proof. exact thresholds_spec. Qed.
Print Assumptions C39_thresholds.

(** The detector throws exactly what the thresholds throw. *)
Theorem C39_rejects :
  forall image p, (nThresholds p < minRepeatability p)%nat -> detect image p = Throw RuntimeError.
Proof. exact detect_rejects. Qed.
Print Assumptions C39_rejects.

Theorem C39_accepts :
  forall image p, (minRepeatability p <= nThresholds p)%nat -> forall e, detect image p <> Throw e.
Proof. exact detect_never_throws. Qed.
Print Assumptions C39_accepts.

Example C39_three_thresholds :
  applyThresholds (fun t => if Rlt_dec t 60 then [ex_contour 11] else []) ex_params <> Throw RuntimeError /\ nThresholds ex_params = 3%nat.
Proof. exact ex_sweep. Qed.
