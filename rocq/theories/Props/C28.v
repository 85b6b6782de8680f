(** C28: accuracy of camera intrinsics over a set of observations. *)
From Coq Require Import Reals Arith String List.
From Verif.Base Require Import Geom Outcome.
From Verif.Model Require Import Pose HandEye Pnp IntrinsicValidation.
From Verif.Spec Require Import Frames StatSpec ValidationSpec.
From Verif.Proofs Require Import IntrinsicValidationProofs.
Import ListNotations.
Local Open Scope R_scope.

(** A result is the mean and the standard deviation of the virtual target differences of all
    observations, each started from the pose the calibration predicts. *)
Theorem C28_result :
  forall runs k C T B threshold os r,
  measureIntrinsicCalibrationAccuracy runs os k C T B threshold = Ok r ->
  os <> [] /\ equal_sizes os /\
  exists vs, List.length vs = List.length os /\
    (forall i o v, nth_error os i = Some o -> nth_error vs i = Some v ->
       measureVirtualTargetDiff (fst (runs i)) (snd (runs i)) (correspondence_set o) k
         (target_in_camera C (to_camera_mount o) (iso_mul B (to_target_mount o)) T) threshold = Ok v) /\
    ar_pos_error r = (average (map vr_positional_error vs), std_dev (map vr_positional_error vs)) /\
    ar_ang_error r = (average (map vr_angular_error vs), std_dev (map vr_angular_error vs)).
Proof. exact accuracy_spec. Qed.
Print Assumptions C28_result.

Theorem C28_succeeds :
  forall runs k C T B threshold os, os <> [] -> equal_sizes os ->
  (forall i o, nth_error os i = Some o -> exists v,
     measureVirtualTargetDiff (fst (runs i)) (snd (runs i)) (correspondence_set o) k
       (target_in_camera C (to_camera_mount o) (iso_mul B (to_target_mount o)) T) threshold = Ok v) ->
  exists r, measureIntrinsicCalibrationAccuracy runs os k C T B threshold = Ok r.
Proof. exact accuracy_succeeds. Qed.
Print Assumptions C28_succeeds.

Theorem C28_sizes_differ_throws :
  forall runs os k C T B threshold, os <> [] -> ~ equal_sizes os ->
  measureIntrinsicCalibrationAccuracy runs os k C T B threshold = Throw OptimizationException.
Proof. exact accuracy_sizes. Qed.
Print Assumptions C28_sizes_differ_throws.

(** With an observation, and two correspondences in each, there is always a result or an exception. *)
Theorem C28_defined_partial :
  forall runs k C T B threshold os, os <> [] ->
  (forall o, In o os -> (2 <= List.length (correspondence_set o))%nat) ->
  (exists r, measureIntrinsicCalibrationAccuracy runs os k C T B threshold = Ok r) \/
  (exists e, measureIntrinsicCalibrationAccuracy runs os k C T B threshold = Throw e).
Proof. exact accuracy_defined. Qed.
Print Assumptions C28_defined_partial.

(** The empty set of observations makes the size check read outside its input. *)
Theorem C28_every_set_refuted :
  forall runs k C T B threshold, measureIntrinsicCalibrationAccuracy runs [] k C T B threshold = UB.
Proof. exact accuracy_empty. Qed.
Print Assumptions C28_every_set_refuted.

Theorem C28_too_few_correspondences_aborts :
  forall runs k C T B threshold os o, os <> [] -> equal_sizes os -> In o os ->
  (List.length (correspondence_set o) < 2)%nat ->
  measureIntrinsicCalibrationAccuracy runs os k C T B threshold = UB.
Proof. exact accuracy_too_few. Qed.
Print Assumptions C28_too_few_correspondences_aborts.

Example C28_two_observations : forall k C T B, exists r,
  measureIntrinsicCalibrationAccuracy (fun _ => (ex_run, ex_run))
    [Obs ex_corrs iso_id iso_id; Obs ex_corrs (iso_trans (V3 1 0 0)) iso_id] k C T B 1 = Ok r.
Proof. exact ex_accuracy. Qed.
