(** C27: the virtual targets. [fitted run k guess cs r] says that pose estimation on the
    correspondences cs returned r, [good_fit threshold r] that it converged with a cost within the
    threshold (Spec/ValidationSpec.v). *)
From Coq Require Import Reals Arith String List.
From Verif.Base Require Import Geom Outcome.
From Verif.Model Require Import Pose HandEye Pnp IntrinsicValidation.
From Verif.Spec Require Import KinSpec ValidationSpec.
From Verif.Proofs Require Import IntrinsicValidationProofs MoreExamples.
Import ListNotations.
Local Open Scope R_scope.

(** A result comes from two good fits to two groups that together are the observation, each
    correspondence in exactly one of them; it compares the two poses. *)
Theorem C27_result :
  forall run_1 run_2 cs k guess threshold v,
  measureVirtualTargetDiff run_1 run_2 cs k guess threshold = Ok v ->
  exists set_1 set_2 p1 p2,
    set_1 ++ set_2 = cs /\ List.length set_1 = (List.length cs / 2)%nat /\
    fitted run_1 k guess set_1 p1 /\ good_fit threshold p1 /\ fitted run_2 k guess set_2 p2 /\ good_fit threshold p2 /\
    let T1 := pnp_camera_to_target p1 in let T2 := pnp_camera_to_target p2 in
    rigid T1 /\ rigid T2 /\
    vr_t1_to_t2 v = iso_mul (iso_inv T1) T2 /\
    vr_positional_error v = norm (tr (vr_t1_to_t2 v)) /\
    angle_between (lin T1) (lin T2) (vr_angular_error v) /\
    (vr_positional_error v = 0 /\ vr_angular_error v = 0 <-> T1 = T2).
Proof. exact virtual_result_spec. Qed.
Print Assumptions C27_result.

(** Two good fits give a result; a bad one throws. *)
Theorem C27_succeeds :
  forall run_1 run_2 cs k guess threshold set_1 set_2 p1 p2,
  set_1 ++ set_2 = cs -> List.length set_1 = (List.length cs / 2)%nat ->
  fitted run_1 k guess set_1 p1 -> good_fit threshold p1 -> fitted run_2 k guess set_2 p2 -> good_fit threshold p2 ->
  exists v, measureVirtualTargetDiff run_1 run_2 cs k guess threshold = Ok v.
Proof. exact virtual_succeeds. Qed.
Print Assumptions C27_succeeds.

Theorem C27_bad_first_fit_throws :
  forall run_1 run_2 cs k guess threshold set_1 set_2 p1,
  set_1 ++ set_2 = cs -> List.length set_1 = (List.length cs / 2)%nat ->
  fitted run_1 k guess set_1 p1 -> ~ good_fit threshold p1 ->
  measureVirtualTargetDiff run_1 run_2 cs k guess threshold = Throw RuntimeError.
Proof. exact virtual_throws_first. Qed.
Print Assumptions C27_bad_first_fit_throws.

Theorem C27_bad_second_fit_throws :
  forall run_1 run_2 cs k guess threshold set_1 set_2 p1 p2,
  set_1 ++ set_2 = cs -> List.length set_1 = (List.length cs / 2)%nat ->
  fitted run_1 k guess set_1 p1 -> good_fit threshold p1 -> fitted run_2 k guess set_2 p2 -> ~ good_fit threshold p2 ->
  measureVirtualTargetDiff run_1 run_2 cs k guess threshold = Throw RuntimeError.
Proof. exact virtual_throws_second. Qed.
Print Assumptions C27_bad_second_fit_throws.

(** With two correspondences or more there is always a result or an exception; with fewer the first
    group is empty and pose estimation aborts. *)
Theorem C27_defined :
  forall run_1 run_2 cs k guess threshold, (2 <= List.length cs)%nat ->
  (exists v, measureVirtualTargetDiff run_1 run_2 cs k guess threshold = Ok v) \/
  exists e, measureVirtualTargetDiff run_1 run_2 cs k guess threshold = Throw e.
Proof. exact virtual_defined. Qed.
Print Assumptions C27_defined.

Theorem C27_too_few_aborts :
  forall run_1 run_2 cs k guess threshold, (List.length cs < 2)%nat ->
  measureVirtualTargetDiff run_1 run_2 cs k guess threshold = UB.
Proof. exact virtual_too_few. Qed.
Print Assumptions C27_too_few_aborts.

Example C27_three_points : forall k guess, exists v, measureVirtualTargetDiff ex_run ex_run ex_corrs k guess 1 = Ok v.
Proof. exact ex_virtual. Qed.
(** Solvers that do not converge *)
Example C27_bad_first : forall k guess run, measureVirtualTargetDiff bad_run run ex_corrs k guess 1 = Throw RuntimeError.
Proof. exact bad_first. Qed.
Example C27_bad_second : forall k guess, measureVirtualTargetDiff ex_run bad_run ex_corrs k guess 1 = Throw RuntimeError.
Proof. exact bad_second. Qed.
