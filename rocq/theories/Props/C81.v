(** C81: unknowns of a kinematic calibration that measurements cannot tell apart. Spec/RedundancySpec.v has the vocabulary. *)
From Coq Require Import Reals String List.
From Verif.Base Require Import Geom Outcome Matrix.
From Verif.Model Require Import Covariance Solver DhChain LocalParam Kinematic Yaml Loaders KinematicExample.
From Verif.Spec Require Import OracleSpec KinSpec KinReport KinExampleSpec RedundancySpec.
From Verif.Proofs Require Import KinRunProofs RedundancyProofs RedundancyExample.
Import ListNotations.
Local Open Scope R_scope.

(** Offsets of the last joint of a chain can be exchanged for any others: what is mounted on its tip makes up for them. *)
Theorem C81_last_target_joint :
  forall cam tgt C T B oc ot, rigid T ->
  forall row ot', S row = dof tgt -> equal_but row every_column ot ot' ->
  exists T', rigid T' /\ same_predictions cam tgt (KE C T B oc ot) (KE C T' B oc ot').
Proof. exact last_target_joint. Qed.
Print Assumptions C81_last_target_joint.
Theorem C81_last_camera_joint :
  forall cam tgt C T B oc ot, rigid C ->
  forall row oc', S row = dof cam -> equal_but row every_column oc oc' ->
  exists C', rigid C' /\ same_predictions cam tgt (KE C T B oc ot) (KE C' T B oc' ot).
Proof. exact last_camera_joint. Qed.
Print Assumptions C81_last_camera_joint.

(** The transform between the bases makes up for the offsets d and theta of the first joints. *)
Theorem C81_first_target_joint :
  forall cam tgt C T B oc ot, rigid (base_offset tgt) -> rigid B ->
  forall ot', (0 < dof tgt)%nat -> (0 < rows ot)%nat -> equal_but 0 d_or_theta ot ot' ->
  exists B', rigid B' /\ same_predictions cam tgt (KE C T B oc ot) (KE C T B' oc ot').
Proof. exact first_target_joint. Qed.
Print Assumptions C81_first_target_joint.
Theorem C81_first_camera_joint :
  forall cam tgt C T B oc ot, rigid (base_offset cam) -> rigid B ->
  forall oc', (0 < dof cam)%nat -> (0 < rows oc)%nat -> equal_but 0 d_or_theta oc oc' ->
  exists B', rigid B' /\ same_predictions cam tgt (KE C T B oc ot) (KE C T B' oc' ot).
Proof. exact first_camera_joint. Qed.
Print Assumptions C81_first_camera_joint.

(** A mount on a chain without joints makes up for the transform between the bases. *)
Theorem C81_base_of_a_fixed_camera :
  forall cam tgt C T B oc ot, rigid (base_offset cam) -> rigid C -> rigid B ->
  forall B', dof cam = 0%nat -> rigid B' ->
  exists C', rigid C' /\ same_predictions cam tgt (KE C T B oc ot) (KE C' T B' oc ot).
Proof. exact fixed_camera_base. Qed.
Print Assumptions C81_base_of_a_fixed_camera.
Theorem C81_base_of_a_fixed_target :
  forall cam tgt C T B oc ot, rigid (base_offset tgt) -> rigid T -> rigid B ->
  forall B', dof tgt = 0%nat -> rigid B' ->
  exists T', rigid T' /\ same_predictions cam tgt (KE C T B oc ot) (KE C T' B' oc ot).
Proof. exact fixed_target_base. Qed.
Print Assumptions C81_base_of_a_fixed_target.

(** So the example loses nothing by holding the last row of the offsets and the transform between the bases: for every
    values of all parameters there are values that cost no more and have what is held as it was at the start. *)
Theorem C81_holding_loses_nothing :
  forall ms tgt g1 g2 held_row pb w residuals p,
  asks ms tgt g1 g2 held_row pb ->
  right_problem (k6_common pb) (fun e => map (pose_error w (k6_common pb) e) (k6_observations pb)) residuals p ->
  (forall o, In o ms -> all_joints fixed_camera tgt o) ->
  (0 < dof tgt)%nat -> (forall row, held_row row <-> S row = dof tgt) ->
  forall m c, cost_is residuals m c ->
  exists m' c', cost_is residuals m' c' /\ c' <= c /\
    forall k i, (k < 8)%nat -> (i < block_size (k6_common pb) k)%nat -> FreezeSpec.frozen p k i ->
      m' k i = kin_memory0 (k6_common pb) k i.
Proof. exact nothing_lost. Qed.
Print Assumptions C81_holding_loses_nothing.

(** But the offsets d and theta of the first joint, which the example leaves free, are not found either: the best values
    have none, whatever the measurements. *)
Theorem C81_first_offsets_of_the_best_are_zero :
  forall ms tgt g1 g2 held_row pb w residuals p,
  asks ms tgt g1 g2 held_row pb ->
  right_problem (k6_common pb) (fun e => map (pose_error w (k6_common pb) e) (k6_observations pb)) residuals p ->
  (forall o, In o ms -> all_joints fixed_camera tgt o) ->
  rigid (base_offset tgt) -> (0 < dof tgt)%nat -> ~ held_row 0%nat ->
  forall m, best residuals p m ->
  forall j, (j < 2)%nat -> ent (ke_target_offsets (stored_estimate (k6_common pb) m)) 0 j = 0.
Proof. exact first_joint_zero. Qed.
Print Assumptions C81_first_offsets_of_the_best_are_zero.
Theorem C81_example_reports_no_first_offsets :
  forall load server f s1 s2 run1 run2 rep ms,
  lists_blocks (run_cov run1) ->
  kinematicExample load server (Some f) s1 s2 run1 run2 = Ok (Some rep) -> loadMeasurements load f = Ok ms ->
  (forall o, In o ms -> all_joints fixed_camera (createTwoAxisPositioner s1 s2) o) ->
  exists com residuals p,
    right_problem com (fun e => map (pose_error 100 com e) ms) residuals p /\
    forall m s, run_solve run1 residuals p (kin_memory0 com) = (m, s) -> best residuals p m ->
    ent (kr_target_chain_dh_offsets (rp_optimal rep)) 0 0 = 0 /\ ent (kr_target_chain_dh_offsets (rp_optimal rep)) 0 1 = 0.
Proof. exact example_first_joint. Qed.
Print Assumptions C81_example_reports_no_first_offsets.

Example C81_example_problem :
  asks [sc_exact] (createTwoAxisPositioner 0 0) iso_id iso_id (fun row => row = 1%nat) sc_problem /\
  forall o, In o [sc_exact] -> all_joints fixed_camera (createTwoAxisPositioner 0 0) o.
Proof. exact (conj sc_asks sc_joints). Qed.
Example C81_example_best :
  exists residuals p, right_problem (k6_common sc_problem) (fun e => map (pose_error 100 (k6_common sc_problem) e) [sc_exact]) residuals p /\
  best residuals p (kin_memory0 (k6_common sc_problem)) /\ cost_is residuals (kin_memory0 (k6_common sc_problem)) 0.
Proof. exact sc_best. Qed.
