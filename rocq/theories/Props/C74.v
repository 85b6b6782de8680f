(** C74: compareToMeasurements of the kinematic calibration example. [errs] (Spec/KinExampleSpec.v) relates a measurement to the
    distance and the angle between the measured target pose and the one that the estimate predicts. *)
From Coq Require Import Reals List.
From Verif.Base Require Import Geom Outcome Matrix.
From Verif.Model Require Import DhChain Kinematic KinematicExample.
From Verif.Spec Require Import KinSpec KinReport KinExampleSpec StatSpec.
From Verif.Proofs Require Import KinCompareProofs KinRunProofs.
Import ListNotations.
Local Open Scope R_scope.

(** What is reported are the mean and the standard deviation of these distances and angles, over all measurements. *)
Theorem C74_reports_errors :
  forall seeds1 seeds2 cam tgt r, rigid (base_offset cam) -> rigid (base_offset tgt) -> rigid_estimate (result_estimate r) ->
  (dof cam <= rows (kr_camera_chain_dh_offsets r))%nat -> (dof tgt <= rows (kr_target_chain_dh_offsets r))%nat ->
  forall ms st, (forall o, In o ms -> rigid (km_camera_to_target o)) ->
  compareToMeasurements seeds1 seeds2 cam tgt r ms = Ok st ->
  exists xs, Forall2 (errs cam tgt (result_estimate r)) ms xs /\ ms <> [] /\
    st = Stats (average (map fst xs)) (std_dev (map fst xs)) (average (map snd xs)) (std_dev (map snd xs)).
Proof. exact compare_value. Qed.
Print Assumptions C74_reports_errors.

(** It returns if there are measurements that the chains can reach. *)
Theorem C74_returns :
  forall seeds1 seeds2 cam tgt r, rigid (base_offset cam) -> rigid (base_offset tgt) -> rigid_estimate (result_estimate r) ->
  (dof cam <= rows (kr_camera_chain_dh_offsets r))%nat -> (dof tgt <= rows (kr_target_chain_dh_offsets r))%nat ->
  forall ms, ms <> [] ->
  (forall o, In o ms -> rigid (km_camera_to_target o) /\ reaches cam (km_camera_chain_joints o) /\ reaches tgt (km_target_chain_joints o)) ->
  exists xs, Forall2 (errs cam tgt (result_estimate r)) ms xs /\
    compareToMeasurements seeds1 seeds2 cam tgt r ms =
    Ok (Stats (average (map fst xs)) (std_dev (map fst xs)) (average (map snd xs)) (std_dev (map snd xs))).
Proof. exact compare_ok. Qed.
Print Assumptions C74_returns.

(** It throws if the chains cannot reach one of them. *)
Theorem C74_throws :
  forall seeds1 seeds2 cam tgt r,
  (dof cam <= rows (kr_camera_chain_dh_offsets r))%nat -> (dof tgt <= rows (kr_target_chain_dh_offsets r))%nat ->
  forall ms, ms <> [] ->
  (exists o, In o ms /\ ~ (reaches cam (km_camera_chain_joints o) /\ reaches tgt (km_target_chain_joints o))) ->
  compareToMeasurements seeds1 seeds2 cam tgt r ms = Throw RuntimeError.
Proof. exact compare_fails. Qed.
Print Assumptions C74_throws.

(** Both means are zero exactly if the estimate predicts every measured pose. *)
Theorem C74_zero_iff_exact :
  forall seeds1 seeds2 cam tgt r, rigid (base_offset cam) -> rigid (base_offset tgt) -> rigid_estimate (result_estimate r) ->
  (dof cam <= rows (kr_camera_chain_dh_offsets r))%nat -> (dof tgt <= rows (kr_target_chain_dh_offsets r))%nat ->
  forall ms st, (forall o, In o ms -> rigid (km_camera_to_target o)) ->
  compareToMeasurements seeds1 seeds2 cam tgt r ms = Ok st ->
  (pos_mean st = 0 /\ rot_mean st = 0 <->
   forall o, In o ms -> predicts cam tgt (result_estimate r) o (km_camera_to_target o)).
Proof. exact compare_zero. Qed.
Print Assumptions C74_zero_iff_exact.

(** Prediction and error are determined. *)
Theorem C74_errors_unique :
  forall cam tgt r o x y, rigid (km_camera_to_target o) ->
  errs cam tgt (result_estimate r) o x -> errs cam tgt (result_estimate r) o y -> x = y.
Proof. exact errs_unique. Qed.
Print Assumptions C74_errors_unique.

(** A report is made for a measurement of the positioner. *)
Example C74_example : exists r st, (dof (createTwoAxisPositioner 0 0) <= rows (kr_target_chain_dh_offsets r))%nat /\
  rigid_estimate (result_estimate r) /\
  run_cmp 0 0 [KinFileProofs.entry_meas 1] still_run r = Ok st.
Proof. exact compare_example. Qed.
