(** C75: the kinematic calibration example. Spec/KinExampleSpec.v has the vocabulary. *)
From Coq Require Import Reals String List.
From Verif.Base Require Import Geom Outcome Matrix.
From Verif.Model Require Import Covariance Solver DhChain Kinematic Yaml Loaders KinematicExample.
From Verif.Spec Require Import OracleSpec KinSpec KinReport KinExampleSpec.
From Verif.Proofs Require Import KinFileProofs KinRunProofs.
Import ListNotations.
Local Open Scope R_scope.

(** Two optimizations are made of all measurements of the file, from the guesses of the parameter server. The first holds the
    last row of the offsets, the second all rows. *)
Theorem C75_optimizations :
  forall load server f s1 s2 run1 run2 rep, kinematicExample load server (Some f) s1 s2 run1 run2 = Ok (Some rep) ->
  exists ms g1 g2 pb1 pb2, loadMeasurements load f = Ok ms /\
    loadPose_param server "camera_mount_to_camera_guess" = Ok g1 /\
    loadPose_param server "target_mount_to_target_guess" = Ok g2 /\
    asks ms (createTwoAxisPositioner s1 s2) g1 g2 (fun row => row = 1%nat) pb1 /\
    kin_optimizePose6D (run_u run1) (run_solve run1) (run_cov run1) pb1 100 = Ok (rp_optimal rep) /\
    asks ms (createTwoAxisPositioner s1 s2) g1 g2 (fun _ => True) pb2 /\
    kin_optimizePose6D (run_u run2) (run_solve run2) (run_cov run2) pb2 100 = Ok (rp_static rep).
Proof. exact example_asks. Qed.
Print Assumptions C75_optimizations.

(** With any solver that keeps what is held, both results have the identity between the bases; the first has no offsets in the
    last row and the second has none at all. *)
Theorem C75_held :
  forall load server f s1 s2 run1 run2 rep,
  lists_blocks (run_cov run1) -> lists_blocks (run_cov run2) -> keeps_frozen (run_solve run1) -> keeps_frozen (run_solve run2) ->
  kinematicExample load server (Some f) s1 s2 run1 run2 = Ok (Some rep) ->
  kr_camera_base_to_target_base (rp_optimal rep) = iso_id /\ kr_camera_base_to_target_base (rp_static rep) = iso_id /\
  (forall j, (j < 4)%nat -> ent (kr_target_chain_dh_offsets (rp_optimal rep)) 1 j = 0) /\
  same_matrix (kr_target_chain_dh_offsets (rp_static rep)) (no_offsets 2).
Proof. exact example_kept. Qed.
Print Assumptions C75_held.

(** The statistics are those of the calibrated positioner for the first result, and those of the nominal positioner for the
    second. The improvement is that of the first over the second. *)
Theorem C75_reports :
  forall load server f s1 s2 run1 run2 rep ms,
  lists_blocks (run_cov run1) -> lists_blocks (run_cov run2) -> keeps_frozen (run_solve run2) ->
  kinematicExample load server (Some f) s1 s2 run1 run2 = Ok (Some rep) -> loadMeasurements load f = Ok ms ->
  (forall o, In o ms -> rigid (km_camera_to_target o)) ->
  let tgt := createTwoAxisPositioner s1 s2 in
  let opt := rp_optimal_stats rep in let sta := rp_static_stats rep in
  ms <> [] /\
  statistics fixed_camera tgt (result_estimate (rp_optimal rep)) ms (pos_mean opt) (pos_stdev opt) (rot_mean opt) (rot_stdev opt) /\
  statistics fixed_camera tgt (nominal (rp_static rep)) ms (pos_mean sta) (pos_stdev sta) (rot_mean sta) (rot_stdev sta) /\
  exists x1 x2 x3 x4, rp_improvement rep = [x1; x2; x3; x4] /\
    improvement (pos_mean sta) (pos_mean opt) x1 /\ improvement (pos_stdev sta) (pos_stdev opt) x2 /\
    improvement (rot_mean sta) (rot_mean opt) x3 /\ improvement (rot_stdev sta) (rot_stdev opt) x4.
Proof. exact example_reports. Qed.
Print Assumptions C75_reports.

(** The tip of the nominal positioner. *)
Theorem C75_positioner : forall s1 s2 a b, getFK0 (createTwoAxisPositioner s1 s2) [a; b] = Ok (positioner_tip a b).
Proof. exact positioner_fk. Qed.
Print Assumptions C75_positioner.

(** It reports on measurements that the positioner can reach, if Ceres computes covariances. *)
Theorem C75_succeeds :
  forall load server f s1 s2 run1 run2 ms g1 g2, well run1 -> well run2 ->
  loadMeasurements load f = Ok ms ->
  loadPose_param server "camera_mount_to_camera_guess" = Ok g1 -> loadPose_param server "target_mount_to_target_guess" = Ok g2 ->
  ms <> [] -> (forall o, In o ms -> can_reach o /\ rigid (km_camera_to_target o)) ->
  exists rep, kinematicExample load server (Some f) s1 s2 run1 run2 = Ok (Some rep).
Proof. exact example_succeeds. Qed.
Print Assumptions C75_succeeds.

(** It returns without a report exactly if it is not told the file. *)
Theorem C75_no_file :
  forall load server file s1 s2 run1 run2, kinematicExample load server file s1 s2 run1 run2 = Ok None <-> file = None.
Proof. exact example_none. Qed.
Print Assumptions C75_no_file.

(** A bad file and a bad guess are exceptions. *)
Theorem C75_throws :
  forall load server f s1 s2 run1 run2,
  (loadMeasurements load f = Throw BadFile -> kinematicExample load server (Some f) s1 s2 run1 run2 = Throw BadFile) /\
  (forall ms, loadMeasurements load f = Ok ms ->
     (forall g, loadPose_param server "camera_mount_to_camera_guess" <> Ok g) \/
     (forall g, loadPose_param server "target_mount_to_target_guess" <> Ok g) ->
     kinematicExample load server (Some f) s1 s2 run1 run2 = Throw InvalidParameter).
Proof. exact example_throws. Qed.
Print Assumptions C75_throws.

(** Full statement: what cannot be used is an exception. It is not: without measurements, and with one that the positioner cannot
    reach, the program aborts. *)
Theorem C75_aborts_refuted :
  forall load server f s1 s2 run1 run2 ms g1 g2, lists_blocks (run_cov run1) ->
  loadMeasurements load f = Ok ms ->
  loadPose_param server "camera_mount_to_camera_guess" = Ok g1 -> loadPose_param server "target_mount_to_target_guess" = Ok g2 ->
  ms = [] \/ (exists o, In o ms /\ ~ can_reach o) ->
  kinematicExample load server (Some f) s1 s2 run1 run2 = UB.
Proof. exact example_aborts. Qed.
Print Assumptions C75_aborts_refuted.

Example C75_example : exists rep,
  kinematicExample (one_entry (entry_node 1)) guess_server (Some "measurements.yaml"%string) 0 0 still_run still_run = Ok (Some rep).
Proof. exact example_runs. Qed.
Example C75_run_is_well : well still_run /\ keeps_frozen (run_solve still_run).
Proof. exact (conj still_well still_keeps). Qed.
