(** C73: the measurement file of the kinematic calibration example. [says_measurement] (Spec/KinExampleSpec.v) says what an entry
    of the file means. *)
From Coq Require Import Reals String List.
From Verif.Base Require Import Geom Outcome.
From Verif.Model Require Import Kinematic Yaml KinematicExample.
From Verif.Spec Require Import YamlSpec KinExampleSpec.
From Verif.Proofs Require Import KinFileProofs.
Import ListNotations.
Local Open Scope R_scope.

(** A file that is written as it should be gives its measurements, all of them and in order. *)
Theorem C73_written_file_loads :
  forall load f entries ms, load f = Some (YMap entries) -> Forall2 says_measurement (map snd entries) ms ->
  loadMeasurements load f = Ok ms.
Proof. exact load_written. Qed.
Print Assumptions C73_written_file_loads.

(** A measurement whose quaternion has length one is a rigid pose. *)
Theorem C73_unit_quaternion_rigid : forall t q, qnorm2 q = 1 -> rigid (Iso (q_matrix q) t).
Proof. exact unit_rigid. Qed.
Print Assumptions C73_unit_quaternion_rigid.

(** Loading ends with a value or with the exception for a bad file. *)
Theorem C73_outcomes : forall load f,
  (exists ms, loadMeasurements load f = Ok ms) \/ loadMeasurements load f = Throw BadFile.
Proof. exact load_outcomes. Qed.
Print Assumptions C73_outcomes.

(** Full statement: whatever is loaded is what the file says. It is not: missing joints are taken for no joints. *)
Theorem C73_only_written_refuted : ~ (forall load f ms, loadMeasurements load f = Ok ms ->
  exists entries, load f = Some (YMap entries) /\ Forall2 says_measurement (map snd entries) ms).
Proof. exact accepts_more. Qed.
Print Assumptions C73_only_written_refuted.

(** If every entry lists its joints then what is loaded is what the file says. *)
Theorem C73_only_written_partial :
  forall load f entries ms, load f = Some (YMap entries) -> (forall e, In e entries -> lists_joints (snd e)) ->
  loadMeasurements load f = Ok ms -> Forall2 says_measurement (map snd entries) ms.
Proof. exact load_partial. Qed.
Print Assumptions C73_only_written_partial.

(** Exactly what is accepted. *)
Theorem C73_accepted : forall load f ms, loadMeasurements load f = Ok ms <-> exists n, load f = Some n /\
  ((exists m, n = YMap m /\ Forall2 accepts_measurement (map snd m) ms) \/ ms = [] /\ no_entries n).
Proof. exact load_ok. Qed.
Print Assumptions C73_accepted.

(** Full statement: the poses are rigid. They are not: the quaternion is used as it is. *)
Theorem C73_rigid_refuted :
  ~ (forall load f ms, loadMeasurements load f = Ok ms -> forall m, In m ms -> rigid (km_camera_to_target m)).
Proof. exact accepts_unrigid. Qed.
Print Assumptions C73_rigid_refuted.

(** A measurement with two target joints. *)
Example C73_entry : forall f, loadMeasurements (one_entry (entry_node 1)) f = Ok [entry_meas 1].
Proof. exact (entry_loads 1). Qed.
Example C73_entry_says : says_measurement (entry_node 1) (entry_meas 1).
Proof. exact (entry_says 1). Qed.
(** Any text is accepted for a file without measurements. *)
Example C73_scalar : forall f, loadMeasurements (fun _ => Some (YStr "measurements")) f = Ok [].
Proof. exact scalar_loads. Qed.
