(** C105: a pose file is read back as the pose that was written, and a file whose end is missing is not read as another pose. *)
From Coq Require Import Reals ZArith String List.
From Flocq Require Import Core BinarySingleNaN.
From Verif.Base Require Import Float Geom Outcome.
From Verif.Model Require Import Loaders NumberText PoseText.
From Verif.Spec Require Import PoseTextSpec.
From Verif.Proofs Require Import PoseTextProofs.
From Verif.Proofs Require PoseLineProofs.
Local Open Scope string_scope.

(** A complete file gives back the same seven numbers, thus the same pose. *)
Theorem C105_complete : forall p c, (17 <= p)%nat -> finite_numbers c -> exists t, pose_text p c = Some t /\
  forall disk path, disk path = Some t -> loadPose_file (load_text disk) path = Ok (pose_of c).
Proof. exact whole_pose. Qed.
Print Assumptions C105_complete.

(** A cut file is not always refused. *)
Theorem C105_cut_refuted : ~ (forall p c t t' disk path, (17 <= p)%nat -> finite_numbers c -> rigid (pose_of c) -> pose_text p c = Some t ->
  cut_of t' t -> disk path = Some t' -> loadPose_file (load_text disk) path = Throw BadFile).
Proof. exact cut_refuted. Qed.
Print Assumptions C105_cut_refuted.

(** It is refused when none of the digits of the last number are left. *)
Theorem C105_cut_partial : forall p c t s t' r disk path, pose_text p c = Some t -> number_text p (n_qz c) = Some s ->
  t = (t' ++ r ++ s)%string -> disk path = Some t' -> loadPose_file (load_text disk) path = Throw BadFile.
Proof. exact early_cut. Qed.
Print Assumptions C105_cut_partial.

(** Wherever it is cut, it is refused or read as the same pose with a shortened last number. *)
Theorem C105_cut : forall p c t t' disk path, (17 <= p)%nat -> finite_numbers c -> pose_text p c = Some t -> cut_of t' t -> disk path = Some t' ->
  loadPose_file (load_text disk) path = Throw BadFile \/
  exists s s' q, number_text p (n_qz c) = Some s /\ cut_of s' s /\ read_number s' = Some q /\
    loadPose_file (load_text disk) path = Ok (pose_of (with_qz c q)).
Proof. exact cut_pose. Qed.
Print Assumptions C105_cut.

(** What is read then need not be a rigid motion. *)
Theorem C105_cut_not_rigid : exists c t t', finite_numbers c /\ rigid (pose_of c) /\ pose_text 17 c = Some t /\ cut_of t' t /\
  forall disk path, disk path = Some t' -> exists T, loadPose_file (load_text disk) path = Ok T /\ ~ rigid T.
Proof. exact cut_not_rigid. Qed.
Print Assumptions C105_cut_not_rigid.

(** Files with a line that is no name with a value are refused. *)
Theorem C105_other_line : forall disk path text line, disk path = Some text -> In line (lines text) -> ~ map_line line ->
  loadPose_file (load_text disk) path = Throw BadFile.
Proof. exact PoseLineProofs.other_line. Qed.
Print Assumptions C105_other_line.

Example C105_other_line_example : In "x:5" (lines PoseLineProofs.glued_text) /\ ~ map_line "x:5".
Proof. exact PoseLineProofs.glued_example. Qed.
Example C105_third_turn : finite_numbers third_turn /\ rigid (pose_of third_turn) /\ pose_text 17 third_turn = Some third_text.
Proof. exact (conj third_finite (conj third_rigid third_written)). Qed.
