(** C57: an interrupted save is never read as something else. *)
From Coq Require Import Reals ZArith String List.
From Verif.Base Require Import Geom Outcome.
From Verif.Model Require Import Yaml Serialization Loaders DataSet.
From Verif.Spec Require Import YamlSpec DataSetSpec.
From Verif.Proofs Require Import DataSetProofs InterruptProofs MoreExamples.
Import ListNotations.
Local Open Scope string_scope.

(** A first save that is interrupted is not always reported: an index that was opened but not written reads as
    an empty data set. *)
Theorem C57_first_save_refuted :
  ~ (forall image file (lib : codec image file) storable disk dir ps disk' u, lossless lib storable -> storable_pairs storable ps ->
     disk (dir ++ "/data.yaml") = None -> interrupted lib disk dir (of_pairs ps) disk' ->
     parseFromFile lib disk' u (dir ++ "/data.yaml") = Ok None).
Proof. exact first_save_refuted. Qed.
Print Assumptions C57_first_save_refuted.

(** It is reported unless the index was being written. *)
Theorem C57_first_save_partial : forall image file (lib : codec image file) storable disk dir data disk' u, lossless lib storable ->
  disk (dir ++ "/data.yaml") = None -> before_index lib disk dir data disk' -> parseFromFile lib disk' u (dir ++ "/data.yaml") = Ok None.
Proof. intros image file lib storable disk dir data disk' u L. exact (first_before lib storable L disk dir data disk' u). Qed.
Print Assumptions C57_first_save_partial.

(** If the index was being written, failure is reported or a first part of the data set is returned. *)
Theorem C57_within_index : forall image file (lib : codec image file) storable disk dir ps k disk' u, lossless lib storable ->
  storable_pairs storable ps -> within_index lib disk dir (of_pairs ps) k disk' ->
  parseFromFile lib disk' u (dir ++ "/data.yaml") = Ok None \/ parseFromFile lib disk' u (dir ++ "/data.yaml") = Ok (Some (of_pairs (firstn k ps))).
Proof. intros image file lib storable disk dir ps k disk' u L. exact (within_result lib storable L disk dir ps k disk' u). Qed.
Print Assumptions C57_within_index.

(** When a longer version of a stored data set is saved, the old pairs can get lost in the same way. *)
Theorem C57_longer_refuted :
  ~ (forall image file (lib : codec image file) storable disk dir old more disk' u, lossless lib storable -> storable_pairs storable (old ++ more)%list ->
     stored lib disk dir old -> interrupted lib disk dir (of_pairs (old ++ more)%list) disk' ->
     exists qs, parseFromFile lib disk' u (dir ++ "/data.yaml") = Ok (Some (of_pairs qs)) /\
       (qs = old \/ qs = (old ++ more)%list \/ without_one old qs)).
Proof. exact longer_save_refuted. Qed.
Print Assumptions C57_longer_refuted.

(** Before the index is opened, the old pairs are returned, without at most the one being written. *)
Theorem C57_longer_partial : forall image file (lib : codec image file) storable disk dir old more disk' u, lossless lib storable ->
  storable_pairs storable old -> stored lib disk dir old -> before_index lib disk dir (of_pairs (old ++ more)%list) disk' ->
  exists qs, parseFromFile lib disk' u (dir ++ "/data.yaml") = Ok (Some (of_pairs qs)) /\ (qs = old \/ without_one old qs).
Proof. intros image file lib storable disk dir old more disk' u L. exact (longer_before lib storable L disk dir old more disk' u). Qed.
Print Assumptions C57_longer_partial.

(** A complete save leaves a stored data set. *)
Theorem C57_complete : forall image file (lib : codec image file) storable can_write disk dir ps, lossless lib storable ->
  storable_pairs storable ps -> (forall p, can_write p = true) ->
  exists disk', saveToDirectory lib can_write disk dir (of_pairs ps) = (disk', Ok true) /\ stored lib disk' dir ps.
Proof. intros image file lib storable can disk dir ps L. exact (save_stored lib storable L can disk dir ps). Qed.
Print Assumptions C57_complete.

(** Saving a different data set over a stored one can pair a new image with an old pose. *)
Theorem C57_other_data_mixed : exists (lib : codec nat (nat + yaml)) storable disk dir old new disk' i T, lossless lib storable /\
  storable_pairs storable old /\ storable_pairs storable new /\ stored lib disk dir old /\ before_index lib disk dir (of_pairs new) disk' /\
  (forall u, parseFromFile lib disk' u (dir ++ "/data.yaml") = Ok (Some (of_pairs [(i, T)]))) /\ ~ In (i, T) old /\ ~ In (i, T) new.
Proof. exact mixed. Qed.
Print Assumptions C57_other_data_mixed.

(** An interrupted first save whose index has one of two entries. *)
Example C57_half : within_index plain_codec blank "d" (of_pairs two) 1 half /\ forall u, parseFromFile plain_codec half u "d/data.yaml" = Ok (Some (of_pairs [(1, still)])).
Proof. exact (conj half_interrupted half_one). Qed.
(** A longer save over a stored data set, interrupted while the first image is written again *)
Example C57_longer : stored plain_codec old_disk "d" [(1, InterruptProofs.still)] /\
  before_index plain_codec old_disk "d" (of_pairs ([(1, InterruptProofs.still)] ++ [(2, moved)])%list) cut_image.
Proof. exact longer_cut. Qed.
