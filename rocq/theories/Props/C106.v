(** C106: what is read of a data set that was saved completely, or whose saving stopped at any character of any file. *)
From Coq Require Import Reals String List.
From Verif.Base Require Import Geom Outcome.
From Verif.Model Require Import DataSet DataSetText.
From Verif.Spec Require Import DataSetSpec PoseTextSpec DataSetTextSpec.
From Verif.Proofs Require Import DataSetTextProofs.
Import ListNotations.
Local Open Scope string_scope.

(** A complete save is read as the same images in the same order, each with its pose as stored. *)
Theorem C106_complete : forall image p empty none png imread storable, (17 <= p)%nat ->
  let lib := @text_codec image p empty none png imread in keeps_pictures lib storable ->
  forall can disk dir ps u, writable_pairs storable ps -> (forall path, can path = true) ->
  exists disk', saveToDirectory lib can disk dir (of_pairs ps) = (disk', Ok true) /\ stored lib disk' dir ps /\
    parseFromFile lib disk' u (dir ++ "/data.yaml") = Ok (Some (of_pairs (map stored_pair ps))).
Proof. exact @save_text. Qed.
Print Assumptions C106_complete.

(** The stored pose differs from the given one by rounding only. *)
Theorem C106_rounding : forall T, moderate_pose T -> near_matrix (/ 2 ^ 49) (lin T) (lin (stored_pose T)) /\
  rounded (vx (tr T)) (vx (tr (stored_pose T))) /\ rounded (vy (tr T)) (vy (tr (stored_pose T))) /\ rounded (vz (tr T)) (vz (tr (stored_pose T))).
Proof. exact stored_near. Qed.
Print Assumptions C106_rounding.

(** A first save that stopped in an image or a pose leaves nothing that can be read. *)
Theorem C106_first_save : forall image p empty none png imread storable,
  let lib := @text_codec image p empty none png imread in keeps_pictures lib storable ->
  forall disk dir ps path disk' u, disk (dir ++ "/data.yaml") = None -> stopped_at lib disk dir (of_pairs ps) path disk' -> path <> dir ++ "/data.yaml" ->
  parseFromFile lib disk' u (dir ++ "/data.yaml") = Ok None.
Proof. exact @stopped_first. Qed.
Print Assumptions C106_first_save.

(** A save that stopped in the index leaves nothing that can be read, or the first pairs. *)
Theorem C106_index : forall image p empty none png imread storable, (17 <= p)%nat ->
  let lib := @text_codec image p empty none png imread in keeps_pictures lib storable ->
  forall disk dir ps disk' u, writable_pairs storable ps -> no_cut_names disk dir ->
  stopped_at lib disk dir (of_pairs ps) (dir ++ "/data.yaml") disk' ->
  parseFromFile lib disk' u (dir ++ "/data.yaml") = Ok None \/
  exists k, (k <= List.length ps)%nat /\ parseFromFile lib disk' u (dir ++ "/data.yaml") = Ok (Some (of_pairs (firstn k (map stored_pair ps)))).
Proof. exact @stopped_in_index. Qed.
Print Assumptions C106_index.

(** Every number of first pairs can be what is left. *)
Theorem C106_shortened : forall image p empty none png imread storable, (17 <= p)%nat ->
  let lib := @text_codec image p empty none png imread in keeps_pictures lib storable ->
  forall disk dir ps k u, writable_pairs storable ps -> (k <= List.length ps)%nat -> exists disk',
  stopped_at lib disk dir (of_pairs ps) (dir ++ "/data.yaml") disk' /\
  parseFromFile lib disk' u (dir ++ "/data.yaml") = Ok (Some (of_pairs (firstn k (map stored_pair ps)))).
Proof. exact @stopped_between. Qed.
Print Assumptions C106_shortened.

(** Saving a longer version over an earlier one: before the index is reached, the earlier pairs are read, at most one of them
    missing or with another last number of its pose. *)
Theorem C106_longer_save : forall image p empty none png imread storable, (17 <= p)%nat ->
  let lib := @text_codec image p empty none png imread in keeps_pictures lib storable ->
  forall disk dir old more path disk' u, writable_pairs storable (old ++ more)%list -> stored lib disk dir old ->
  stopped_at lib disk dir (of_pairs (old ++ more)%list) path disk' -> path <> dir ++ "/data.yaml" ->
  exists qs, parseFromFile lib disk' u (dir ++ "/data.yaml") = Ok (Some (of_pairs qs)) /\
    (qs = map stored_pair old \/ without_one (map stored_pair old) qs \/ one_number_changed old qs).
Proof. exact @stopped_longer. Qed.
Print Assumptions C106_longer_save.

(** Such a pose can be read after the same data set was saved again, and it need not be a rigid motion. *)
Theorem C106_changed_pose : exists (lib : codec nat string) storable disk dir old disk' path i, keeps_pictures lib storable /\ writable_pairs storable old /\ stored lib disk dir old /\
  path <> dir ++ "/data.yaml" /\ stopped_at lib disk dir (of_pairs old) path disk' /\
  forall u, exists T, parseFromFile lib disk' u (dir ++ "/data.yaml") = Ok (Some (of_pairs [(i, T)])) /\ ~ rigid T.
Proof. exact pose_changed. Qed.
Print Assumptions C106_changed_pose.

Example C106_two_pictures : keeps_pictures dots_codec (fun n => n <> 0%nat) /\ writable_pairs (fun n : nat => n <> 0%nat) two_pictures /\
  (forall dir, no_cut_names no_files dir).
Proof. exact (conj dots_keep (conj two_writable none_cut)). Qed.
