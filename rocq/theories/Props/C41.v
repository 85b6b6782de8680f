(** C41: data set parsing keeps images and poses paired. *)
From Coq Require Import Reals ZArith String List.
From Verif.Base Require Import Geom Outcome.
From Verif.Model Require Import Yaml Serialization Loaders DataSet.
From Verif.Spec Require Import YamlSpec DataSetSpec.
From Verif.Proofs Require Import DataSetProofs InterruptProofs.
Import ListNotations.
Local Open Scope string_scope.

(** Parsing returns the pairs of the index in the order of its entries: exactly those whose image and pose
    both load, each image with the pose of the same entry. *)
Theorem C41_parse : forall image file (lib : codec image file) disk u dir base data, sane lib -> no_slash base ->
  (parseFromFile lib disk u (dir ++ "/" ++ base) = Ok (Some data) <->
   exists entries ps, index_file lib disk (dir ++ "/" ++ base) entries /\ pairs_of lib disk dir entries ps /\ data = of_pairs ps).
Proof. intros image file lib disk u dir base data S. exact (from_file_iff lib S disk u dir base data). Qed.
Print Assumptions C41_parse.

(** It fails exactly when the file is no YAML list or an entry lacks one of its two names; it never throws. *)
Theorem C41_failure : forall image file (lib : codec image file) disk u dir base, sane lib -> no_slash base ->
  (parseFromFile lib disk u (dir ++ "/" ++ base) = Ok None <->
   ~ exists entries, index_file lib disk (dir ++ "/" ++ base) entries /\ forall n, In n entries -> exists img pose, names lib n img pose).
Proof. intros image file lib disk u dir base S. exact (from_file_fails lib S disk u dir base). Qed.
Print Assumptions C41_failure.
Theorem C41_no_exception : forall image file (lib : codec image file) disk u dir base, no_slash base ->
  (exists data, parseFromFile lib disk u (dir ++ "/" ++ base) = Ok (Some data)) \/ parseFromFile lib disk u (dir ++ "/" ++ base) = Ok None.
Proof. intros image file lib. exact (from_file_total lib). Qed.
Print Assumptions C41_no_exception.

(** Saving and parsing the directory returns the same images and poses, whatever was there before. *)
Theorem C41_round_trip : forall image file (lib : codec image file) storable can_write disk dir ps u, lossless lib storable ->
  storable_pairs storable ps -> (forall p, can_write p = true) ->
  exists disk', saveToDirectory lib can_write disk dir (of_pairs ps) = (disk', Ok true) /\
    parseFromFile lib disk' u (dir ++ "/data.yaml") = Ok (Some (of_pairs ps)).
Proof. intros image file lib storable can disk dir ps u L. exact (save_parse lib (proj1 L) storable L can disk dir ps u). Qed.
Print Assumptions C41_round_trip.

(** Images without poses and poses without images are dropped, if no old pose files are there. *)
Theorem C41_uneven : forall image file (lib : codec image file) storable can_write disk dir images poses u, lossless lib storable ->
  (forall i, In i images -> storable i) -> (forall T, In T poses -> rigid T) -> (forall p, can_write p = true) ->
  (forall i, List.length poses <= i -> disk (dir ++ "/" ++ pose_name i) = None) ->
  exists disk', saveToDirectory lib can_write disk dir (DS images poses) = (disk', Ok true) /\
    parseFromFile lib disk' u (dir ++ "/data.yaml") = Ok (Some (of_pairs (combine images poses))).
Proof. intros image file lib storable can disk dir images poses u L. exact (save_uneven lib (proj1 L) storable L can disk dir images poses u). Qed.
Print Assumptions C41_uneven.

(** Nothing outside the directory is touched. *)
Theorem C41_elsewhere : forall image file (lib : codec image file) can_write disk dir data q, (forall r, q <> dir ++ "/" ++ r) ->
  fst (saveToDirectory lib can_write disk dir data) q = disk q.
Proof. intros image file lib. exact (save_elsewhere lib). Qed.
Print Assumptions C41_elsewhere.

(** Saving reports success even if no file can be written. *)
Theorem C41_silent_failure : forall image file (lib : codec image file) storable can_write disk dir data, lossless lib storable ->
  (forall i, In i (ds_images data) -> storable i) -> (forall p, can_write p = false) -> saveToDirectory lib can_write disk dir data = (disk, Ok true).
Proof. intros image file lib storable can disk dir data L. exact (save_silent lib storable L can disk dir data). Qed.
Print Assumptions C41_silent_failure.

(** A library that keeps everything, two pairs, and an index with an entry whose image is missing. *)
Example C41_lossless : lossless plain_codec real_image /\ storable_pairs real_image [(1, still); (2, moved)].
Proof. exact (conj plain_lossless two_storable). Qed.
Example C41_skips : forall u, parseFromFile plain_codec one_missing u "d/data.yaml" = Ok (Some (of_pairs [(2, moved)])).
Proof. exact one_missing_reads. Qed.
