(** What a data set directory says, and what saving and interrupted saving may leave on disk. *)
From Coq Require Import Reals ZArith String List Ascii.
From Verif.Base Require Import Geom Outcome.
From Verif.Model Require Import Yaml Serialization Loaders DataSet.
From Verif.Spec Require Import YamlSpec.
Import ListNotations.
Local Open Scope string_scope.

Section Spec.
  Context {image file : Type} (lib : codec image file).

  (** A data set as a list of pairs. *)
  Definition of_pairs (ps : list (image * iso)) : data_set image := DS (map fst ps) (map snd ps).

  (** ** Reading *)

  (** Text as it is, numbers and booleans as they were written. *)
  Definition text (v : yaml) (s : string) : Prop :=
    v = YStr s \/ s = scalar_text lib v /\ ((exists z, v = YInt z) \/ (exists r, v = YReal r) \/ exists b, v = YBool b).
  (** An entry of the index names an image and a pose file. *)
  Definition names (entry : yaml) (img pose : string) : Prop :=
    (exists v, has "image" entry v /\ text v img) /\ (exists v, has "pose" entry v /\ text v pose).
  (** A file holds an image; a file holds a pose, as a translation and a quaternion. *)
  Definition holds_image (disk : fs file) (path : string) (i : image) : Prop :=
    exists f, disk path = Some f /\ imread lib f = i /\ empty_image lib i = false.
  Definition holds_pose (disk : fs file) (path : string) (T : iso) : Prop :=
    exists f n q, disk path = Some f /\ parse_yaml lib f = Some n /\ says_pose n (tr T) q /\ lin T = q_matrix q.
  (** The pairs of an index, in order: the entries whose image and pose are both there. *)
  Inductive pairs_of (disk : fs file) (dir : string) : list yaml -> list (image * iso) -> Prop :=
  | no_entry : pairs_of disk dir [] []
  | pair_loaded entry entries ps img pose i T : names entry img pose ->
      holds_image disk (dir ++ "/" ++ img) i -> holds_pose disk (dir ++ "/" ++ pose) T ->
      pairs_of disk dir entries ps -> pairs_of disk dir (entry :: entries) ((i, T) :: ps)
  | pair_skipped entry entries ps img pose : names entry img pose ->
      ~ ((exists i, holds_image disk (dir ++ "/" ++ img) i) /\ (exists T, holds_pose disk (dir ++ "/" ++ pose) T)) ->
      pairs_of disk dir entries ps -> pairs_of disk dir (entry :: entries) ps.
  (** An index is a list; a document that is no collection counts as an empty list. *)
  Definition index (root : yaml) (entries : list yaml) : Prop :=
    root = YSeq entries \/ entries = [] /\ (forall l, root <> YSeq l) /\ (forall p l, root <> YMap (p :: l)).
  Definition index_file (disk : fs file) (path : string) (entries : list yaml) : Prop :=
    exists f root, disk path = Some f /\ parse_yaml lib f = Some root /\ index root entries.
  (** A file name without a directory. *)
  Definition no_slash (s : string) : Prop := forall a b, s <> a ++ "/" ++ b.

  (** An empty image is not an image. *)
  Definition sane : Prop := empty_image lib (no_image lib) = true.

  (** ** Saving *)

  (** The image format keeps these images, and YAML files keep poses and indices. *)
  Definition lossless (storable : image -> Prop) : Prop :=
    sane /\
    (forall i, storable i -> empty_image lib i = false /\ imread lib (png lib i) = i) /\
    (forall T, parse_yaml lib (emit lib (encode_iso T)) = Some (encode_iso T)) /\
    (forall data, parse_yaml lib (emit lib (directory data)) = Some (directory (image := image) data)).
  Definition storable_pairs (storable : image -> Prop) (ps : list (image * iso)) : Prop :=
    forall i T, In (i, T) ps -> storable i /\ rigid T.

  (** ** Interruption *)

  (** Nothing or something that is neither an image nor a pose. *)
  Definition unusable (o : option file) : Prop :=
    match o with
    | None => True
    | Some f => empty_image lib (imread lib f) = true /\ forall n, parse_yaml lib f = Some n -> ~ exists t q, says_pose n t q
    end.
  Definition numbered (i : nat) : yaml := YMap [("pose", YStr (pose_name i)); ("image", YStr (image_name i))].
  (** An index of which only a first part was written: nothing, no YAML, some complete entries, or some
      complete entries and one without its second half. *)
  Definition torn_index (k : nat) (o : option file) : Prop :=
    match o with
    | None => True
    | Some f =>
        parse_yaml lib f = None \/ k = 0 /\ parse_yaml lib f = Some YNull \/
        parse_yaml lib f = Some (YSeq (map numbered (seq 0 k))) \/
        parse_yaml lib f = Some (YSeq (map numbered (seq 0 k) ++ [YMap [("pose", YStr (pose_name k))]])%list)
    end.
  Definition update (disk : fs file) (path : string) (o : option file) : fs file :=
    fun q => if String.eqb q path then o else disk q.
  Definition always (path : string) : bool := true.
  (** The disk when saving is interrupted before the index is opened: between two files, or while an image or
      a pose is being written. *)
  Inductive before_index (disk : fs file) (dir : string) (data : data_set image) : fs file -> Prop :=
  | between done rest : rest <> [] -> save_effects lib dir data = (done ++ rest)%list ->
      before_index disk dir data (fst (run always disk done))
  | in_file done path content rest o : rest <> [] -> save_effects lib dir data = (done ++ Write path content :: rest)%list ->
      unusable o -> before_index disk dir data (update (fst (run always disk done)) path o).
  (** The disk when saving is interrupted while the index is being written, after [k] complete entries. *)
  Inductive within_index (disk : fs file) (dir : string) (data : data_set image) (k : nat) : fs file -> Prop :=
  | in_index done path content o : save_effects lib dir data = (done ++ [Write path content])%list ->
      k <= List.length (ds_images data) -> torn_index k o ->
      within_index disk dir data k (update (fst (run always disk done)) path o).
  Definition interrupted (disk : fs file) (dir : string) (data : data_set image) (disk' : fs file) : Prop :=
    before_index disk dir data disk' \/ exists k, within_index disk dir data k disk'.
  (** The directory holds this data set: images/0.png, poses/0.yaml and so on. *)
  Definition stored (disk : fs file) (dir : string) (ps : list (image * iso)) : Prop :=
    disk (dir ++ "/data.yaml") = Some (emit lib (directory (of_pairs ps))) /\
    forall n i T, nth_error ps n = Some (i, T) ->
      disk (dir ++ "/" ++ "images/" ++ to_string n ++ ".png") = Some (png lib i) /\
      disk (dir ++ "/" ++ "poses/" ++ to_string n ++ ".yaml") = Some (emit lib (encode_iso T)).
  (** One pair is missing. *)
  Definition without_one (ps qs : list (image * iso)) : Prop := exists l1 p l2, ps = (l1 ++ p :: l2)%list /\ qs = (l1 ++ l2)%list.
End Spec.

(** ** A library that keeps everything *)

(** Images are numbers, 0 is the empty one; a file is an image or a YAML document; an empty file is a null
    document. *)
Definition plain_codec : codec nat (nat + yaml) :=
  Codec nat (nat + yaml) (Nat.eqb 0) 0 inl (fun f => match f with inl i => i | inr _ => 0 end) inr
    (fun f => match f with inl _ => None | inr y => Some y end) (fun _ => "").
