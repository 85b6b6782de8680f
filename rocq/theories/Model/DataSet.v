(** Data sets on disk: rct_ros_tools/src/data_set.cpp (ds.cpp) *)
From Coq Require Import Reals ZArith String List Ascii DecimalString.
From Verif.Base Require Import Geom Outcome.
From Verif.Model Require Import Yaml Serialization Loaders.
Import ListNotations.
Local Open Scope string_scope.

(** rct_ros_tools/include/rct_ros_tools/data_set.h:12-16, ExtrinsicDataSet *)
Record data_set (image : Type) := DS { ds_images : list image; ds_tool_poses : list iso }.
Arguments DS {image}. Arguments ds_images {image}. Arguments ds_tool_poses {image}.

(** std::to_string of an unsigned number *)
Definition to_string (n : nat) : string := NilEmpty.string_of_uint (Nat.to_uint n).
(** ds.cpp:11-16, rootPath: the part before the last '/'. Without one the assertion fails ([None]). *)
Fixpoint rootPath (filename : string) : option string :=
  match filename with
  | EmptyString => None
  | String c r =>
      match rootPath r with
      | Some p => Some (String c p)
      | None => if Ascii.eqb c "/" then Some EmptyString else None
      end
  end.
(** ds.cpp:18, combine *)
Definition combine_path (dir rel_path : string) : string := dir ++ "/" ++ rel_path.

(** The image and YAML libraries: the files that [cv::imwrite] and a YAML::Node's [operator<<] produce, and
    what [cv::imread] and YAML::LoadFile make of a file. [imread] gives an empty image for a file that is not
    there or cannot be decoded. *)
Record codec (image file : Type) := Codec {
  empty_image : image -> bool;
  no_image : image;
  png : image -> file;
  imread : file -> image;
  emit : yaml -> file;
  parse_yaml : file -> option yaml;
  scalar_text : yaml -> string }.
Arguments empty_image {image file}. Arguments no_image {image file}. Arguments png {image file}. Arguments imread {image file}.
Arguments emit {image file}. Arguments parse_yaml {image file}. Arguments scalar_text {image file}.

Section Files.
  Context {image file : Type} (lib : codec image file).
  (** The file system: the content of every file that exists *)
  Definition fs := string -> option file.

  (** ds.cpp:20-28, readImageOpenCV *)
  Definition readImage (disk : fs) (path : string) : image :=
    match disk path with Some f => imread lib f | None => no_image lib end.
  Definition load (disk : fs) (path : string) : option yaml :=
    match disk path with Some f => parse_yaml lib f | None => None end.

  (** ds.cpp:30-59, parse. The pose [p] is not initialised before it is loaded, nor used when that fails. *)
  Definition parse (disk : fs) (uninitialised : iso) (root : yaml) (root_path : string) : res (data_set image) :=
    foldM (fun data i =>
        do n <- item i root; do v <- field "image" n; do img_path <- as_string (scalar_text lib) v;
        do n <- item i root; do v <- field "pose" n; do pose_path <- as_string (scalar_text lib) v;
        let image := readImage disk (combine_path root_path img_path) in
        if empty_image lib image then Ok data else
        do r <- tryPose_file (load disk) (combine_path root_path pose_path) uninitialised;
        let '(loaded, p) := r in
        if negb loaded then Ok data else
        Ok (DS (ds_images data ++ [image])%list (ds_tool_poses data ++ [p])%list))
      (seq 0 (ysize root)) (DS [] []).
  (** ds.cpp:61-74, parseFromFile *)
  Definition parseFromFile (disk : fs) (uninitialised : iso) (path : string) : res (option (data_set image)) :=
    match
      (do root <- LoadFile (load disk) path;
       match rootPath path with
       | None => UB    (* assert *)
       | Some root_path => parse disk uninitialised root root_path
       end)
    with
    | Ok data => Ok (Some data)
    | Throw YamlException => Ok None
    | Throw e => Throw e
    | UB => UB
    end.

  (** The effects of saving, in order: a file is written, or an exception is thrown. *)
  Inductive effect : Type := Write (path : string) (content : file) | Raise (e : exn).
  Definition image_name (i : nat) : string := "images/" ++ to_string i ++ ".png".
  Definition pose_name (i : nat) : string := "poses/" ++ to_string i ++ ".yaml".
  (** cv::imwrite refuses an empty image. *)
  Definition imwrite (name : string) (img : image) : effect :=
    if empty_image lib img then Raise CvException else Write name (png lib img).
  (** ds.cpp:76-81, writePose *)
  Definition writePose (path : string) (pose : iso) : effect := Write path (emit lib (encode_iso pose)).
  (** ds.cpp:83-98, writeDirectory. A node to which nothing was added stays null. *)
  Definition directory (data : data_set image) : yaml :=
    match map (fun i => YMap [("pose", YStr (pose_name i)); ("image", YStr (image_name i))]) (seq 0 (length (ds_images data))) with
    | [] => YNull
    | l => YSeq l
    end.
  Definition writeDirectory (path : string) (data : data_set image) : effect := Write path (emit lib (directory data)).
  (** ds.cpp:100-121, saveToDirectory *)
  Definition save_effects (path : string) (data : data_set image) : list effect :=
    (map (fun p => imwrite (path ++ "/" ++ image_name (fst p)) (snd p)) (combine (seq 0 (length (ds_images data))) (ds_images data)) ++
     map (fun p => writePose (path ++ "/" ++ pose_name (fst p)) (snd p)) (combine (seq 0 (length (ds_tool_poses data))) (ds_tool_poses data)) ++
     [writeDirectory (path ++ "/data.yaml") data])%list.

  (** Carrying out effects. A file that cannot be written ([can_write], after the directories were made) is left
      as it was; nobody is told. *)
  Definition put (can_write : string -> bool) (disk : fs) (path : string) (content : file) : fs :=
    if can_write path then fun q => if String.eqb q path then Some content else disk q else disk.
  Fixpoint run (can_write : string -> bool) (disk : fs) (es : list effect) : fs * option exn :=
    match es with
    | [] => (disk, None)
    | Write path content :: r => run can_write (put can_write disk path content) r
    | Raise e :: _ => (disk, Some e)
    end.
  Definition saveToDirectory (can_write : string -> bool) (disk : fs) (path : string) (data : data_set image) : fs * res bool :=
    match run can_write disk (save_effects path data) with
    | (disk', None) => (disk', Ok true)
    | (disk', Some e) => (disk', Throw e)
    end.
End Files.
Arguments effect file : clear implicits.
Arguments fs file : clear implicits.
