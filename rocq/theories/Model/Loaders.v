(** Parameter loaders: rct_ros_tools/src/parameter_loaders.cpp (pl.cpp) and rct_ros_tools/src/loader_utils.cpp
    (lu.cpp). The ROS parameter server and the file system are maps from names to contents. *)
From Coq Require Import Reals ZArith String List.
From Verif.Base Require Import Geom Outcome.
From Verif.Model Require Import Pose Yaml Serialization.
Import ListNotations.
Local Open Scope R_scope.

(** XmlRpc::XmlRpcValue. Dates and binary data are never converted and stand in [XOther]. *)
Inductive xml : Type :=
| XInvalid
| XBool (b : bool)
| XInt (z : Z)
| XDouble (r : R)
| XString (s : string)
| XOther (type : nat)
| XArray (l : list xml)
| XStruct (m : list (string * xml)).

(** [XmlRpcValue::operator double&()]: an invalid value becomes 0; any other type throws. *)
Definition xml_double (v : xml) : res R :=
  match v with XDouble r => Ok r | XInvalid => Ok 0 | _ => Throw XmlRpcException end.
(** pl.cpp:8-23, read<double>. [hasMember] is false for anything but a struct. [None] is false. *)
Definition read (v : xml) (key : string) : option R :=
  match v with
  | XStruct m =>
      match find_str key m with
      | None => None
      | Some x => match xml_double x with Ok r => Some r | _ => None end
      end
  | _ => None
  end.
(** [if (!read(...)) throw ros::InvalidParameterException(...)] *)
Definition read_or_throw (v : xml) (key : string) : res R :=
  match read v key with Some r => Ok r | None => Throw InvalidParameter end.
(** [nh.getParam(key, xml)] *)
Definition param (server : string -> option xml) (key : string) : res xml :=
  match server key with Some v => Ok v | None => Throw InvalidParameter end.

(** pl.cpp:27-44, loadIntrinsics(nh, key) *)
Definition loadIntrinsics_param (server : string -> option xml) (key : string) : res intrinsics :=
  do v <- param server key;
  do fx <- read_or_throw v "fx"; do fy <- read_or_throw v "fy";
  do cx <- read_or_throw v "cx"; do cy <- read_or_throw v "cy";
  Ok (Intr fx fy cx cy).
(** pl.cpp:87-112, loadPose(nh, key). The quaternion is converted to an AngleAxis, and that to a matrix. *)
Definition loadPose_param (server : string -> option xml) (key : string) : res iso :=
  do v <- param server key;
  do x <- read_or_throw v "x"; do y <- read_or_throw v "y"; do z <- read_or_throw v "z";
  do qx <- read_or_throw v "qx"; do qy <- read_or_throw v "qy"; do qz <- read_or_throw v "qz"; do qw <- read_or_throw v "qw";
  let aa := aa_of_quat (Q qw qx qy qz) in
  Ok (Iso (aa_matrix (aa_angle aa) (aa_axis aa)) (V3 x y z)).

(** [YAML::LoadFile]: YAML::BadFile or YAML::ParserException when there is no such file or it is no YAML. *)
Definition LoadFile (load : string -> option yaml) (path : string) : res yaml :=
  match load path with Some n => Ok n | None => Throw YamlException end.
(** [catch (YAML::Exception&) { throw BadFileException }] *)
Definition bad_file {A} (x : res A) : res A := match x with Throw YamlException => Throw BadFile | _ => x end.
(** pl.cpp:60-71, loadIntrinsics(path) *)
Definition loadIntrinsics_file (load : string -> option yaml) (path : string) : res intrinsics :=
  bad_file (do n <- LoadFile load path; as_ decode_intr n).
(** pl.cpp:128-139, loadPose(path) *)
Definition loadPose_file (load : string -> option yaml) (path : string) : res iso :=
  bad_file (do n <- LoadFile load path; as_ decode_iso n).

(** pl.cpp:46-58, 73-85, 114-126 and 141-153, the overloads that return false instead of throwing. The result
    is the returned value and the new content of the output argument. *)
Definition or_false_param {A} (x : res A) (out : A) : res (bool * A) :=
  match x with Ok a => Ok (true, a) | Throw InvalidParameter => Ok (false, out) | Throw e => Throw e | UB => UB end.
Definition or_false_file {A} (x : res A) (out : A) : res (bool * A) :=
  match x with Ok a => Ok (true, a) | Throw BadFile => Ok (false, out) | Throw e => Throw e | UB => UB end.
Definition tryIntrinsics_param server key out := or_false_param (loadIntrinsics_param server key) out.
Definition tryPose_param server key out := or_false_param (loadPose_param server key) out.
Definition tryIntrinsics_file load path out := or_false_file (loadIntrinsics_file load path) out.
Definition tryPose_file load path out := or_false_file (loadPose_file load path) out.

(** ** Conversion of parameters to YAML *)

(** [getType()] *)
Inductive xml_type : Type := TInvalid | TBool | TInt | TDouble | TString | TOther (type : nat) | TArray | TStruct.
Definition getType (v : xml) : xml_type :=
  match v with
  | XInvalid => TInvalid | XBool _ => TBool | XInt _ => TInt | XDouble _ => TDouble | XString _ => TString
  | XOther t => TOther t | XArray _ => TArray | XStruct _ => TStruct
  end.
Definition same_type (a b : xml_type) : bool :=
  match a, b with
  | TInvalid, TInvalid | TBool, TBool | TInt, TInt | TDouble, TDouble | TString, TString | TArray, TArray | TStruct, TStruct => true
  | TOther s, TOther t => Nat.eqb s t
  | _, _ => false
  end.
(** lu.cpp:7-28, getArrayType. The first element of an empty array is out of range. *)
Definition getArrayType (v : xml) : res xml_type :=
  match v with
  | XArray [] => Throw XmlRpcException
  | XArray (x :: l) => if forallb (fun y => same_type (getType y) (getType x)) l
                       then Ok (getType x) else Throw RuntimeError
  | _ => Throw RuntimeError
  end.
(** lu.cpp:30-40, fromArray, and the conversion of the vector to a node. All elements have the type. A string
    that looks like a number or a boolean stays a string here, although yaml-cpp could also read it as that. *)
Definition scalar (v : xml) : yaml :=
  match v with XBool b => YBool b | XInt z => YInt z | XDouble r => YReal r | XString s => YStr s | _ => YNull end.
Definition fromArray (v : xml) : yaml := match v with XArray l => YSeq (map scalar l) | _ => YNull end.
(** lu.cpp:46-97, toYAML. An empty struct gives a node that stays null. The keys of a struct are distinct
    (std::map), so that every assignment appends. *)
Definition is_scalar_type (t : xml_type) : bool :=
  match t with TBool | TInt | TDouble | TString => true | _ => false end.
Fixpoint toYAML (v : xml) : res yaml :=
  match v with
  | XStruct m =>
      do entries <- (fix loop (m : list (string * xml)) : res (list (string * yaml)) :=
        match m with
        | [] => Ok []
        | (key, x) :: r =>
            do y <- match x with
                    | XStruct _ => toYAML x
                    | XArray _ => do t <- getArrayType x;
                                  if is_scalar_type t then Ok (fromArray x) else Throw RuntimeError
                    | XBool _ | XInt _ | XDouble _ | XString _ => Ok (scalar x)
                    | _ => Throw RuntimeError
                    end;
            do ys <- loop r; Ok ((key, y) :: ys)
        end) m;
      Ok (match entries with [] => YNull | _ => YMap entries end)
  | _ => Throw RuntimeError
  end.
