(** YAML nodes as yaml-cpp (0.6) offers them: what the code writes into and reads from a YAML::Node. *)
From Coq Require Import Reals ZArith String List.
From Verif.Base Require Import Geom Outcome.
Import ListNotations.
Local Open Scope R_scope.

(** A defined node. Scalars are kept by the value of their text: an integer, another number, a boolean, or
    any other text. The text of a number has enough digits to read the same number back
    (Model/NumberText.v, C104). *)
Inductive yaml : Type :=
| YNull
| YInt (z : Z)
| YReal (r : R)
| YBool (b : bool)
| YStr (s : string)
| YSeq (l : list yaml)
| YMap (m : list (string * yaml)).

Fixpoint find_str {V} (k : string) (m : list (string * V)) : option V :=
  match m with
  | [] => None
  | (k', v) :: r => if String.eqb k k' then Some v else find_str k r
  end.

(** [node["key"]] on a const node, followed by a use of the result: YAML::BadSubscript on a scalar, and
    YAML::InvalidNode or YAML::BadConversion when there is no such key. All are YAML::Exception. *)
Definition field (key : string) (n : yaml) : res yaml :=
  match n with
  | YMap m => match find_str key m with Some v => Ok v | None => Throw YamlException end
  | _ => Throw YamlException
  end.
(** [node[i]] on a const node, followed by a use of the result. In a map, [i] would be looked up as a key;
    keys are text that is not an integer here. *)
Definition item (i : nat) (n : yaml) : res yaml :=
  match n with
  | YSeq l => match nth_error l i with Some v => Ok v | None => Throw YamlException end
  | _ => Throw YamlException
  end.
(** [node.size()] *)
Definition ysize (n : yaml) : nat :=
  match n with YSeq l => List.length l | YMap m => List.length m | _ => 0 end.

(** A conversion: [None] when decode returns false. *)
Definition decoder (A : Type) := yaml -> res (option A).
(** [node.as<A>()]: YAML::TypedBadConversion when decode returns false. *)
Definition as_ {A} (d : decoder A) (n : yaml) : res A :=
  do o <- d n; match o with Some a => Ok a | None => Throw YamlException end.

(** [as<double>()], [as<float>()] *)
Definition decode_double : decoder R := fun n =>
  match n with YInt z => Ok (Some (IZR z)) | YReal r => Ok (Some r) | _ => Ok None end.
Definition as_double := as_ decode_double.
(** [as<int>()]: 32 bits *)
Definition decode_int : decoder Z := fun n =>
  match n with
  | YInt z => if (Z.leb (- 2 ^ 31) z && Z.ltb z (2 ^ 31))%bool then Ok (Some z) else Ok None
  | _ => Ok None
  end.
Definition as_int := as_ decode_int.
(** [as<unsigned>()], [as<size_t>()]: a negative number is read modulo 2^bits *)
Definition decode_unsigned (bits : Z) : decoder Z := fun n =>
  match n with
  | YInt z => if (Z.ltb (- 2 ^ bits) z && Z.ltb z (2 ^ bits))%bool then Ok (Some (z mod 2 ^ bits)%Z) else Ok None
  | _ => Ok None
  end.
Definition as_unsigned (bits : Z) := as_ (decode_unsigned bits).
(** [as<bool>()] *)
Definition decode_bool : decoder bool := fun n => match n with YBool b => Ok (Some b) | _ => Ok None end.
Definition as_bool := as_ decode_bool.
(** [as<std::string>()]: the text of a scalar. [text] is the text of scalars that are not plain text. *)
Definition decode_string (text : yaml -> string) : decoder string := fun n =>
  match n with
  | YStr s => Ok (Some s)
  | YInt _ | YReal _ | YBool _ => Ok (Some (text n))
  | _ => Ok None
  end.
Definition as_string (text : yaml -> string) := as_ (decode_string text).
(** [as<std::vector<A>>()] *)
Definition decode_seq {A} (d : decoder A) : decoder (list A) := fun n =>
  match n with YSeq l => do vs <- mapM (as_ d) l; Ok (Some vs) | _ => Ok None end.
(** [Node(std::vector<A>)] *)
Definition encode_seq {A} (e : A -> yaml) (l : list A) : yaml := YSeq (map e l).
