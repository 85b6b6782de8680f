(** C58: parameters converted to YAML keep their keys and values. *)
From Coq Require Import Reals ZArith String List.
From Verif.Base Require Import Geom Outcome.
From Verif.Model Require Import Pose Yaml Loaders.
From Verif.Spec Require Import YamlSpec LoaderSpec.
From Verif.Proofs Require Import LoaderProofs.
Import ListNotations.
Local Open Scope R_scope.
Local Open Scope string_scope.

(** The conversion of a struct succeeds exactly when it has a YAML form, and gives that form. *)
Theorem C58_value : forall v y, toYAML v = Ok y <-> (exists m, v = XStruct m) /\ same_value v y.
Proof. exact toYAML_iff. Qed.
Print Assumptions C58_value.

(** Every member is found under its key, and there are no other keys. *)
Theorem C58_members : forall v y key x, toYAML v = Ok y -> member key v x -> exists y', has key y y' /\ same_value x y'.
Proof. exact toYAML_member. Qed.
Print Assumptions C58_members.

Theorem C58_keys : forall v y, toYAML v = Ok y ->
  (v = XStruct [] /\ y = YNull) \/ exists m n, v = XStruct m /\ y = YMap n /\ map fst m = map fst n.
Proof. exact toYAML_keys. Qed.
Print Assumptions C58_keys.

(** Everything else is a std::runtime_error or an XmlRpcException. *)
Theorem C58_outcomes : forall v, (exists y, toYAML v = Ok y) \/ toYAML v = Throw RuntimeError \/ toYAML v = Throw XmlRpcException.
Proof. exact toYAML_outcomes. Qed.
Print Assumptions C58_outcomes.

(** An empty array cannot be converted, and the exception is not a std::exception. *)
Theorem C58_empty_array : forall key m1 m2, (forall p, In p m1 -> exists y, same_value (snd p) y) ->
  toYAML (XStruct (m1 ++ (key, XArray []) :: m2)) = Throw XmlRpcException.
Proof. exact toYAML_empty_array. Qed.
Print Assumptions C58_empty_array.

(** A nested tree. *)
Example C58_nested :
  toYAML (XStruct [("type", XString "grid"); ("rows", XInt 10); ("params", XStruct [("ids", XArray [XInt 1; XInt 2]); ("on", XBool true)])]) =
  Ok (YMap [("type", YStr "grid"); ("rows", YInt 10); ("params", YMap [("ids", YSeq [YInt 1; YInt 2]); ("on", YBool true)])]).
Proof. reflexivity. Qed.
