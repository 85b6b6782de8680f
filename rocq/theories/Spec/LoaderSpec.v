(** What a parameter tree says, independent of the order in which the code reads it. *)
From Coq Require Import Reals ZArith String List.
From Verif.Base Require Import Geom.
From Verif.Model Require Import Pose Yaml Loaders.
Import ListNotations.
Local Open Scope R_scope.
Local Open Scope string_scope.

(** The first entry of a struct with this key. *)
Definition member (key : string) (v x : xml) : Prop :=
  exists m1 m2, v = XStruct (m1 ++ (key, x) :: m2) /\ ~ In key (map fst m1).
(** A double, or a value without a type, which counts as 0. *)
Definition double_at (key : string) (v : xml) (r : R) : Prop :=
  member key v (XDouble r) \/ member key v XInvalid /\ r = 0.
Definition param_intr (v : xml) (k : intrinsics) : Prop :=
  double_at "fx" v (fx k) /\ double_at "fy" v (fy k) /\ double_at "cx" v (cx k) /\ double_at "cy" v (cy k).
Definition param_pose (v : xml) (t : vec3) (q : quat) : Prop :=
  double_at "x" v (vx t) /\ double_at "y" v (vy t) /\ double_at "z" v (vz t) /\
  double_at "qw" v (qw q) /\ double_at "qx" v (qx q) /\ double_at "qy" v (qy q) /\ double_at "qz" v (qz q).

(** The quaternion of length one in the same direction. *)
Definition unit_quat (q : quat) : quat :=
  let s := sqrt (qnorm2 q) in Q (qw q / s) (qx q / s) (qy q / s) (qz q / s).
Definition zero_quat : quat := Q 0 0 0 0.
(** The rotation of a quaternion of any length. *)
Definition rotation_of (q : quat) (m : mat3) : Prop :=
  q = zero_quat /\ m = I3 \/ q <> zero_quat /\ m = q_matrix (unit_quat q).

(** ** Conversion to YAML *)

(** Numbers, booleans and text. *)
Inductive same_scalar : xml -> yaml -> Prop :=
| same_bool b : same_scalar (XBool b) (YBool b)
| same_int z : same_scalar (XInt z) (YInt z)
| same_double r : same_scalar (XDouble r) (YReal r)
| same_text s : same_scalar (XString s) (YStr s).
(** Two values of one scalar type. *)
Inductive alike : xml -> xml -> Prop :=
| alike_bool a b : alike (XBool a) (XBool b)
| alike_int a b : alike (XInt a) (XInt b)
| alike_double a b : alike (XDouble a) (XDouble b)
| alike_text a b : alike (XString a) (XString b).
(** A struct with entries becomes a map with the same keys and corresponding values, an array of scalars of
    one type a sequence, and an empty struct a null node. *)
Inductive same_value : xml -> yaml -> Prop :=
| same_scalar_value v y : same_scalar v y -> same_value v y
| same_array x l ys : Forall (alike x) l -> Forall2 same_scalar (x :: l) ys -> same_value (XArray (x :: l)) (YSeq ys)
| same_empty : same_value (XStruct []) YNull
| same_struct m n : m <> [] -> Forall2 (fun a b => fst a = fst b /\ same_value (snd a) (snd b)) m n ->
    same_value (XStruct m) (YMap n).
