(** Outcomes of C++ calls: a value, a thrown exception, or undefined behaviour
    (out-of-range access, failed assert, failed CHECK inside Ceres). *)
From Coq Require Import List.
Import ListNotations.

Inductive exn : Type :=
| RuntimeError        (* std::runtime_error *)
| OptimizationException
| CovarianceException
| OutOfRange          (* std::out_of_range from .at() *)
| InvalidParameter    (* ros::InvalidParameterException *)
| BadFile             (* rct_ros_tools::BadFileException *)
| YamlException       (* YAML::Exception *)
| XmlRpcException     (* XmlRpc::XmlRpcException, not a std::exception *)
| CvException.        (* cv::Exception *)

Inductive res (A : Type) : Type :=
| Ok (a : A)
| Throw (e : exn)
| UB.
Arguments Ok {A} a.
Arguments Throw {A} e.
Arguments UB {A}.

Definition bind {A B} (x : res A) (f : A -> res B) : res B :=
  match x with Ok a => f a | Throw e => Throw e | UB => UB end.

Notation "'do' x <- e1 ; e2" := (bind e1 (fun x => e2))
  (at level 200, x pattern, e1 at level 100, e2 at level 200, right associativity).

(** [v.at(i)]: bounds-checked access. *)
Definition at_ {A} (l : list A) (i : nat) : res A :=
  match nth_error l i with Some a => Ok a | None => Throw OutOfRange end.

(** [v[i]]: unchecked access, undefined outside the vector. *)
Definition idx {A} (l : list A) (i : nat) : res A :=
  match nth_error l i with Some a => Ok a | None => UB end.

(** A loop over a list whose body may throw; the first failure stops it. *)
Fixpoint mapM {A B} (f : A -> res B) (l : list A) : res (list B) :=
  match l with
  | [] => Ok []
  | a :: r => do b <- f a; do bs <- mapM f r; Ok (b :: bs)
  end.

Fixpoint foldM {S A} (f : S -> A -> res S) (l : list A) (s : S) : res S :=
  match l with
  | [] => Ok s
  | a :: r => do s' <- f s a; foldM f r s'
  end.

Definition is_ok {A} (x : res A) : Prop := exists a, x = Ok a.
