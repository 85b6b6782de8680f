(** Dynamically sized matrices and C++ associative containers. *)
From Coq Require Import Reals List Arith.
Import ListNotations.
Local Open Scope R_scope.

(** Eigen::MatrixXd: dimensions and entries. Entries outside the dimensions are
    never looked at by the theorems. *)
Record matrix := Mat { rows : nat; cols : nat; ent : nat -> nat -> R }.

(** [m(i, j) = v]. *)
Definition set_ent (m : matrix) (i j : nat) (v : R) : matrix :=
  Mat (rows m) (cols m)
      (fun a b => if andb (Nat.eqb a i) (Nat.eqb b j) then v else ent m a b).

(** std::map keyed by a parameter-block address (a natural number here), as an
    association list in iteration order. *)
Definition amap (V : Type) := list (nat * V).
Fixpoint find_key {V} (k : nat) (m : amap V) : option V :=
  match m with
  | [] => None
  | (k', v) :: r => if Nat.eqb k k' then Some v else find_key k r
  end.
(** [m[k] = v]: overwrite or insert. *)
Fixpoint insert_key {V} (k : nat) (v : V) (m : amap V) : amap V :=
  match m with
  | [] => [(k, v)]
  | (k', v') :: r => if Nat.eqb k k' then (k, v) :: r else (k', v') :: insert_key k v r
  end.
Definition keys {V} (m : amap V) : list nat := map fst m.
