(** Averages and standard deviations. *)
From Coq Require Import Reals List.
From Verif.Base Require Import Geom.
Import ListNotations.
Local Open Scope R_scope.

Definition total (l : list R) : R := fold_right Rplus 0 l.
Definition average (l : list R) : R := total l / INR (List.length l).
(** Population standard deviation. *)
Definition std_dev (l : list R) : R :=
  sqrt (total (map (fun x => (x - average l) * (x - average l)) l) / INR (List.length l)).

(** Two quaternions for the same rotation. *)
Definition same_rotation (a b : quat) : Prop := b = a \/ b = qneg a.
Definition qdot (a b : quat) : R := qw a * qw b + qx a * qx b + qy a * qy b + qz a * qz b.
(** Quadratic form of a 4x4 matrix, on the coefficients x, y, z, w of a quaternion. *)
Definition quad4 (M : nat -> nat -> R) (v : quat) : R :=
  let c := fun i => nth i [qx v; qy v; qz v; qw v] 0 in
  total (map (fun i => total (map (fun j => M i j * (c i * c j)) [0; 1; 2; 3]%nat)) [0; 1; 2; 3]%nat).
(** The unit quaternion m makes the quadratic form as large as any: for a positive matrix, it is an
    eigenvector for the largest eigenvalue. *)
Definition dominant (M : nat -> nat -> R) (m : quat) : Prop :=
  qnorm2 m = 1 /\ forall v, qnorm2 v = 1 -> quad4 M v <= quad4 M m.
