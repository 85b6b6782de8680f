(** Independent vocabulary for circle fitting. *)
From Coq Require Import Reals Arith List.
From Verif.Base Require Import Geom.
From Verif.Spec Require Import CovarianceSpec.
Import ListNotations.
Local Open Scope R_scope.

(** Distance between two points of the plane. *)
Definition dist2 (a b : vec2) : R := sqrt ((px a - px b) * (px a - px b) + (py a - py b) * (py a - py b)).
(** The circle with the given centre and radius. *)
Definition on_circle (centre : vec2) (radius : R) (a : vec2) : Prop := dist2 a centre = radius.

(** First-order propagation of a covariance through a function of [n] variables: [D i k] is
    the partial derivative of output i by variable k at [p]. *)
Definition update (p : nat -> R) (k : nat) (t : R) : nat -> R := fun i => if Nat.eqb i k then t else p i.
Definition jacobian (n : nat) (f : (nat -> R) -> nat -> R) (p : nat -> R) (D : nat -> nat -> R) : Prop :=
  forall i k, (i < n)%nat -> (k < n)%nat ->
    derivable_pt_lim (fun t => f (update p k t) i) (p k) (D i k).
Definition propagated (n : nat) (D C : nat -> nat -> R) (i j : nat) : R :=
  rsum n (fun k => rsum n (fun l => D i k * C k l * D j l)).

(** The circle reported for centre (v 0, v 1) and square root of the radius v 2. *)
Definition circle_reported (v : nat -> R) (i : nat) : R :=
  match i with 0%nat => v 0%nat | 1%nat => v 1%nat | _ => v 2%nat * v 2%nat end.
Definition three (x y s : R) (i : nat) : R := match i with 0 => x | 1 => y | _ => s end%nat.
