(** Derivatives of residuals. *)
From Coq Require Import Reals List Bool Arith.
From Verif.Base Require Import Geom Outcome.
From Verif.Model Require Import Jet Kinematic.
Import ListNotations.
Local Open Scope R_scope.

(** Values of the parameters: block and element to value. *)
Definition values := nat -> nat -> R.
(** The values with one changed. *)
Definition with_value (x : values) (b i : nat) (s : R) : values :=
  fun b' i' => if andb (Nat.eqb b b') (Nat.eqb i i') then s else x b' i'.
(** [d] is the derivative of [f] at [x] by element [i] of block [b]. *)
Definition partial (f : values -> R) (x : values) (b i : nat) (d : R) : Prop :=
  derivable_pt_lim (fun s => f (with_value x b i s)) (x b i) d.
(** The jets hold the residuals and their derivatives by all parameters. *)
Definition gives_derivatives (F : values -> list R) (x : values) (J : list jet) : Prop :=
  map ja J = F x /\
  forall k j, nth_error J k = Some j -> forall b i, exists d, jv j (b, i) = Fin d /\ partial (fun y => nth k (F y) 0) x b i d.
(** A rotation vector whose length is not just the one at which Ceres switches to its formula for small angles. *)
Definition off_switch (aa : vec3) : Prop := dot aa aa <> DBL_EPS.
(** The same for residuals that may also fail. *)
Definition gives_derivatives_res (F : values -> res (list R)) (x : values) (J : res (list jet)) : Prop :=
  exists G L, (forall y, F y = Ok (G y)) /\ J = Ok L /\ gives_derivatives G x L.
(** A rotation vector that is zero, or longer than the length up to which the kinematic calibration ignores it. *)
Definition clear_turn (aa : vec3) : Prop := aa = V3 0 0 0 \/ DBL_EPS < norm aa.
(** No derivative of the residual is a number. *)
Definition no_derivatives (J : list jet) : Prop := forall k j, nth_error J k = Some j -> forall b i, jv j (b, i) = NaN.
(** Yet the residuals have derivatives by all parameters. *)
Definition differentiable (F : values -> list R) (x : values) : Prop :=
  forall k b i, exists d, partial (fun y => nth k (F y) 0) x b i d.
(** [d] is the derivative of [f] by an element of a rotation vector at zero, when rotations too small for the kinematic
    calibration to see are left out. *)
Definition turning_derivative (f : values -> R) (x : values) (b i : nat) (d : R) : Prop :=
  exists g, (forall s, DBL_EPS < Rabs s -> f (with_value x b i s) = g s) /\ f x = g 0 /\ derivable_pt_lim g 0 d.
(** Quaternions as stored in a block: x, y, z, w. *)
Definition stored_quat (y : values) (b : nat) : quat := Q (y b 3%nat) (y b 0%nat) (y b 1%nat) (y b 2%nat).
Definition coeffs (q : quat) : list R := [qx q; qy q; qz q; qw q].
(** The rotation vectors among the unknowns of a kinematic calibration, and the guesses that they start from. *)
Definition turn_block (b : nat) : Prop := (b = 3 \/ b = 5 \/ b = 7)%nat.
Definition guess_of (com : kin_common) (b : nat) : iso :=
  match b with
  | 3 => kc_camera_mount_to_camera_guess com
  | 5 => kc_target_mount_to_target_guess com
  | _ => kc_camera_base_to_target_base_guess com
  end%nat.
(** The values differ in one block only. *)
Definition equal_outside (b : nat) (x y : values) : Prop := forall b' i, b' <> b -> y b' i = x b' i.
