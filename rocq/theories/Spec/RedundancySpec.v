(** Which of the unknowns of a kinematic calibration can be seen in measurements. *)
From Coq Require Import Reals List.
From Verif.Base Require Import Geom Outcome Matrix.
From Verif.Model Require Import Solver DhChain LocalParam Kinematic.
From Verif.Spec Require Import FreezeSpec KinSpec KinReport KinExampleSpec UniqueSpec.
Import ListNotations.
Local Open Scope R_scope.

(** A measurement with a value for every joint of both chains. *)
Definition all_joints (cam tgt : dh_chain) (o : kin_measurement) : Prop :=
  length (km_camera_chain_joints o) = dof cam /\ length (km_target_chain_joints o) = dof tgt.
(** Two estimates put the target at the same pose in the camera frame wherever the joints are: no measurement tells
    them apart. *)
Definition same_predictions (cam tgt : dh_chain) (e e' : kin_estimate) : Prop :=
  forall o, all_joints cam tgt o -> forall P, predicts cam tgt e o P <-> predicts cam tgt e' o P.
(** The offsets are the same but for some columns of one row. *)
Definition equal_but (row : nat) (col : nat -> Prop) (A B : matrix) : Prop :=
  rows A = rows B /\ cols A = cols B /\
  forall i j, (i < rows A)%nat -> (j < 4)%nat -> ~ (i = row /\ col j) -> ent A i j = ent B i j.
Definition every_column (_ : nat) : Prop := True.
(** The columns of the offset along and of the angle about the joint axis. *)
Definition d_or_theta (j : nat) : Prop := (j < 2)%nat.

(** The cost of parameter values: half the sum of the squared residuals. *)
Definition cost_is (residuals : list kin_residual) (m : memory) (c : R) : Prop :=
  exists vs, mapM (fun f : kin_residual => f m) residuals = Ok vs /\ c = half_squares (concat vs).
(** No other values of the parameters that are not held have a smaller cost. *)
Definition best (residuals : list kin_residual) (p : problem) (m : memory) : Prop :=
  exists c, cost_is residuals m c /\
  forall m' c', (forall k i, frozen p k i -> m' k i = m k i) -> cost_is residuals m' c' -> c <= c'.
