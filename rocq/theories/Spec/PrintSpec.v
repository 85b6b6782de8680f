(** What printed reports say. *)
From Coq Require Import Reals ZArith Ascii String List.
From Verif.Base Require Import Geom.
From Verif.Model Require Import Print.
From Verif.Spec Require Import YamlSpec.
Import ListNotations.
Local Open Scope string_scope.
Local Open Scope R_scope.

(** Only stars. *)
Fixpoint only_stars (s : string) : Prop := match s with EmptyString => True | String c r => c = "*"%char /\ only_stars r end.
(** The numbers up to the end of the line. *)
Fixpoint numbers (l : list token) : list R :=
  match l with [] => [] | Endl :: _ => [] | Number r :: l => r :: numbers l | _ :: l => numbers l end.
(** The numbers that follow a label on its line, for every place where the label is printed. *)
Fixpoint said (label : string) (l : list token) : list (list R) :=
  match l with
  | [] => []
  | Text s :: l => if String.eqb s label then numbers l :: said label l else said label l
  | _ :: l => said label l
  end.
(** The matrices printed. *)
Fixpoint matrices (l : list token) : list iso := match l with [] => [] | Matrix4 T :: l => T :: matrices l | _ :: l => matrices l end.
(** The frame names and the description are no labels themselves. *)
Definition no_label (s : string) : Prop :=
  ~ In s ["xyz="""; "rpy="""; "qxyzw="""; "DELTA S: "; "DELTA A: "].
Definition degrees (a : R) : R := a * 180 / PI.
(** Six numbers for roll, pitch and yaw in radians and degrees. *)
Definition rpy_numbers (roll pitch yaw : R) : list R := [roll; degrees roll; pitch; degrees pitch; yaw; degrees yaw].
Definition xyz_numbers (v : vec3) : list R := [vx v; vy v; vz v].
(** This rotation turns by this angle about some axis. *)
Definition turns_by (m : mat3) (angle : R) : Prop := 0 <= angle <= PI /\ exists axis, dot axis axis = 1 /\ aa_matrix angle axis = m.
