(** What can be read in a printed text. *)
From Coq Require Import Reals ZArith Ascii String List.
From Flocq Require Import Core BinarySingleNaN.
From Verif.Base Require Import Float Geom.
From Verif.Model Require Import NumberText.
From Verif.Spec Require Import TextSpec YamlSpec PrintSpec.
Import ListNotations.
Local Open Scope string_scope.

(** Whoever copies the text [t] copies the number [r] to [p] significant digits: up to 0.51 of a unit in the last of them (and a
    number too small for a double). *)
Definition shows_digits (p : nat) (t : string) (r : R) : Prop :=
  exists y, read_number t = Some y /\ (Rabs (B2R y - r) <= 51 / (10 * 10 ^ p) * Rabs r + / 2 ^ 1073)%R.
(** 6 digits: up to 5.1e-6 of its size *)
Definition shows : string -> R -> Prop := shows_digits 6.
(** The words of a line: what stands between blanks. *)
Fixpoint words_from (word s : string) : list string :=
  match s with
  | EmptyString => if String.eqb word "" then [] else [word]
  | String c r =>
      if Ascii.eqb c " "%char then (if String.eqb word "" then words_from "" r else word :: words_from "" r)
      else words_from (word ++ String c "") r
  end.
Definition words (s : string) : list string := words_from "" s.
(** The words of the line are these numbers. *)
Definition shows_row (line : string) (row : list R) : Prop := Forall2 shows (words line) row.
(** Lines of four cells, all of one width *)
Definition in_columns (lines : list string) : Prop :=
  exists width, Forall (fun line => exists a b c d, line = a ++ " " ++ b ++ " " ++ c ++ " " ++ d /\
    Forall (fun cell => String.length cell = width) [a; b; c; d]) lines.
(** Four lines with the matrix of a transform, one number below the other *)
Definition shows_matrix (lines : list string) (T : iso) : Prop :=
  in_columns lines /\
  Forall2 shows_row lines
    [[m00 (lin T); m01 (lin T); m02 (lin T); vx (tr T)];
     [m10 (lin T); m11 (lin T); m12 (lin T); vy (tr T)];
     [m20 (lin T); m21 (lin T); m22 (lin T); vz (tr T)];
     [0; 0; 0; 1]]%R.
Definition quote : string := String (ascii_of_nat 34) "".
(** xyz="..." *)
Definition shows_xyz (line : string) (v : vec3) : Prop :=
  exists x y z, line = "xyz=" ++ quote ++ x ++ " " ++ y ++ " " ++ z ++ quote /\ shows x (vx v) /\ shows y (vy v) /\ shows z (vz v).
(** rpy="...(... deg) ...(... deg) ...(... deg)" *)
Definition shows_rpy (line : string) (roll pitch yaw : R) : Prop :=
  exists r dr p dp y dy,
    line = "rpy=" ++ quote ++ r ++ "(" ++ dr ++ " deg) " ++ p ++ "(" ++ dp ++ " deg) " ++ y ++ "(" ++ dy ++ " deg)" ++ quote /\
    shows r roll /\ shows dr (degrees roll) /\ shows p pitch /\ shows dp (degrees pitch) /\ shows y yaw /\ shows dy (degrees yaw).
(** qxyzw="..." *)
Definition shows_quaternion (line : string) (q : quat) : Prop :=
  exists x y z w, line = "qxyzw=" ++ quote ++ x ++ " " ++ y ++ " " ++ z ++ " " ++ w ++ quote /\
    shows x (qx q) /\ shows y (qy q) /\ shows z (qz q) /\ shows w (qw q).
(** Poses whose numbers are in no danger of being too large for a double *)
Definition ordinary_pose (T : iso) : Prop := rigid T /\ (norm (tr T) <= 2 ^ 900)%R.
(** Copied numbers: [y] is [r] to six digits. *)
Definition to_six_digits (r y : R) : Prop := (Rabs (y - r) <= 51 / 10 ^ 7 * Rabs r + / 2 ^ 1073)%R.
