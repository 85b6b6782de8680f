(** What messages say. *)
From Coq Require Import Reals Ascii String List.
From Verif.Base Require Import Geom.
From Verif.Model Require Import NoiseQualification CheckText.
From Verif.Spec Require Import StatSpec TextSpec PrintTextSpec.
Import ListNotations.
Local Open Scope string_scope.

(** Mean and standard deviation under a heading, with their unit *)
Definition says_mean (heading unit t : string) (mean stdev : R) : Prop :=
  exists a b, lines_of t = [heading; "Mean (" ++ unit ++ "): " ++ a; "Std. Dev. (" ++ unit ++ "): " ++ b] /\ shows a mean /\ shows b stdev.
(** The warning: both errors, each with what is allowed *)
Definition says_exceeded (t : string) (pos pos_allowed ang ang_allowed : R) : Prop :=
  exists a b c d, lines_of t =
    ["Camera intrinsic calibration is not within tolerance"; "Position Error (m): " ++ a ++ " (" ++ b ++ " allowed)";
     "Angular Error (rad): " ++ c ++ " (" ++ d ++ " allowed)"] /\
    shows a pos /\ shows b pos_allowed /\ shows c ang /\ shows d ang_allowed.
(** Between brackets and separated by commas, these numbers to four digits; they may be preceded by blanks *)
Definition lists_numbers (line : string) (ns : list R) : Prop :=
  exists cells, line = "[" ++ String.concat "," cells ++ "]" /\ Forall2 (fun c n => exists t, words c = [t] /\ shows_digits 4 t n) cells ns.
Definition says_list (heading t : string) (ns : list R) : Prop := exists l, lines_of t = [heading; l] /\ lists_numbers l ns.
Definition says_number (heading t : string) (n : R) : Prop := exists l, lines_of t = [heading; l] /\ shows l n.
(** Statistics whose numbers doubles hold easily *)
Definition three (v : vec3) : list R := [vx v; vy v; vz v].
Definition four (q : quat) : list R := [qx q; qy q; qz q; qw q].
Definition ordinary_stats (s : noise_stat) : Prop :=
  Forall (fun r => Rabs r <= 2 ^ 1000)%R
    (app (three (ps_mean (ns_p_stat s))) (app (three (ps_stdev (ns_p_stat s))) (app (four (qs_mean (ns_q_stat s))) [qs_stdev (ns_q_stat s)]))).
Definition ordinary_errors (l : list R) : Prop := (Rabs (average l) <= 2 ^ 990 /\ std_dev l <= 2 ^ 990)%R.
