(** Lines of text. *)
From Coq Require Import Reals Ascii String List.
From Verif.Model Require Import Covariance CovReport.
Import ListNotations.
Local Open Scope string_scope.

Definition newline_char : ascii := ascii_of_nat 10.
(** The lines of a text, each without its end. The last line is what follows the last line end. *)
Fixpoint lines_of (s : string) : list string :=
  match s with
  | EmptyString => [""]
  | String c r =>
      if Ascii.eqb c newline_char then "" :: lines_of r
      else match lines_of r with l :: ls => String c l :: ls | [] => [String c ""] end
  end.
(** Nothing in the text ends it or its line. *)
Fixpoint one_line (s : string) : Prop :=
  match s with EmptyString => True | String c r => c <> newline_char /\ c <> Ascii.zero /\ one_line r end.
Definition plain_names (p : named_param) : Prop := one_line (fst (np_names p)) /\ one_line (snd (np_names p)).
(** A parameter with both names and the value. *)
Definition line_of (stream : R -> string) (p : named_param) : string :=
  fst (np_names p) ++ " " ++ snd (np_names p) ++ " " ++ stream (np_value p).
