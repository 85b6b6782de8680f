(** Fields of a line, and tables of numbers in a text. *)
From Coq Require Import Reals Ascii String List.
From Verif.Base Require Import Geom Matrix.
From Verif.Model Require Import Covariance KinematicExample.
From Verif.Spec Require Import TextSpec YamlSpec.
Import ListNotations.
Local Open Scope string_scope.

Definition tab_char : ascii := ascii_of_nat 9.
Definition bar : ascii := "|"%char.
(** What stands between the marks [c]. *)
Fixpoint split (c : ascii) (s : string) : list string :=
  match s with
  | EmptyString => [""]
  | String a r =>
      if Ascii.eqb a c then "" :: split c r
      else match split c r with l :: ls => String a l :: ls | [] => [String a ""] end
  end.
Fixpoint lacks (c : ascii) (s : string) : Prop :=
  match s with EmptyString => True | String a r => a <> c /\ lacks c r end.
Definition field (stream : R -> string) (name : string) (x : R) : string := name ++ " = " ++ stream x.

(** The text, with nothing but blanks before it. *)
Fixpoint padded (text cell : string) : Prop :=
  cell = text \/ match cell with String a r => a = " "%char /\ padded text r | EmptyString => False end.
(** The lines show the matrix: one line for each row, one cell for each column, and all cells of the same width. *)
Definition table (text : R -> string) (m : matrix) (ls : list string) : Prop :=
  List.length ls = rows m /\
  exists width, forall i l, nth_error ls i = Some l -> exists cells,
    split bar l = "" :: app cells [""] /\ List.length cells = cols m /\
    forall j cell, nth_error cells j = Some cell -> String.length cell = width /\ padded (text (ent m i j)) cell.
(** A matrix without coefficients is shown by an empty line. *)
Definition shown (text : R -> string) (m : matrix) (ls : list string) : Prop :=
  match rows m, cols m with
  | 0%nat, _ | _, 0%nat => ls = [""]
  | _, _ => table text m ls
  end.
(** The 4 x 4 matrix of a pose. *)
Definition homogeneous (T : iso) (m : matrix) : Prop :=
  rows m = 4%nat /\ cols m = 4%nat /\
  map (fun i => map (ent m i) [0; 1; 2; 3]%nat) [0; 1; 2; 3]%nat =
  [[m00 (lin T); m01 (lin T); m02 (lin T); vx (tr T)];
   [m10 (lin T); m11 (lin T); m12 (lin T); vy (tr T)];
   [m20 (lin T); m21 (lin T); m22 (lin T); vz (tr T)];
   [0; 0; 0; 1]]%R.
(** One row of three numbers. *)
Definition three (a b c : R) (m : matrix) : Prop :=
  rows m = 1%nat /\ cols m = 3%nat /\ map (ent m 0) [0; 1; 2]%nat = [a; b; c].
(** The lines show the pose: its matrix, then the angles about Z, Y and X that give its rotation. *)
Definition shows_pose (text : R -> string) (T : iso) (ls : list string) : Prop :=
  exists (m e : matrix) (l1 : list string) (l2 : string) (yaw pitch roll : R),
    ls = app l1 ["Euler ZYX: " ++ l2] /\ homogeneous T m /\ table text m l1 /\ three yaw pitch roll e /\ table text e [l2] /\
    rpy_matrix roll pitch yaw = lin T.
(** Correlations, or that there are none. *)
Definition warning_lines (stream to_string : R -> string) (t : R) (sel : list named_param) : list string :=
  match sel with
  | [] => ["No correlation coefficients with magnitude > " ++ to_string t]
  | _ => app [""; "Correlation Coeff. > " ++ to_string t ++ ":"] (map (line_of stream) sel)
  end.
Definition stats_lines (stream : R -> string) (s : stats) : list string :=
  ["Position Difference Mean: " ++ stream (pos_mean s); "Position Difference Std. Dev.: " ++ stream (pos_stdev s);
   "Orientation Difference Mean: " ++ stream (rot_mean s); "Orientation difference Std. Dev.: " ++ stream (rot_stdev s); ""].
(** The lines of a text that ends with a line end. *)
Definition whole_lines (text : string) (ls : list string) : Prop := lines_of text = app ls [""].
