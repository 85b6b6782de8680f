(** Words for C104 and C105. *)
From Coq Require Import Reals ZArith Ascii String List.
From Flocq Require Import Core BinarySingleNaN.
From Verif.Base Require Import Float Geom.
From Verif.Model Require Import NumberText PoseText.
Local Open Scope R_scope.

(** [x] and [y] differ by at most one unit of the [p]-th significant digit. *)
Definition near_digits (p : nat) (x y : f64) : Prop := Rabs (B2R y - B2R x) <= 10 * / 10 ^ p * Rabs (B2R x).

Definition finite_numbers (c : pose64) : Prop :=
  is_finite (n_x c) = true /\ is_finite (n_y c) = true /\ is_finite (n_z c) = true /\
  is_finite (n_qw c) = true /\ is_finite (n_qx c) = true /\ is_finite (n_qy c) = true /\ is_finite (n_qz c) = true.
(** The pose with these numbers *)
Definition pose_of (c : pose64) : iso :=
  Iso (q_matrix (Q (B2R (n_qw c)) (B2R (n_qx c)) (B2R (n_qy c)) (B2R (n_qz c)))) (V3 (B2R (n_x c)) (B2R (n_y c)) (B2R (n_z c))).
Definition with_qz (c : pose64) (q : f64) : pose64 := P64 (n_x c) (n_y c) (n_z c) (n_qw c) (n_qx c) (n_qy c) q.
(** [cut] is what is left of [text] when its end is missing. *)
Definition cut_of (cut text : string) : Prop := exists rest, text = (cut ++ rest)%string /\ rest <> EmptyString.
(** An empty line, or a name and a colon, followed by a blank and a value or by nothing *)
Definition map_line (l : string) : Prop :=
  l = EmptyString \/ exists name, ~ In ":"%char (list_ascii_of_string name) /\ (l = name ++ ":" \/ exists value, l = name ++ ": " ++ value)%string.
