(** The text of a pose file: what writePose (rct_ros_tools/src/data_set.cpp:76-81) puts on the disk, character by character, and
    what loadPose (rct_ros_tools/src/parameter_loaders.cpp:128-139) makes of such a text. *)
From Coq Require Import Reals ZArith String Ascii List.
From Flocq Require Import Core BinarySingleNaN.
From Verif.Base Require Import Float.
From Verif.Model Require Import Yaml NumberText.
Import ListNotations.
Local Open Scope string_scope.

(** The seven numbers of a pose: rct_optimizations/include/rct_optimizations/serialization/eigen.h:59-73 *)
Record pose64 : Type := P64 { n_x : f64; n_y : f64; n_z : f64; n_qw : f64; n_qx : f64; n_qy : f64; n_qz : f64 }.

Definition newline : ascii := ascii_of_nat 10.

(** ** Writing: a map of scalars, one "key: value" per line, in the order in which the keys were assigned (eigen.h:62-70).
    There is no line end after the last line. *)
Definition entry_line (e : string * string) : string := fst e ++ ": " ++ snd e.
Fixpoint flat_text (es : list (string * string)) : string :=
  match es with
  | [] => ""
  | [e] => entry_line e
  | e :: r => entry_line e ++ String newline (flat_text r)
  end.
Fixpoint all_texts (p : nat) (l : list (string * f64)) : option (list (string * string)) :=
  match l with
  | [] => Some []
  | (k, x) :: r =>
      match number_text p x, all_texts p r with
      | Some t, Some ts => Some ((k, t) :: ts)
      | _, _ => None
      end
  end.
Definition pose_entries (c : pose64) : list (string * f64) :=
  [("x", n_x c); ("y", n_y c); ("z", n_z c); ("qw", n_qw c); ("qx", n_qx c); ("qy", n_qy c); ("qz", n_qz c)].
(** data_set.cpp:76-81, writePose, with numbers of [p] digits *)
Definition pose_text (p : nat) (c : pose64) : option string := option_map flat_text (all_texts p (pose_entries c)).

(** ** Reading: YAML::LoadFile on texts made of such lines and on cut ones. Other YAML texts are refused here. *)
Fixpoint lines (s : string) : list string :=
  match s with
  | EmptyString => [""]
  | String c r =>
      if (c =? newline)%char then "" :: lines r
      else match lines r with l :: ls => String c l :: ls | [] => [String c ""] end
  end.
(** A line without a colon is not an entry of a map. *)
Fixpoint key_value (line : string) : option (string * string) :=
  match line with
  | EmptyString => None
  | String c r =>
      if (c =? ":")%char then
        match r with
        | EmptyString => Some ("", "")
        | String b v => if (b =? " ")%char then Some ("", v) else None
        end
      else match key_value r with Some (k, v) => Some (String c k, v) | None => None end
  end.
(** Lines with nothing on them are skipped. *)
Fixpoint entries (ls : list string) : option (list (string * string)) :=
  match ls with
  | [] => Some []
  | EmptyString :: r => entries r
  | l :: r =>
      match key_value l, entries r with
      | Some e, Some es => Some (e :: es)
      | _, _ => None
      end
  end.
(** Nothing after the colon is a null; a number is kept by its value. *)
Definition value_node (v : string) : yaml :=
  match v with
  | EmptyString => YNull
  | _ => match read_number v with Some x => YReal (B2R x) | None => YStr v end
  end.
Definition flat_node (es : list (string * string)) : yaml :=
  match es with [] => YNull | _ => YMap (map (fun e => (fst e, value_node (snd e))) es) end.
Definition load_flat (text : string) : option yaml := option_map flat_node (entries (lines text)).
(** The files of a disk *)
Definition load_text (disk : string -> option string) (path : string) : option yaml :=
  match disk path with Some text => load_flat text | None => None end.
