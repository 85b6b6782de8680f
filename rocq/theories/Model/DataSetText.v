(** Data sets as the characters on the disk: the YAML library of Model/DataSet.v with real texts. The index is what
    writeDirectory (rct_ros_tools/src/data_set.cpp:83-98) writes, a pose file what writePose (data_set.cpp:76-81) writes. *)
From Coq Require Import Reals ZArith String Ascii List Bool.
From Flocq Require Import Core BinarySingleNaN.
From Verif.Base Require Import Float.
From Verif.Model Require Import Yaml DataSet NumberText PoseText.
Import ListNotations.
Local Open Scope string_scope.

(** The double nearest to a real number *)
Definition to_double (r : R) : f64 :=
  dnum (ZnearestE (scaled_mantissa radix2 (FLT_exp (-1074) 53) r)) (cexp radix2 (FLT_exp (-1074) 53) r).

(** ** Writing. Numbers have [p] digits. Only texts and numbers that are not too large for a double occur in these files; other
    scalars are left out. Texts like "poses/0.yaml" need no quotes. *)
Definition scalar (p : nat) (v : yaml) : string :=
  match v with
  | YStr s => s
  | YReal r => match number_text p (to_double r) with Some t => t | None => "" end
  | _ => ""
  end.
Definition map_entries (p : nat) (n : yaml) : list (string * string) :=
  match n with YMap m => map (fun e => (fst e, scalar p (snd e))) m | _ => [] end.
(** An item of a list begins with a dash, and its other lines are indented. *)
Fixpoint more_lines (es : list (string * string)) : string :=
  match es with [] => "" | e :: r => String newline ("  " ++ entry_line e) ++ more_lines r end.
Definition item_text (es : list (string * string)) : string :=
  match es with [] => "- ~" | e :: r => "- " ++ entry_line e ++ more_lines r end.
Fixpoint items_text (l : list (list (string * string))) : string :=
  match l with
  | [] => ""
  | [i] => item_text i
  | i :: r => item_text i ++ String newline (items_text r)
  end.
(** [ofh << root] *)
Definition emit_text (p : nat) (n : yaml) : string :=
  match n with
  | YMap _ => flat_text (map_entries p n)
  | YSeq l => items_text (map (map_entries p) l)
  | _ => "~"
  end.

(** ** Reading, of such texts and of cut ones *)
Fixpoint blank (s : string) : bool :=
  match s with EmptyString => true | String c r => (c =? " ")%char && blank r end.
(** Lines of a list of maps: the entries before the first dash, and the items after it. A dash with nothing after it is an
    item without entries. A line that is no entry is refused; yaml-cpp takes "- po" as a text, which has no entries either. *)
Fixpoint list_lines (ls : list string) : option (list (string * string) * list (list (string * string))) :=
  match ls with
  | [] => Some ([], [])
  | l :: r =>
      match list_lines r with
      | None => None
      | Some (open, closed) =>
          if blank l then Some (open, closed) else
          match l with
          | String a s =>
              if (a =? "-")%char then
                if blank s then Some ([], open :: closed) else
                match s with
                | String b t => if (b =? " ")%char then match key_value t with Some e => Some ([], (e :: open) :: closed) | None => None end else None
                | EmptyString => None
                end
              else if (a =? " ")%char then
                match s with
                | String b t => if (b =? " ")%char then match key_value t with Some e => Some (e :: open, closed) | None => None end else None
                | EmptyString => None
                end
              else None
          | EmptyString => None
          end
      end
  end.
Definition load_list (text : string) : option yaml :=
  match list_lines (lines text) with
  | Some ([], []) => Some YNull
  | Some ([], l) => Some (YSeq (map flat_node l))
  | _ => None
  end.
(** YAML::LoadFile *)
Definition load_document (text : string) : option yaml :=
  match text with
  | String c r =>
      if (c =? "-")%char then load_list text
      else if (c =? "~")%char && blank r then Some YNull
      else load_flat text
  | EmptyString => Some YNull
  end.

(** The libraries, with a given image format *)
Definition text_codec {image : Type} (p : nat) (empty : image -> bool) (none : image) (png : image -> string) (imread : string -> image) : codec image string :=
  Codec image string empty none png imread (emit_text p) load_document (fun _ => "").
