(** The script that draws printed targets (rct_image_tools/script/calibration_target.py).
    Lengths are in the units of reportlab's drawings, 1/72 inch, with the origin in the bottom left corner of the page, x to the
    right and y up. Numbers are real numbers. How a drawing becomes a file is left to reportlab. *)
From Coq Require Import Reals ZArith Bool Ascii String List.
From Verif.Base Require Import Geom.
Import ListNotations.
Local Open Scope R_scope.

(** calibration_target.py:23, the units of reportlab.lib.units: inch is 72, cm is inch/2.54 and mm is a tenth of that. *)
Definition inch : R := 72.
Definition mm : R := inch / (254 / 100) * (1 / 10).

(** calibration_target.py:24, and the colour of line 62 *)
Inductive colour := Black | White | Grey.
(** calibration_target.py:21: Rect(x, y, width, height), Circle(cx, cy, r) and String(x, y, text) with their fill colour. The
    outlines, all of width 0 (lines 81, 99, 101, 105, 106), are left out. *)
Inductive shape :=
| Rect (x y width height : R) (fill : colour)
| Circle (cx cy r : R) (fill : colour)
| Text (x y : R) (text : string) (fill : colour).
(** A page with what is added to it, in this order. *)
Record drawing := Drawing { page_width : R; page_height : R; shapes : list shape }.

(** calibration_target.py:29, margins, the same in both directions *)
Definition margin : R := 1 / 2 * inch.
(** calibration_target.py:33-34, for a number or None; a pair of numbers cannot be multiplied by mm. *)
Definition grid_spacing (spacing : option R) : R := match spacing with None => 25 * mm | Some s => s * mm end.
(** calibration_target.py:35-40 *)
Definition background (invert : bool) : colour := if invert then Black else White.
Definition foreground (invert : bool) : colour := if invert then White else Black.
(** range(0, n) *)
Definition range (n : Z) : list nat := seq 0 (Z.to_nat n).

(** calibration_target.py:65-82, checkerTarget: get_pageSize and draw *)
Definition checkerTarget (grid_x grid_y : Z) (spacing : option R) (invert : bool) : drawing :=
  let s := grid_spacing spacing in
  Drawing (IZR grid_x * s + margin * 2) (IZR grid_y * s + margin * 2)
    (flat_map (fun c => flat_map (fun r =>
         if Nat.eqb ((r + c) mod 2) 0 then [Rect (margin + INR c * s) (margin + INR r * s) s s Black] else [])
       (range grid_y)) (range grid_x)).

(** calibration_target.py:84-106, dotTarget: the constructor, get_pageSize and draw *)
Definition dotTarget (grid_x grid_y : Z) (spacing : option R) (invert : bool) (dot : R) : drawing :=
  let s := grid_spacing spacing in
  let dotSize := dot * mm in
  let width := IZR (grid_x - 1) * s + dotSize + margin * 3 in
  let height := IZR (grid_y - 1) * s + dotSize + margin * 3 in
  let off := margin + dotSize in
  Drawing width height
    (Rect 0 0 width height (background invert)
     :: Circle off off dotSize (foreground invert)
     :: flat_map (fun c => flat_map (fun r =>
          let x := off + INR c * s in
          let y := off + INR r * s in
          [Circle x y (dotSize / 2) (foreground invert); Circle x y (3 / 100 * dotSize) (background invert)])
        (range grid_y)) (range grid_x)).

(** calibration_target.py:56-62, addTextFooter with the text of the target's description *)
Definition addTextFooter (text : string) (d : drawing) : drawing :=
  Drawing (page_width d) (page_height d) (shapes d ++ [Text margin (margin / 2) text Grey]).

(** The text after the last such character, and that before it. *)
Fixpoint after_last (c : ascii) (s : string) : option string :=
  match s with
  | EmptyString => None
  | String a r => match after_last c r with Some t => Some t | None => if Ascii.eqb a c then Some r else None end
  end.
Fixpoint before_last (c : ascii) (s : string) : string :=
  match s with
  | EmptyString => EmptyString
  | String a r => match after_last c r with Some _ => String a (before_last c r) | None => if Ascii.eqb a c then EmptyString else String a (before_last c r) end
  end.
Fixpoint only_dots (s : string) : bool :=
  match s with EmptyString => true | String a r => Ascii.eqb a "."%char && only_dots r end.
(** calibration_target.py:47, os.path.splitext(filename)[1][1:]: what follows the last dot of the last part of a path, unless only
    dots come before. *)
Definition extension (filename : string) : string :=
  let name := match after_last "/"%char filename with Some n => n | None => filename end in
  match after_last "."%char name with
  | None => EmptyString
  | Some e => if only_dots (before_last "."%char name) then EmptyString else e
  end.

(** calibration_target.py:46-54, save: what is handed to reportlab, or a NotImplementedError. Pictures are scaled before they are
    drawn. *)
Inductive saved := Pdf (d : drawing) | Picture (format : string) (scale : R) (dpi : Z) (d : drawing) | NotImplemented.
Definition save (d : drawing) (filename : string) (dpi : Z) : saved :=
  let ext := extension filename in
  if String.eqb ext "pdf" then Pdf d
  else if String.eqb ext "png" || String.eqb ext "jpg" then Picture ext (IZR dpi / 72) dpi d
  else NotImplemented.

(** calibration_target.py:108-119, parse_args: the options as written. The value of --invert is a text, which Python takes for
    true unless it is empty; the others are taken as read. *)
Inductive kind := Checker | Dot.
Record options := Options { o_type : kind; o_grid_x : Z; o_grid_y : Z; o_spacing : R; o_dotSize : R; o_dpi : Z; o_footer : bool;
  o_filename : string; o_invert : option string }.
Definition invert_of (o : options) : bool :=
  match o_invert o with None => false | Some t => negb (String.eqb t EmptyString) end.
(** calibration_target.py:122-129; the footer has the text [description], which contains printed numbers. *)
Definition target_of (description : string) (o : options) : drawing :=
  let target := match o_type o with
    | Checker => checkerTarget (o_grid_x o) (o_grid_y o) (Some (o_spacing o)) (invert_of o)
    | Dot => dotTarget (o_grid_x o) (o_grid_y o) (Some (o_spacing o)) (invert_of o) (o_dotSize o)
    end in
  if o_footer o then addTextFooter description target else target.
(** calibration_target.py:121-130 *)
Definition target_script (description : string) (o : options) : saved :=
  save (target_of description o) (o_filename o) (o_dpi o).
