(** What a drawn page shows. *)
From Coq Require Import Reals ZArith Ascii String List.
From Verif.Base Require Import Geom.
From Verif.Model Require Import Targets TargetScript.
Import ListNotations.
Local Open Scope R_scope.

(** Points no further than [r] from [c] *)
Definition within (r : R) (c q : vec2) : Prop := (px q - px c) * (px q - px c) + (py q - py c) * (py q - py c) <= r * r.
Definition covers (s : shape) (q : vec2) : Prop :=
  match s with
  | Rect x y w h _ => x <= px q <= x + w /\ y <= py q <= y + h
  | Circle cx cy r _ => within r (V2 cx cy) q
  | Text _ _ _ _ => False
  end.
Definition fill (s : shape) : colour := match s with Rect _ _ _ _ c => c | Circle _ _ _ c => c | Text _ _ _ c => c end.
(** The page shows [c] at [q]: the colour of the last shape over it, white paper where there is none. Texts are not looked at. *)
Inductive shows : list shape -> vec2 -> colour -> Prop :=
| shows_paper q : shows [] q White
| shows_last l s q : covers s q -> shows (l ++ [s]) q (fill s)
| shows_under l s q c : ~ covers s q -> shows l q c -> shows (l ++ [s]) q c.
Definition on_page (d : drawing) (q : vec2) : Prop := 0 <= px q <= page_width d /\ 0 <= py q <= page_height d.

(** A metre in units of 1/72 inch of 25.4 mm *)
Definition metre : R := 72 / (254 / 10000).
(** Where a point of the target is on the page, if the origin is at [o], x points to the right and y up. *)
Definition placed (o : vec2) (v : vec3) : vec2 := V2 (px o + metre * vx v) (py o + metre * vy v).

(** A grid of dots of diameter [dot] (in metres) with centres [vs]; the dot around the origin has twice the size, and the centres are marked. *)
Definition in_dot (o : vec2) (vs : list vec3) (dot : R) (q : vec2) : Prop :=
  within (metre * dot) o q \/ exists v, In v vs /\ within (metre * dot / 2) (placed o v) q.
Definition in_mark (o : vec2) (vs : list vec3) (dot : R) (q : vec2) : Prop :=
  exists v, In v vs /\ within (3 / 100 * (metre * dot)) (placed o v) q.

(** Four squares meet at [q]: the colours change from each quadrant around it to the next. *)
Definition meeting (color : vec2 -> colour -> Prop) (q : vec2) : Prop :=
  exists d, 0 < d /\ exists c1 c2, c1 <> c2 /\ forall a b, 0 < a < d -> 0 < b < d ->
    color (V2 (px q + a) (py q + b)) c1 /\ color (V2 (px q - a) (py q - b)) c1 /\
    color (V2 (px q + a) (py q - b)) c2 /\ color (V2 (px q - a) (py q + b)) c2.

(** The options ask for a dot target with this many rows and columns, this spacing and this size of dots in metres. *)
Definition asks_dots (o : options) (rows cols : nat) (spacing dot : R) : Prop :=
  o_type o = Dot /\ o_grid_x o = Z.of_nat cols /\ o_grid_y o = Z.of_nat rows /\ o_spacing o = 1000 * spacing /\ o_dotSize o = 1000 * dot.
(** Half an inch from the bottom left corner of the page there is room for the large dot. *)
Definition corner_dot (dot : R) : vec2 := V2 (36 + metre * dot) (36 + metre * dot).
(** No point is in the dots of two target points; the dot of the origin is the large one. *)
Definition dot_size (v : vec3) (dot r : R) : Prop := (v = vzero /\ r = metre * dot) \/ (v <> vzero /\ r = metre * dot / 2).
Definition dots_apart (o : vec2) (vs : list vec3) (dot : R) : Prop :=
  forall v w rv rw q, In v vs -> In w vs -> v <> w -> dot_size v dot rv -> dot_size w dot rw ->
    within rv (placed o v) q -> within rw (placed o w) q -> False.

(** The square in column [c] and row [r], counted from the bottom left, of a board half an inch from the edges *)
Definition in_square (side : R) (c r : Z) (q : vec2) : Prop :=
  36 + IZR c * side <= px q <= 36 + IZR (c + 1) * side /\ 36 + IZR r * side <= py q <= 36 + IZR (r + 1) * side.
(** The points where four squares of a board meet. *)
Definition intersections (d : drawing) (l : list vec2) : Prop :=
  NoDup l /\ forall q, In q l <-> meeting (shows (shapes d)) q.

(** The character is not in the text. *)
Definition lacks (c : ascii) (s : string) : Prop := ~ In c (list_ascii_of_string s).
(** A file [base].[ext], in a directory or not; [base] is more than dots. *)
Definition named (filename ext : string) : Prop :=
  exists base, (filename = base ++ "." ++ ext \/ exists dir, filename = dir ++ "/" ++ base ++ "." ++ ext)%string /\
    lacks "/" base /\ lacks "/" ext /\ lacks "." ext /\ exists a, In a (list_ascii_of_string base) /\ a <> "."%char.
