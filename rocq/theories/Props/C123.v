(** C123: the grid of a printed checkerboard. [intersections d l]: [l] lists the points where four squares meet (Spec/SheetSpec.v). *)
From Coq Require Import Reals ZArith Ascii String List.
From Verif.Base Require Import Geom.
From Verif.Model Require Import Targets TargetScript.
From Verif.Spec Require Import SheetSpec.
From Verif.Proofs Require SheetProofs SheetFitProofs BoardProofs ScriptProofs.
Import ListNotations.
Local Open Scope R_scope.

(** The property: a board has as many intersections in each direction as asked for. It fails: of a 9 by 6 board, 40 are there. *)
Theorem C123_as_many_as_asked_refuted :
  exists o, o_type o = Checker /\ o_spacing o = 25 /\ o_grid_x o = 9%Z /\ o_grid_y o = 6%Z /\ forall t,
  (exists l, intersections (target_of t o) l /\ Datatypes.length l = 40%nat) /\
  ~ exists l, intersections (target_of t o) l /\ Datatypes.length l = (9 * 6)%nat.
Proof. exact BoardProofs.fewer_intersections. Qed.
Print Assumptions C123_as_many_as_asked_refuted.

(** There is one less in each direction. They are half an inch and a number of spacings from the edges. *)
Theorem C123_as_many_as_asked_partial :
  forall t o,
  o_type o = Checker -> 0 < o_spacing o ->
  exists l, intersections (target_of t o) l /\ Datatypes.length l = (Z.to_nat (o_grid_x o - 1) * Z.to_nat (o_grid_y o - 1))%nat /\
    (forall q, In q l <-> exists i j, (0 < i < o_grid_x o)%Z /\ (0 < j < o_grid_y o)%Z /\
       q = V2 (36 + IZR i * (metre * (o_spacing o / 1000))) (36 + IZR j * (metre * (o_spacing o / 1000)))).
Proof. exact BoardProofs.board_intersections. Qed.
Print Assumptions C123_as_many_as_asked_partial.

(** The page is the board with half an inch around it. The squares are black and white in turn, the one at the bottom left is black. *)
Theorem C123_squares :
  forall t o,
  o_type o = Checker -> 0 < o_spacing o ->
  let side := metre * (o_spacing o / 1000) in
  page_width (target_of t o) = 36 + IZR (o_grid_x o) * side + 36 /\ page_height (target_of t o) = 36 + IZR (o_grid_y o) * side + 36 /\
  forall q,
    (shows (shapes (target_of t o)) q Black <->
       exists c r, (0 <= c < o_grid_x o)%Z /\ (0 <= r < o_grid_y o)%Z /\ ((r + c) mod 2 = 0)%Z /\ in_square side c r q) /\
    (shows (shapes (target_of t o)) q White <-> ~ shows (shapes (target_of t o)) q Black).
Proof. exact BoardProofs.board_squares. Qed.
Print Assumptions C123_squares.

(** Their number does not depend on how they are listed. *)
Theorem C123_counted :
  forall d l l',
  intersections d l -> intersections d l' -> Datatypes.length l = Datatypes.length l'.
Proof. exact BoardProofs.intersections_count. Qed.
Print Assumptions C123_counted.
