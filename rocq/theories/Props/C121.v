(** C121: the printed dot target is the one calibrated against. [shows]: the colour of the page at a point; [in_dot], [in_mark]: the dots
    and centre marks of the target's points placed on the page, x to the right, y up, the origin at [corner_dot] (Spec/SheetSpec.v). *)
From Coq Require Import Reals ZArith Ascii String List.
From Verif.Base Require Import Geom.
From Verif.Model Require Import Targets TargetScript.
From Verif.Spec Require Import SheetSpec.
From Verif.Proofs Require SheetProofs SheetFitProofs BoardProofs ScriptProofs.
Import ListNotations.
Local Open Scope R_scope.

(** For a target of [rows] times [cols] circles the page shows the foreground exactly in the dots around the points of the target in the
    library and the larger one around its origin, except for small marks at their centres, and the background elsewhere. *)
Theorem C121_printed_target :
  forall t o rows cols s dot,
  asks_dots o rows cols s dot -> 0 <= dot -> 53 / 100 * dot < s ->
  forall q, on_page (target_of t o) q ->
  (shows (shapes (target_of t o)) q (foreground (invert_of o)) <->
     in_dot (corner_dot dot) (createPoints (CG rows cols s)) dot q /\ ~ in_mark (corner_dot dot) (createPoints (CG rows cols s)) dot q) /\
  (shows (shapes (target_of t o)) q (background (invert_of o)) <->
     ~ (in_dot (corner_dot dot) (createPoints (CG rows cols s)) dot q /\ ~ in_mark (corner_dot dot) (createPoints (CG rows cols s)) dot q)).
Proof. exact SheetProofs.dot_target_shows. Qed.
Print Assumptions C121_printed_target.

(** Seven by five dots of 10 mm every 25 mm. *)
Example C121_example :
  asks_dots SheetFitProofs.usual_dots 5 7 (25 / 1000) (1 / 100).
Proof. exact SheetFitProofs.usual_dots_asked. Qed.

(** A point of a dot and one outside for the same grid, inverted. *)
Example C121_shown_example :
  exists o q q', o_invert o = Some "False"%string /\ asks_dots o 5 7 (25 / 1000) (1 / 100) /\
  forall t, on_page (target_of t o) q /\ in_dot (corner_dot (1 / 100)) (createPoints (CG 5 7 (25 / 1000))) (1 / 100) q /\
    shows (shapes (target_of t o)) q White /\
    on_page (target_of t o) q' /\ ~ in_dot (corner_dot (1 / 100)) (createPoints (CG 5 7 (25 / 1000))) (1 / 100) q' /\
    shows (shapes (target_of t o)) q' Black.
Proof. exact ScriptProofs.invert_false_inverts. Qed.
