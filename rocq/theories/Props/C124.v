(** C124: the options of the script. [named f e]: the file name [f] ends with the extension [e] (Spec/SheetSpec.v). *)
From Coq Require Import Reals ZArith Ascii String List.
From Verif.Base Require Import Geom.
From Verif.Model Require Import Targets TargetScript.
From Verif.Spec Require Import SheetSpec.
From Verif.Proofs Require SheetProofs SheetFitProofs BoardProofs ScriptProofs.
Import ListNotations.
Local Open Scope R_scope.
Local Open Scope string_scope.

(** The property: unless --invert is true, dots are black on white. It fails with --invert False: dots are white on black. *)
Theorem C124_invert_refuted :
  exists o q q', o_invert o = Some "False"%string /\ asks_dots o 5 7 (25 / 1000) (1 / 100) /\
  forall t, on_page (target_of t o) q /\ in_dot (corner_dot (1 / 100)) (createPoints (CG 5 7 (25 / 1000))) (1 / 100) q /\
    shows (shapes (target_of t o)) q White /\
    on_page (target_of t o) q' /\ ~ in_dot (corner_dot (1 / 100)) (createPoints (CG 5 7 (25 / 1000))) (1 / 100) q' /\
    shows (shapes (target_of t o)) q' Black.
Proof. exact ScriptProofs.invert_false_inverts. Qed.
Print Assumptions C124_invert_refuted.

(** The dots are white on black exactly if --invert is given with any text that is not empty. *)
Theorem C124_invert_partial :
  forall t o rows cols s dot,
  asks_dots o rows cols s dot -> 0 <= dot -> 53 / 100 * dot < s ->
  forall q, on_page (target_of t o) q ->
  let printed := in_dot (corner_dot dot) (createPoints (CG rows cols s)) dot q /\ ~ in_mark (corner_dot dot) (createPoints (CG rows cols s)) dot q in
  ((exists txt, o_invert o = Some txt /\ txt <> EmptyString) ->
     (shows (shapes (target_of t o)) q White <-> printed) /\ (shows (shapes (target_of t o)) q Black <-> ~ printed)) /\
  (o_invert o = None \/ o_invert o = Some EmptyString ->
     (shows (shapes (target_of t o)) q Black <-> printed) /\ (shows (shapes (target_of t o)) q White <-> ~ printed)).
Proof. exact ScriptProofs.inverted_target. Qed.
Print Assumptions C124_invert_partial.

(** Whatever --invert says, checkerboards look the same. *)
Theorem C124_boards :
  forall o o' t q c,
  o_type o = Checker -> o_type o' = Checker -> o_grid_x o = o_grid_x o' -> o_grid_y o = o_grid_y o' ->
  o_spacing o = o_spacing o' -> (shows (shapes (target_of t o)) q c <-> shows (shapes (target_of t o')) q c).
Proof. exact ScriptProofs.board_never_inverts. Qed.
Print Assumptions C124_boards.

(** The file is written exactly if its extension is pdf, png or jpg in small letters; otherwise the script raises NotImplementedError. *)
Theorem C124_files :
  forall t o,
  (named (o_filename o) "pdf" <-> target_script t o = Pdf (target_of t o)) /\
  (forall e, (e = "png" \/ e = "jpg") -> (named (o_filename o) e <-> target_script t o = Picture e (IZR (o_dpi o) / 72) (o_dpi o) (target_of t o))) /\
  (target_script t o = NotImplemented <-> ~ named (o_filename o) "pdf" /\ ~ named (o_filename o) "png" /\ ~ named (o_filename o) "jpg").
Proof. exact ScriptProofs.written_files. Qed.
Print Assumptions C124_files.

(** A path with dots in it; capital letters; a name that is only an extension. *)
Example C124_files_example :
  named "targets/a.b/dots.pdf" "pdf" /\ ~ named "dots.PDF" "pdf" /\ ~ named ".pdf" "pdf".
Proof. exact ScriptProofs.named_example. Qed.
