(** C122: the dots of a printed target are whole and apart. [in_dot], [dots_apart]: see Spec/SheetSpec.v. *)
From Coq Require Import Reals ZArith Ascii String List.
From Verif.Base Require Import Geom.
From Verif.Model Require Import Targets TargetScript.
From Verif.Spec Require Import SheetSpec.
From Verif.Proofs Require SheetProofs SheetFitProofs BoardProofs ScriptProofs.
Import ListNotations.
Local Open Scope R_scope.

(** The property: every dot is on the page if the dots are apart. It fails for dots of 60 mm every 100 mm: those at the right are cut off. *)
Theorem C122_whole_refuted :
  exists o rows cols s dot, asks_dots o rows cols s dot /\ dots_apart (corner_dot dot) (createPoints (CG rows cols s)) dot /\
  exists q, in_dot (corner_dot dot) (createPoints (CG rows cols s)) dot q /\ forall t, ~ on_page (target_of t o) q.
Proof. exact SheetFitProofs.cut_off. Qed.
Print Assumptions C122_whole_refuted.

(** All dots are whole exactly if they are at most two inches wide, and one inch wider at most than the grid in both directions. *)
Theorem C122_whole_partial :
  forall t o rows cols s dot,
  asks_dots o rows cols s dot -> (1 <= rows)%nat -> (1 <= cols)%nat -> 0 <= s -> 0 <= dot ->
  (forall q, in_dot (corner_dot dot) (createPoints (CG rows cols s)) dot q -> on_page (target_of t o) q) <->
  dot <= 508 / 10000 /\ dot <= INR (cols - 1) * s + 254 / 10000 /\ dot <= INR (rows - 1) * s + 254 / 10000.
Proof. exact SheetFitProofs.dots_fit. Qed.
Print Assumptions C122_whole_partial.

(** The dots, with the large one, are apart exactly if the spacing is more than one and a half times their size. *)
Theorem C122_apart :
  forall rows cols s dot,
  (1 <= rows)%nat -> (1 <= cols)%nat -> (2 <= rows * cols)%nat -> 0 < s -> 0 <= dot ->
  (dots_apart (corner_dot dot) (createPoints (CG rows cols s)) dot <-> 3 / 2 * dot < s).
Proof. exact SheetFitProofs.dots_apart_iff. Qed.
Print Assumptions C122_apart.

(** Seven by five dots of 10 mm every 25 mm. *)
Example C122_example :
  asks_dots SheetFitProofs.usual_dots 5 7 (25 / 1000) (1 / 100).
Proof. exact SheetFitProofs.usual_dots_asked. Qed.
