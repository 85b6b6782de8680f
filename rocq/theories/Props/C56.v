(** C56: the contours accepted as circles. *)
From Coq Require Import Reals Arith List.
From Verif.Base Require Import Geom Outcome.
From Verif.Model Require Import CircleDetector.
From Verif.Spec Require Import DetectorSpec.
From Verif.Proofs Require Import DetectorProofs FilterProofs.
Import ListNotations.
Local Open Scope R_scope.

(** One centre for each contour that passes the enabled filters and fits its ellipse, in order; unless
    such a contour fits perfectly. *)
Theorem C56_circles_partial :
  forall contours p, (forall c, In c contours -> measurable c) ->
  exists b, (forall c, In c contours -> (b c = true <-> accepted p c)) /\
  ((exists cs, findCircles contours p = Ok cs /\ Forall2 center_of (filter b contours) cs /\ forall c, In c contours -> accepted p c -> ~ ellipse_deviation c 0) \/
   (findCircles contours p = UB /\ exists c, In c contours /\ accepted p c /\ ellipse_deviation c 0)).
Proof. exact find_spec. Qed.
Print Assumptions C56_circles_partial.

(** A contour that fits its ellipse perfectly gives an infinite confidence. *)
Theorem C56_circles_refuted :
  exists p c, measurable c /\ accepted p c /\ ellipse_deviation c 0 /\ findCircles [c] p = UB.
Proof. exact (ex_intro _ ex_params (ex_intro _ (ex_contour 10) ex_perfect)). Qed.
Print Assumptions C56_circles_refuted.

Theorem C56_inertia_ratio :
  forall mu20 mu11 mu02, 0 < mu20 + mu02 -> exists r, inertia_ratio mu20 mu11 mu02 = Ok r /\ inertia mu20 mu11 mu02 r.
Proof. exact inertia_value. Qed.
Print Assumptions C56_inertia_ratio.

Theorem C56_ellipse_distance :
  forall b pt k, 0 < rr_width b -> 0 < rr_height b -> ellipse_fraction b pt k <-> k = ellipse_output b pt.
Proof. exact ellipse_output_spec. Qed.
Print Assumptions C56_ellipse_distance.

Example C56_one_circle : accepted ex_params (ex_contour 11) /\ exists x, findCircles [ex_contour 11] ex_params = Ok [x] /\ center_of (ex_contour 11) x.
Proof. exact ex_found. Qed.
