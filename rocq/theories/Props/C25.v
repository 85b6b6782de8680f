(** C25: line-plane intersection. *)
From Coq Require Import Reals List.
From Verif.Base Require Import Geom Outcome.
From Verif.Model Require Import Projection.
From Verif.Spec Require Import ProjectionSpec.
From Verif.Proofs Require Import ProjectionProofs.
Local Open Scope R_scope.

Theorem C25_throws_iff_nearly_parallel :
  forall plane_normal plane_pt line line_pt epsilon,
  computeLinePlaneIntersection plane_normal plane_pt line line_pt epsilon = Throw RuntimeError <->
  Rabs (dot line plane_normal) < epsilon.
Proof. exact intersection_throws. Qed.
Print Assumptions C25_throws_iff_nearly_parallel.

(** Otherwise the returned point is the only one on both the plane and the line. *)
Theorem C25_intersection :
  forall plane_normal plane_pt line line_pt epsilon, 0 < epsilon -> epsilon <= Rabs (dot line plane_normal) ->
  exists p, computeLinePlaneIntersection plane_normal plane_pt line line_pt epsilon = Ok p /\
    on_plane plane_normal plane_pt p /\ on_line line line_pt p /\
    forall q, on_plane plane_normal plane_pt q -> on_line line line_pt q -> q = p.
Proof. exact intersection_ok. Qed.
Print Assumptions C25_intersection.

Example C25_oblique :
  computeLinePlaneIntersection (V3 0 0 1) (V3 5 5 3) (V3 1 0 1) (V3 0 0 1) (1 / 10 ^ 6) = Ok (V3 2 0 3).
Proof. exact ex_intersection. Qed.
