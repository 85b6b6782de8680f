(** C36: the points of the modified circle grid target. *)
From Coq Require Import Reals Arith List.
From Verif.Base Require Import Geom.
From Verif.Model Require Import Targets.
From Verif.Spec Require Import TargetSpec.
From Verif.Proofs Require Import TargetProofs.
Import ListNotations.
Local Open Scope R_scope.

(** Row by row from the top row to the row through the origin, each from left to right. *)
Theorem C36_points :
  forall t, createPoints t = layout (cg_rows t) (cg_cols t) (grid_point (cg_rows t) (cg_spacing t)).
Proof. exact points_layout. Qed.
Print Assumptions C36_points.

Theorem C36_number :
  forall t, length (createPoints t) = (cg_rows t * cg_cols t)%nat.
Proof. exact points_length. Qed.
Print Assumptions C36_number.

Theorem C36_planar :
  forall t p, In p (createPoints t) -> vz p = 0.
Proof. exact points_plane. Qed.
Print Assumptions C36_planar.

Theorem C36_distinct :
  forall t, cg_spacing t <> 0 -> NoDup (createPoints t).
Proof. exact points_distinct. Qed.
Print Assumptions C36_distinct.

Theorem C36_next_in_row :
  forall t r c p q, (r < cg_rows t)%nat -> (c + 1 < cg_cols t)%nat ->
  nth_error (createPoints t) (r * cg_cols t + c) = Some p -> nth_error (createPoints t) (r * cg_cols t + (c + 1)) = Some q ->
  vsub q p = V3 (cg_spacing t) 0 0 /\ norm (vsub q p) = Rabs (cg_spacing t).
Proof. exact grid_steps. Qed.
Print Assumptions C36_next_in_row.

Theorem C36_next_row :
  forall t r c p q, (r + 1 < cg_rows t)%nat -> (c < cg_cols t)%nat ->
  nth_error (createPoints t) (r * cg_cols t + c) = Some p -> nth_error (createPoints t) ((r + 1) * cg_cols t + c) = Some q ->
  vsub p q = V3 0 (cg_spacing t) 0 /\ norm (vsub p q) = Rabs (cg_spacing t).
Proof. exact grid_steps_down. Qed.
Print Assumptions C36_next_row.

Theorem C36_origin :
  forall t, (0 < cg_rows t)%nat -> (0 < cg_cols t)%nat ->
  nth_error (createPoints t) (cg_rows t * cg_cols t - cg_cols t) = Some vzero.
Proof. exact grid_origin. Qed.
Print Assumptions C36_origin.

Example C36_two_by_three : map (fun p => (vx p, vy p)) (createPoints (CG 2 3 2)) =
  [(0 * 2, 1 * 2); (1 * 2, 1 * 2); ((1 + 1) * 2, 1 * 2); (0 * 2, 0 * 2); (1 * 2, 0 * 2); ((1 + 1) * 2, 0 * 2)].
Proof. reflexivity. Qed.
