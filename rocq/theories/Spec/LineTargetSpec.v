(** Vocabulary for targets whose points lie on a line. *)
From Coq Require Import Reals List.
From Verif.Base Require Import Geom.
From Verif.Model Require Import Pose HandEye Targets.
From Verif.Spec Require Import UniqueSpec SameDataSpec DeterminedSpec.
Import ListNotations.
Local Open Scope R_scope.

(** All points lie on the line through [q] with direction [u]. *)
Definition all_on_line (q u : vec3) (pts : list vec3) : Prop := forall x, In x pts -> on_line q u x.
(** The turn by the angle [a] about that line; [u] has length 1. *)
Definition turn_about_line (q u : vec3) (a : R) : iso :=
  Iso (aa_matrix a u) (vsub q (mvec (aa_matrix a u) q)).

(** The pose [T] is the only one that explains the measurements: no other rigid pose, with all points in front of the camera
    in the case of pictures, has no error. *)
Definition only_pose (k : intrinsics) (cs : list (correspondence vec2)) (T : iso) : Prop :=
  forall T', rigid T' -> all_in_front T' cs -> pose_error k cs T' = 0 -> T' = T.
Definition only_pose3 (cs : list (correspondence vec3)) (T : iso) : Prop :=
  forall T', rigid T' -> pose_error3 cs T' = 0 -> T' = T.

(** A circle grid with at least two rows and two columns, and a distance between them. *)
Definition full_grid (t : circle_grid) : Prop := (2 <= cg_rows t)%nat /\ (2 <= cg_cols t)%nat /\ cg_spacing t <> 0.
