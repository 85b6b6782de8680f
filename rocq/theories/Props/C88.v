(** C88: the camera poses of the pose generators.
    [O] is the offset of the target, [z] the turn about the optical axis, [T] the pose of the target. *)
From Coq Require Import Reals ZArith List.
From Verif.Base Require Import Geom Outcome Matrix.
From Verif.Model Require Import Pose Solver HandEye Simulation.
From Verif.Spec Require Import SimulationSpec.
From Verif.Proofs Require Import GeomLemmas SimPoseProofs.
Import ListNotations.
Local Open Scope R_scope.

(** Full property: every pose is that of a camera at the given point of the pattern that looks at the target. *)
(** From straight above or below, seen along the x axis of the frame of [T], the result is no pose at all. *)
Theorem C88_rigid_refuted :
  exists spacing h n T P, 0 < spacing /\ 0 < h /\ rigid T /\ In P (grid_generate spacing h n 0 iso_id T) /\ ~ rigid P.
Proof. exact not_always_rigid. Qed.
Print Assumptions C88_rigid_refuted.

Theorem C88_hemisphere_partial :
  forall r n m z O T i j, rigid O -> (i < n)%nat -> (j < m)%nat ->
  let pos := sphere_point r (spaced n 0 PI i) (spaced m 0 PI j) in
  exists P, nth_error (hemisphere_generate r n m z O T) (i * m + j) = Some P /\
    (~ from_above_or_below T pos -> well_placed z O T pos P) /\ (from_above_or_below T pos -> ~ rigid P).
Proof. exact hemisphere_poses. Qed.
Print Assumptions C88_hemisphere_partial.

Theorem C88_cone_partial :
  forall r h n z O T i, rigid O -> (i < n)%nat ->
  let pos := circle_point r h n i in
  exists P, nth_error (conical_generate r h n z O T) i = Some P /\
    (~ from_above_or_below T pos -> well_placed z O T pos P) /\ (from_above_or_below T pos -> ~ rigid P).
Proof. exact conical_poses. Qed.
Print Assumptions C88_cone_partial.

Theorem C88_grid_partial :
  forall spacing h n z O T i j, (Z.of_nat n < 2 ^ 32)%Z -> rigid O -> (i < n)%nat -> (j < n)%nat ->
  let pos := square_point spacing h n i j in
  exists P, nth_error (grid_generate spacing h n z O T) (i * n + j) = Some P /\
    (~ from_above_or_below T pos -> well_placed z O T pos P) /\ (from_above_or_below T pos -> ~ rigid P).
Proof. exact grid_poses. Qed.
Print Assumptions C88_grid_partial.

Theorem C88_counts :
  (forall r n m z O T, length (hemisphere_generate r n m z O T) = (n * m)%nat) /\
  (forall r h n z O T, length (conical_generate r h n z O T) = n) /\
  (forall spacing h n z O T, (Z.of_nat n < 2 ^ 32)%Z -> length (grid_generate spacing h n z O T) = (n * n)%nat).
Proof. exact generated_lengths. Qed.
Print Assumptions C88_counts.

(** The points are on the sphere, on the half with y >= 0, and on the circle. *)
Theorem C88_sphere :
  forall r theta phi, norm (sphere_point r theta phi) = Rabs r.
Proof. exact sphere_distance. Qed.
Print Assumptions C88_sphere.

Theorem C88_half_sphere :
  forall r n m i j, 0 <= r -> (i < n)%nat -> (j < m)%nat ->
  0 <= vy (sphere_point r (spaced n 0 PI i) (spaced m 0 PI j)).
Proof. exact sphere_half. Qed.
Print Assumptions C88_half_sphere.

Theorem C88_circle :
  forall r h n i, let c := circle_point r h n i in sqrt (vx c * vx c + vy c * vy c) = Rabs r /\ vz c = h.
Proof. exact circle_distance. Qed.
Print Assumptions C88_circle.

(** The camera is as far from the point it looks at as the pattern says. *)
Theorem C88_distance :
  forall z O T pos P, rigid O -> rigid T -> well_placed z O T pos P -> norm (vsub (tr P) (iso_app O (tr T))) = norm pos.
Proof. exact placed_distance. Qed.
Print Assumptions C88_distance.

Theorem C88_rigid :
  forall z O T pos P, well_placed z O T pos P -> rigid P.
Proof. exact well_placed_rigid. Qed.
Print Assumptions C88_rigid.

(** Also after the turn *)
Theorem C88_looks :
  forall z O T pos P, well_placed z O T pos P -> looks_at P (iso_app O (tr T)).
Proof. exact well_placed_looks. Qed.
Print Assumptions C88_looks.

(** A target flat on a table, seen from 2 m above *)
Example C88_example :
  ~ from_above_or_below iso_id (square_point (2 / 10) 2 3 0 1).
Proof. exact ex_flat_good. Qed.
