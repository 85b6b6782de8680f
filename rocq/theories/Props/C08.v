(** C08: projection is the pin-hole model. *)
From Coq Require Import Reals Lra.
From Verif.Base Require Import Geom.
From Verif.Model Require Import Pose.
From Verif.Spec Require Import PinHole.
From Verif.Proofs Require Import PoseProofs.
Local Open Scope R_scope.

Theorem C08_pinhole :
  forall (k : intrinsics) (p : vec3), 1 / 10 ^ 10 < vz p ->
    projectPoint_arr k p = pinhole k p /\ projectPoint_eig k p = pinhole k p.
Proof. exact both_pinhole. Qed.
Print Assumptions C08_pinhole.

(** The array overload used inside the optimizers is a pin-hole for every z <> 0. *)
Theorem C08_pinhole_array :
  forall (k : intrinsics) (p : vec3), vz p <> 0 -> projectPoint_arr k p = pinhole k p.
Proof. exact arr_pinhole. Qed.
Print Assumptions C08_pinhole_array.

(** Scaling a point along its ray does not move its pixel. *)
Theorem C08_ray_invariant :
  forall (k : intrinsics) (p : vec3) (s : R), 0 < s -> 1 / 10 ^ 10 < vz p -> 1 / 10 ^ 10 < s * vz p ->
    projectPoint_arr k (vscale s p) = projectPoint_arr k p /\
    projectPoint_eig k (vscale s p) = projectPoint_eig k p.
Proof. exact both_ray. Qed.
Print Assumptions C08_ray_invariant.

(** Equal pixels imply equal rays. *)
Theorem C08_ray_injective :
  forall (k : intrinsics) (p q : vec3), fx k <> 0 -> fy k <> 0 ->
    1 / 10 ^ 10 < vz p -> 1 / 10 ^ 10 < vz q ->
    (projectPoint_arr k p = projectPoint_arr k q -> same_ray p q) /\
    (projectPoint_eig k p = projectPoint_eig k q -> same_ray p q).
Proof. exact both_inj. Qed.
Print Assumptions C08_ray_injective.

Example C08_pixel : projectPoint_eig (Intr 500 400 320 240) (V3 1 (-2) 4) = V2 445 40.
Proof. exact pixel_example. Qed.
