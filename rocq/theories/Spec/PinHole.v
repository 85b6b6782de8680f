(** What a pin-hole camera does, in one line: the point (x,y,z) is seen at pixel
    (fx x/z + cx, fy y/z + cy). *)
From Coq Require Import Reals.
From Verif.Base Require Import Geom.
From Verif.Model Require Import Pose.
Local Open Scope R_scope.

Definition pinhole (k : intrinsics) (p : vec3) : vec2 :=
  V2 (fx k * (vx p / vz p) + cx k) (fy k * (vy p / vz p) + cy k).

(** Two points on the same viewing ray of a camera at the origin. *)
Definition same_ray (p q : vec3) : Prop := exists s, 0 < s /\ q = vscale s p.

(** Largest entry-wise difference between two matrices is at most [e]. *)
Definition mat_close (e : R) (A B : mat3) : Prop :=
  Rabs (m00 A - m00 B) <= e /\ Rabs (m01 A - m01 B) <= e /\ Rabs (m02 A - m02 B) <= e /\
  Rabs (m10 A - m10 B) <= e /\ Rabs (m11 A - m11 B) <= e /\ Rabs (m12 A - m12 B) <= e /\
  Rabs (m20 A - m20 B) <= e /\ Rabs (m21 A - m21 B) <= e /\ Rabs (m22 A - m22 B) <= e.
