(** Vocabulary for the question whether an optimum is the only one. *)
From Coq Require Import Reals List.
From Verif.Base Require Import Geom.
From Verif.Model Require Import Pose Solver HandEye BlockSolver.
From Verif.Spec Require Import PinHole HomographySpec PnpSpec.
Import ListNotations.
Local Open Scope R_scope.

(** The solver reports the cost of the point at which it ends: half the sum of the squared residuals. *)
Definition half_squares (rs : list R) : R := / 2 * fold_right (fun r acc => r * r + acc) 0 rs.
Definition honest {X} (solve : solver X) : Prop :=
  forall blocks x0, let '(x, s) := solve blocks x0 in final_cost s = half_squares (flat_map (fun f => f x) blocks).
Definition honest_blocks (solve : block_solver) : Prop :=
  forall blocks m0, let '(m, s) := solve blocks m0 in final_cost s = half_squares (flat_map (fun b => rb_eval b m) blocks).

(** Three points of space that are not on a line. *)
Definition triangle (a b c : vec3) : Prop := cross (vsub b a) (vsub c a) <> vzero.
(** Among the points are three that are not on a line. *)
Definition not_on_a_line (pts : list vec3) : Prop :=
  exists a b c, In a pts /\ In b pts /\ In c pts /\ triangle a b c.
(** Among the points are four of the plane z = 0, no three of them on a line. *)
Definition four_flat_points (pts : list vec3) : Prop :=
  exists a b c d, In a pts /\ In b pts /\ In c pts /\ In d pts /\
    vz a = 0 /\ vz b = 0 /\ vz c = 0 /\ vz d = 0 /\ general_position a b c d.
(** The centre of the camera lies in the plane z = 0 of a target at pose [T]: it sees the target edge-on. *)
Definition edge_on (T : iso) : Prop := dot (tr T) (col2 (lin T)) = 0.

(** The correspondences are what a pin-hole camera, or a sensor that measures points, sees of a target at pose [T]. *)
Definition perfect_image (k : intrinsics) (T : iso) (cs : list (correspondence vec2)) : Prop :=
  forall c, In c cs -> in_front (iso_app T (in_target c)) /\ in_image c = pinhole k (iso_app T (in_target c)).
Definition perfect_points (T : iso) (cs : list (correspondence vec3)) : Prop :=
  forall c, In c cs -> in_image c = iso_app T (in_target c).
(** All points are in front of the camera. *)
Definition all_in_front (T : iso) (cs : list (correspondence vec2)) : Prop :=
  forall c, In c cs -> in_front (iso_app T (in_target c)).

(** The target mount in the frame of the camera mount, and how one observation differs from another in it. *)
Definition mounts {I} (o : observation I) : iso := iso_mul (iso_inv (to_camera_mount o)) (to_target_mount o).
Definition motion {I} (o o' : observation I) : iso := iso_mul (mounts o) (iso_inv (mounts o')).
(** The transform turns about the axis [u], neither by 0 nor by 180 degrees. *)
Definition turns_about (T : iso) (u : vec3) : Prop :=
  dot u u = 1 /\ exists a, lin T = aa_matrix a u /\ sin a <> 0.
(** Two of the motions turn about axes that are not parallel. *)
Definition two_axes (motions : list iso) : Prop :=
  exists A B u v, In A motions /\ In B motions /\ turns_about A u /\ turns_about B v /\ cross u v <> vzero.
(** The motions between all pairs of poses *)
Definition motions_of (poses : list iso) : list iso :=
  flat_map (fun W => map (fun W' => iso_mul W (iso_inv W')) poses) poses.

(** An image from which the pose of a target at [T] can be told. *)
Definition usable (k : intrinsics) (T : iso) (cs : list (correspondence vec2)) : Prop :=
  fx k <> 0 /\ fy k <> 0 /\ four_flat_points (map in_target cs) /\ ~ edge_on T.

(** Cameras and images linked by usable images, starting from one camera. *)
Inductive linked_camera (good : nat -> nat -> Prop) (start : nat) : nat -> Prop :=
| lc_start : linked_camera good start start
| lc_step c i : linked_image good start i -> good c i -> linked_camera good start c
with linked_image (good : nat -> nat -> Prop) (start : nat) : nat -> Prop :=
| li_step c i : linked_camera good start c -> good c i -> linked_image good start i.

(** Among the points of the plane are three different ones. *)
Definition three_different (pts : list vec2) : Prop :=
  exists a b c, In a pts /\ In b pts /\ In c pts /\ a <> b /\ a <> c /\ b <> c.
