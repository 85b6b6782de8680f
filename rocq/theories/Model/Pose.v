(** Pose vectors, camera intrinsics, point transformation and projection. *)
From Coq Require Import Reals List.
From Verif.Base Require Import Geom.
Import ListNotations.
Local Open Scope R_scope.

(** rct_optimizations/include/rct_optimizations/types.h:13-28, CameraIntrinsics.
    [values] is stored in the order fx, fy, cx, cy. *)
Record intrinsics := Intr { fx : R; fy : R; cx : R; cy : R }.
Definition intr_values (k : intrinsics) : list R := [fx k; fy k; cx k; cy k].

(** types.h:33-52, Pose6d. [values] is stored in the order rx, ry, rz, x, y, z. *)
Record pose6 := P6 { p_rx : R; p_ry : R; p_rz : R; p_x : R; p_y : R; p_z : R }.
Definition pose_values (p : pose6) : list R := [p_rx p; p_ry p; p_rz p; p_x p; p_y p; p_z p].
(** The angle-axis ([values + 0]) and position ([values + 3]) parts. *)
Definition pose_aa (p : pose6) : vec3 := V3 (p_rx p) (p_ry p) (p_rz p).
Definition pose_pos (p : pose6) : vec3 := V3 (p_x p) (p_y p) (p_z p).

(** include/rct_optimizations/ceres_math_utilities.h:9-17, transformPoint *)
Definition transformPoint (angle_axis tx point : vec3) : vec3 :=
  let t_point := aa_rotate_point angle_axis point in
  V3 (vx t_point + vx tx) (vy t_point + vy tx) (vz t_point + vz tx).

(** ceres_math_utilities.h:19-34, poseTransformPoint *)
Definition poseTransformPoint (pose : pose6) (point : vec3) : vec3 :=
  let angle_axis := V3 (p_rx pose) (p_ry pose) (p_rz pose) in
  let translation := V3 (p_x pose) (p_y pose) (p_z pose) in
  transformPoint angle_axis translation point.

(** ceres_math_utilities.h:36-61, projectPoint on raw arrays *)
Definition projectPoint_arr (intr : intrinsics) (point : vec3) : vec2 :=
  let xp1 := vx point in
  let yp1 := vy point in
  let zp1 := vz point in
  let '(xp, yp) := if Req_EM_T zp1 0 then (xp1, yp1) else (xp1 / zp1, yp1 / zp1) in
  V2 (fx intr * xp + cx intr) (fy intr * yp + cy intr).

(** ceres_math_utilities.h:63-91, projectPoint on Eigen vectors. Line 72 reads
    [std::abs(point.z() - T(0.0) > T(1.e-10))]: the comparison is inside the
    absolute value, so the guard is [z > 1e-10]. *)
Definition projectPoint_eig (intr : intrinsics) (point : vec3) : vec2 :=
  let scaled_point :=
    if Rlt_dec (1 / 10 ^ 10) (vz point - 0)
    then V3 (vx point / vz point) (vy point / vz point) 1
    else V3 (vx point) (vy point) 1 in
  let camera_matrix := M3 (fx intr) 0 (cx intr) 0 (fy intr) (cy intr) 0 0 1 in
  let image_pt := mvec camera_matrix scaled_point in
  V2 (vx image_pt) (vy image_pt).

(** src/rct_optimizations/eigen_conversions.cpp:3-17, poseEigenToCal *)
Definition poseEigenToCal (pose : iso) : pose6 :=
  let aa := aa_of_mat (lin pose) in
  let a := V3 (vx (aa_axis aa) * aa_angle aa) (vy (aa_axis aa) * aa_angle aa)
              (vz (aa_axis aa) * aa_angle aa) in
  P6 (vx a) (vy a) (vz a) (vx (tr pose)) (vy (tr pose)) (vz (tr pose)).

(** src/rct_optimizations/eigen_conversions.cpp:19-49, poseCalToEigen *)
Definition poseCalToEigen (pose : pose6) : iso :=
  let t := V3 (p_x pose) (p_y pose) (p_z pose) in
  let rr := V3 (p_rx pose) (p_ry pose) (p_rz pose) in
  let dot_product := dot rr rr in
  if Rlt_dec DBL_EPS dot_product
  then Iso (aa_matrix (norm rr) (normalized rr)) t
  else Iso (M3 1 (- vz rr) (vy rr)
               (vz rr) 1 (- vx rr)
               (- vy rr) (vx rr) 1) t.
