(** Back-projection: rct_optimizations/src/rct_optimizations/validation/projection.cpp ([pr]) *)
From Coq Require Import Reals Arith List.
From Verif.Base Require Import Geom Outcome Matrix.
From Verif.Model Require Import Pose HandEye.
Import ListNotations.
Local Open Scope R_scope.

(** projection.h, the default epsilon *)
Definition default_epsilon : R := 1 / 10 ^ 6.

(** [pr]:5-20, computeLinePlaneIntersection. With [epsilon <= 0] and a parallel line C++ divides by
    zero; the theorems assume a positive epsilon. *)
Definition computeLinePlaneIntersection (plane_normal plane_pt line line_pt : vec3) (epsilon : R) : res vec3 :=
  let dp := dot line plane_normal in
  if Rlt_dec (Rabs dp) epsilon then Throw RuntimeError
  else
    let d := dot (vsub plane_pt line_pt) plane_normal / dp in
    Ok (vadd line_pt (vscale d line)).

(** Eigen: inverse of a 3x3 matrix, by cofactors. For a singular matrix Eigen divides by zero; the
    camera matrices of the theorems are regular. *)
Definition inverse3 (k : mat3) : mat3 :=
  let d := det k in
  M3 ((m11 k * m22 k - m12 k * m21 k) / d) ((m02 k * m21 k - m01 k * m22 k) / d) ((m01 k * m12 k - m02 k * m11 k) / d)
     ((m12 k * m20 k - m10 k * m22 k) / d) ((m00 k * m22 k - m02 k * m20 k) / d) ((m02 k * m10 k - m00 k * m12 k) / d)
     ((m10 k * m21 k - m11 k * m20 k) / d) ((m01 k * m20 k - m00 k * m21 k) / d) ((m00 k * m11 k - m01 k * m10 k) / d).

(** [pr]:22-58, project3D. The rows of the matrices are kept as lists of points. *)
Definition project3D (source : list vec2) (source_to_plane : iso) (k : mat3) : res (list vec3) :=
  let source_3d := map (fun s => V3 (px s) (py s) 1) source in
  let plane_normal := col2 (lin source_to_plane) in
  let plane_pt := tr source_to_plane in
  let camera_origin := vzero in
  let rays_in_camera := map (fun s => normalized (mvec (inverse3 k) s)) source_3d in
  do projected_source_3d <-
    mapM (fun ray => computeLinePlaneIntersection plane_normal plane_pt ray camera_origin default_epsilon) rays_in_camera;
  Ok (map (iso_app (iso_inv source_to_plane)) projected_source_3d).

(** [pr]:60-89, compute3DProjectionError for one observation *)
Definition compute3DProjectionError (obs : observation vec2) (intr : intrinsics)
  (camera_mount_to_camera target_mount_to_target : iso) : res (list R) :=
  let camera_matrix := M3 (fx intr) 0 (cx intr) 0 (fy intr) (cy intr) 0 0 1 in
  let camera_to_target :=
    iso_mul (iso_mul (iso_mul (iso_inv camera_mount_to_camera) (iso_inv (to_camera_mount obs))) (to_target_mount obs))
            target_mount_to_target in
  let image_features := map (fun c => in_image c) (correspondence_set obs) in
  let target_features := map (fun c => in_target c) (correspondence_set obs) in
  do projected <- project3D image_features camera_to_target camera_matrix;
  Ok (map (fun tp => norm (vsub (fst tp) (snd tp))) (combine target_features projected)).

(** [pr]:91-109, compute3DProjectionError for a set of observations *)
Definition compute3DProjectionError_set (observations : list (observation vec2)) (intr : intrinsics)
  (camera_mount_to_camera target_mount_to_target : iso) : res (list R) :=
  foldM (fun error obs =>
      do e <- compute3DProjectionError obs intr camera_mount_to_camera target_mount_to_target;
      Ok (error ++ e)%list)
    observations [].
