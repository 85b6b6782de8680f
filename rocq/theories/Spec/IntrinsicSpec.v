(** Vocabulary for the intrinsic calibration. *)
From Coq Require Import Reals Arith String List.
From Verif.Base Require Import Geom Outcome.
From Verif.Model Require Import Pose Solver HandEye BlockSolver Pnp Intrinsic.
Import ListNotations.
Local Open Scope R_scope.

(** Coefficients of the Brown-Conrady lens model. *)
Record distortion := Dist { d_k1 : R; d_k2 : R; d_p1 : R; d_p2 : R; d_k3 : R }.
Definition no_distortion : distortion := Dist 0 0 0 0 0.

(** Brown-Conrady: distorted position of the point (x, y) of the plane z = 1. *)
Definition distort (d : distortion) (x y : R) : vec2 :=
  let r2 := x ^ 2 + y ^ 2 in
  let radial := 1 + d_k1 d * r2 + d_k2 d * r2 ^ 2 + d_k3 d * r2 ^ 3 in
  V2 (x * radial + (2 * d_p1 d * x * y + d_p2 d * (r2 + 2 * x ^ 2)))
     (y * radial + (d_p1 d * (r2 + 2 * y ^ 2) + 2 * d_p2 d * x * y)).

(** Pixel at which a camera with this lens sees a point. *)
Definition lens_project (k : intrinsics) (d : distortion) (p : vec3) : vec2 :=
  let q := distort d (vx p / vz p) (vy p / vz p) in
  V2 (fx k * px q + cx k) (fy k * py q + cy k).

(** Reprojection error with this lens, for a target at pose [T] in the camera frame. *)
Definition lens_error (k : intrinsics) (d : distortion) (T : iso) (x : correspondence vec2) : list R :=
  let q := lens_project k d (iso_app T (in_target x)) in
  [px q - px (in_image x); py q - py (in_image x)].

(** The camera described by an array in the order fx, fy, cx, cy, k1, k2, p1, p2, k3. *)
Definition camera_of (a : nat -> R) : intrinsics := Intr (a 0%nat) (a 1%nat) (a 2%nat) (a 3%nat).
Definition lens_of (a : nat -> R) : distortion := Dist (a 4%nat) (a 5%nat) (a 6%nat) (a 7%nat) (a 8%nat).

(** The pose of a target half a metre ahead that faces the camera: x to the right in the image, y up, z towards the camera. *)
Definition half_metre_ahead : iso := Iso (M3 1 0 0 0 (-1) 0 0 0 (-1)) (V3 0 0 (1 / 2)).
(** The pose estimation of image i, from this initial pose. *)
Definition image_pnp (p : intrinsic_problem) (obs : list (correspondence vec2)) : pnp_problem :=
  PnP2 (ip_intrinsics_guess p) obs half_metre_ahead "camera_to_target".
(** It succeeds with this pose: it returns a result that converged. *)
Definition located (u : nat -> nat -> R) (psolve : pnp_solvers) (pcov : pnp_covs) (p : intrinsic_problem)
  (i : nat) (T : iso) : Prop :=
  exists obs r, nth_error (ip_image_observations p) i = Some obs /\
    optimizePnP u (psolve i) (pcov i) (image_pnp p obs) = Ok r /\
    pnp_converged r = true /\ pnp_camera_to_target r = T.
(** It fails: by an exception or without convergence. *)
Definition not_located (u : nat -> nat -> R) (psolve : pnp_solvers) (pcov : pnp_covs) (p : intrinsic_problem)
  (i : nat) : Prop :=
  exists obs, nth_error (ip_image_observations p) i = Some obs /\
    ((exists e, optimizePnP u (psolve i) (pcov i) (image_pnp p obs) = Throw e) \/
     exists r, optimizePnP u (psolve i) (pcov i) (image_pnp p obs) = Ok r /\ pnp_converged r = false).

(** The correspondences of the given images, each with its image. *)
Definition image_views (p : intrinsic_problem) (images : list nat) : list (nat * correspondence vec2) :=
  flat_map (fun i => map (pair i) (nth i (ip_image_observations p) [])) images.
