(** Homography validation:
    rct_optimizations/src/rct_optimizations/validation/homography_validation.cpp ([hv]) *)
From Coq Require Import Reals Arith List.
From Verif.Base Require Import Geom Outcome Matrix.
From Verif.Model Require Import HandEye.
Import ListNotations.
Local Open Scope R_scope.

(** [hv]:14-42, GridCorrespondenceSampler::getSampleCorrespondenceIndices. std::size_t arithmetic is
    taken to be unbounded; the subtractions do not wrap, as rows and cols are positive past the check. *)
Definition gridSample (rows cols stride : nat) : res (list nat) :=
  let n_samples := 4%nat in
  if Nat.ltb (rows * cols / 2) n_samples then Throw RuntimeError
  else
    let upper_left_idx := 0%nat in
    let upper_right_idx := ((cols - 1) * stride)%nat in
    let lower_left_idx := ((rows - 1) * (cols * stride))%nat in
    let lower_right_idx := (rows * cols * stride - stride)%nat in
    Ok [upper_left_idx; upper_right_idx; lower_left_idx; lower_right_idx].

(** [hv]:44-62, RandomCorrespondenceSampler. [rs_seed] seeds std::mt19937. *)
Record random_sampler := RS { rs_n_correspondences : nat; rs_n_samples : nat; rs_seed : nat }.
Definition mk_random_sampler (n_correspondences n_samples seed : nat) : res random_sampler :=
  if Nat.ltb n_samples 4 then Throw RuntimeError
  else if Nat.ltb n_correspondences n_samples then Throw RuntimeError
  else Ok (RS n_correspondences n_samples seed).

(** [hv]:64-76, RandomCorrespondenceSampler::getSampleCorrespondenceIndices. [seeded] is the
    constructor of std::mt19937, [uniform_int a b g] a draw from std::uniform_int_distribution(a, b). *)
Definition randomSample {G} (seeded : nat -> G) (uniform_int : nat -> nat -> G -> nat * G)
  (s : random_sampler) : list nat :=
  fst (fold_left (fun st _ =>
         let '(output, rand_gen) := st in
         let '(v, rand_gen) := uniform_int 0%nat (rs_n_correspondences s - 1)%nat rand_gen in
         ((output ++ [v])%list, rand_gen))
       (seq 0 (rs_n_samples s)) ([], seeded (rs_seed s))).

(** [hv]:141-142, two rows of A *)
Definition homography_row_u (x y u : R) (j : nat) : R := nth j [- x; - y; - (1); 0; 0; 0; u * x; u * y] 0.
Definition homography_row_v (x y v : R) (j : nat) : R := nth j [0; 0; 0; - x; - y; - (1); v * x; v * y] 0.

(** [hv]:126-145, A and b: pairs of a row of A and an entry of b *)
Definition homography_system (correspondences : list (correspondence vec2)) (samples : list nat)
  : res (list ((nat -> R) * R)) :=
  foldM (fun rows corr_idx =>
      do corr <- at_ correspondences corr_idx;
      let x := vx (in_target corr) in
      let y := vy (in_target corr) in
      let u := px (in_image corr) in
      let v := py (in_image corr) in
      Ok (rows ++ [(homography_row_u x y u, - (1) * px (in_image corr));
                   (homography_row_v x y v, - (1) * py (in_image corr))])%list)
    samples [].

(** Eigen: A.fullPivLu().solve(b), the eight unknowns *)
Definition lu_solver := list ((nat -> R) * R) -> nat -> R.

(** [hv]:147-154, the homography matrix: row-major, last entry one *)
Definition homography_matrix (h : nat -> R) : mat3 :=
  M3 (h 0%nat) (h 1%nat) (h 2%nat) (h 3%nat) (h 4%nat) (h 5%nat) (h 6%nat) (h 7%nat) 1.

(** [hv]:160-175, the error of one correspondence. Where the divisor is zero C++ gives an infinite
    value or NaN; the theorems assume it is not. *)
Definition homography_error (H : mat3) (corr : correspondence vec2) : R :=
  let ki := 1 / (m20 H * vx (in_target corr) + m21 H * vy (in_target corr) + 1) in
  let xy := V3 (vx (in_target corr)) (vy (in_target corr)) 1 in
  let in_image_estimate := vscale ki (mvec H xy) in
  let image_error := V2 (px (in_image corr) - vx in_image_estimate) (py (in_image corr) - vy in_image_estimate) in
  norm2 image_error.

(** [hv]:78-178, calculateHomographyError (2D); [samples] is what the sampler returned *)
Definition calculateHomographyError (lu : lu_solver) (correspondences : list (correspondence vec2))
  (samples : list nat) : res (list R) :=
  let n_samples := List.length samples in
  if Nat.ltb (List.length correspondences) (2 * n_samples) then Throw RuntimeError
  else
    do system <- homography_system correspondences samples;
    let H := homography_matrix (lu system) in
    Ok (map (homography_error H) correspondences).

(** [hv]:180-209, calculateHomographyError (3D). Points with z = 0 give infinite values or NaN in
    C++; the theorems assume there are none. *)
Definition flatten_correspondence (corr : correspondence vec3) : correspondence vec2 :=
  let p := in_image corr in Corr (V2 (vx p / vz p) (vy p / vz p)) (in_target corr).
Definition calculateHomographyError3D (lu : lu_solver) (correspondences : list (correspondence vec3))
  (samples : list nat) : res (list R) :=
  let z_values := map (fun corr => vz (in_image corr)) correspondences in
  do error <- calculateHomographyError lu (map flatten_correspondence correspondences) samples;
  Ok (map (fun ez => fst ez * snd ez) (combine error z_values)).
