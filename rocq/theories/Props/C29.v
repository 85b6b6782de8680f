(** C29: noise statistics. [svd] is whatever the singular value decomposition of Eigen returns. *)
From Coq Require Import Reals Arith List Permutation.
From Verif.Base Require Import Geom Outcome.
From Verif.Model Require Import Pnp IntrinsicValidation NoiseQualification.
From Verif.Spec Require Import StatSpec ValidationSpec.
From Verif.Proofs Require Import NoiseProofs.
Import ListNotations.
Local Open Scope R_scope.

(** Replacing quaternions by their negatives changes nothing: not the matrix, the mean or the deviation. *)
Theorem C29_matrix_ignores_signs :
  forall qs qs', Forall2 same_rotation qs qs' -> quaternion_matrix qs' = quaternion_matrix qs.
Proof. exact matrix_signs. Qed.
Print Assumptions C29_matrix_ignores_signs.

Theorem C29_statistics_ignore_signs :
  forall svd qs qs', Forall2 same_rotation qs qs' ->
  computeQuaternionMean svd qs' = computeQuaternionMean svd qs /\
  computeQuaternionStats svd qs' = computeQuaternionStats svd qs.
Proof. exact stats_signs. Qed.
Print Assumptions C29_statistics_ignore_signs.

(** Nor does reordering. *)
Theorem C29_matrix_ignores_order :
  forall qs qs', Permutation qs qs' -> quaternion_matrix qs' = quaternion_matrix qs.
Proof. exact matrix_perm. Qed.
Print Assumptions C29_matrix_ignores_order.

Theorem C29_statistics_ignore_order :
  forall svd qs qs', Permutation qs qs' ->
  computeQuaternionMean svd qs' = computeQuaternionMean svd qs /\
  computeQuaternionStats svd qs' = computeQuaternionStats svd qs.
Proof. exact stats_perm. Qed.
Print Assumptions C29_statistics_ignore_order.

(** If the decomposition returns an eigenvector for the largest eigenvalue, the mean is a unit
    quaternion with the largest sum of squared dot products with the given ones; the mean of equal
    rotations is that rotation, with no deviation. *)
Theorem C29_mean_is_best :
  forall svd qs, dominant (quaternion_matrix qs) (computeQuaternionMean svd qs) ->
  let m := computeQuaternionMean svd qs in
  qnorm2 m = 1 /\ forall v, qnorm2 v = 1 ->
    total (map (fun q => qdot q v * qdot q v) qs) <= total (map (fun q => qdot q m * qdot q m) qs).
Proof. exact mean_maximises. Qed.
Print Assumptions C29_mean_is_best.

Theorem C29_equal_rotations :
  forall svd qs q, dominant (quaternion_matrix qs) (computeQuaternionMean svd qs) ->
  (2 <= List.length qs)%nat -> qnorm2 q = 1 -> Forall (same_rotation q) qs ->
  exists m, same_rotation q m /\ computeQuaternionStats svd qs = Ok (QS m 0).
Proof. exact stats_of_equal. Qed.
Print Assumptions C29_equal_rotations.

(** The deviation is the root of the mean square angle, over one less than the number of rotations. *)
Theorem C29_orientation_deviation :
  forall svd qs, (2 <= List.length qs)%nat ->
  let m := computeQuaternionMean svd qs in
  computeQuaternionStats svd qs =
  Ok (QS m (sqrt (total (map (fun q => angular_distance m q * angular_distance m q) qs) / INR (List.length qs - 1)))).
Proof. exact stats_spec. Qed.
Print Assumptions C29_orientation_deviation.

(** Positions and orientations are those of exactly the problems that converged. *)
Theorem C29_uses_converged_solutions_2D :
  forall svd runs ps s, qualifyNoise2D svd runs ps = Ok s ->
  exists rs, List.length rs = List.length ps /\
    (forall i p r, nth_error ps i = Some p -> nth_error rs i = Some r ->
       optimizePnP (run_u (runs i)) (run_solve (runs i)) (run_cov (runs i)) p = Ok r) /\
    let sol := solutions rs in
    let xs := map (fun T => vx (tr T)) sol in let ys := map (fun T => vy (tr T)) sol in let zs := map (fun T => vz (tr T)) sol in
    (2 <= List.length sol)%nat /\
    ps_mean (ns_p_stat s) = V3 (average xs) (average ys) (average zs) /\
    ps_stdev (ns_p_stat s) = V3 (std_dev xs) (std_dev ys) (std_dev zs) /\
    computeQuaternionStats svd (map (fun T => quat_of_mat (lin T)) sol) = Ok (ns_q_stat s).
Proof. exact (fun svd runs => qualify_spec svd _). Qed.
Print Assumptions C29_uses_converged_solutions_2D.

Theorem C29_uses_converged_solutions_3D :
  forall svd runs ps s, qualifyNoise3D svd runs ps = Ok s ->
  exists rs, List.length rs = List.length ps /\
    (forall i p r, nth_error ps i = Some p -> nth_error rs i = Some r ->
       optimizePnP3D (run_u (runs i)) (run_solve (runs i)) (run_cov (runs i)) p = Ok r) /\
    let sol := solutions rs in
    let xs := map (fun T => vx (tr T)) sol in let ys := map (fun T => vy (tr T)) sol in let zs := map (fun T => vz (tr T)) sol in
    (2 <= List.length sol)%nat /\
    ps_mean (ns_p_stat s) = V3 (average xs) (average ys) (average zs) /\
    ps_stdev (ns_p_stat s) = V3 (std_dev xs) (std_dev ys) (std_dev zs) /\
    computeQuaternionStats svd (map (fun T => quat_of_mat (lin T)) sol) = Ok (ns_q_stat s).
Proof. exact (fun svd runs => qualify_spec svd _). Qed.
Print Assumptions C29_uses_converged_solutions_3D.

(** There is a result whenever pose estimation returns on every problem and converges on two. *)
Theorem C29_succeeds_2D :
  forall svd runs ps rs, List.length rs = List.length ps ->
  (forall i p r, nth_error ps i = Some p -> nth_error rs i = Some r ->
     optimizePnP (run_u (runs i)) (run_solve (runs i)) (run_cov (runs i)) p = Ok r) ->
  (2 <= List.length (solutions rs))%nat -> exists s, qualifyNoise2D svd runs ps = Ok s.
Proof. exact (fun svd runs => qualify_succeeds svd _). Qed.
Print Assumptions C29_succeeds_2D.

Theorem C29_succeeds_3D :
  forall svd runs ps rs, List.length rs = List.length ps ->
  (forall i p r, nth_error ps i = Some p -> nth_error rs i = Some r ->
     optimizePnP3D (run_u (runs i)) (run_solve (runs i)) (run_cov (runs i)) p = Ok r) ->
  (2 <= List.length (solutions rs))%nat -> exists s, qualifyNoise3D svd runs ps = Ok s.
Proof. exact (fun svd runs => qualify_succeeds svd _). Qed.
Print Assumptions C29_succeeds_3D.

Example C29_two_of_three_converge : forall svd, exists s, qualifyNoise2D svd ex_runs ex_problems = Ok s.
Proof. exact ex_qualify. Qed.
Example C29_opposite_quaternions : dominant (quaternion_matrix [Q 1 0 0 0; Q (-1) 0 0 0]) (Q 1 0 0 0).
Proof. exact ex_dominant. Qed.
