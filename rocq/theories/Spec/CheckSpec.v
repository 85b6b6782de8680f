(** Vocabulary for the checks on accurate data. *)
From Coq Require Import Reals List.
From Verif.Base Require Import Geom Outcome.
From Verif.Model Require Import Pose HandEye Pnp IntrinsicValidation NoiseQualification.
From Verif.Spec Require Import PinHole PnpSpec StatSpec UniqueSpec ValidationSpec NearSpec.
Import ListNotations.
Local Open Scope R_scope.

(** [rs] are the results of all problems, in order. *)
Definition results_of {P} (optimize : nat -> P -> res pnp_result) (ps : list P) (rs : list pnp_result) : Prop :=
  List.length rs = List.length ps /\
  forall i p r, nth_error ps i = Some p -> nth_error rs i = Some r -> optimize i p = Ok r.
(** The orientations of those that converged. *)
Definition orientations (rs : list pnp_result) : list quat := map (fun T => quat_of_mat (lin T)) (solutions rs).
(** The singular value decomposition is right for these results: an eigenvector for the largest eigenvalue. *)
Definition right_for {P} (svd : svd_oracle) (optimize : nat -> P -> res pnp_result) (ps : list P) : Prop :=
  forall rs, results_of optimize ps rs -> dominant (quaternion_matrix (orientations rs)) (svd (quaternion_matrix (orientations rs))).

(** The statistics are those of a pose that is nearly known: the mean position is within [e] of it in every coordinate, the
    mean orientation is turned against it by at most the angle [e], and no deviation exceeds [e]. *)
Definition stats_close (e : R) (T : iso) (s : noise_stat) : Prop :=
  point_close e (ps_mean (ns_p_stat s)) (tr T) /\
  (vx (ps_stdev (ns_p_stat s)) <= e /\ vy (ps_stdev (ns_p_stat s)) <= e /\ vz (ps_stdev (ns_p_stat s)) <= e) /\
  0 <= angular_distance (qs_mean (ns_q_stat s)) (quat_of_mat (lin T)) <= e /\ qs_stdev (ns_q_stat s) <= e.

(** A result that explains the picture: the target is in front of the camera, and the reported cost is at most [d], or at most that
    of the true pose [T0]. *)
Definition explains (k : intrinsics) (T0 : iso) (d : R) (cs : list (correspondence vec2)) (r : pnp_result) : Prop :=
  all_in_front (pnp_camera_to_target r) cs /\
  (pnp_final_cost_per_obs r <= d \/ pnp_final_cost_per_obs r <= cost_of (flat_map (pixel_error k T0) cs)).
Definition explains_points (T0 : iso) (d : R) (cs : list (correspondence vec3)) (r : pnp_result) : Prop :=
  pnp_final_cost_per_obs r <= d \/ pnp_final_cost_per_obs r <= cost_of (flat_map (point_error T0) cs).

(** The two groups of points into which a picture is divided *)
Definition first_half {A} (cs : list A) : list A := firstn (List.length cs / 2) cs.
Definition second_half {A} (cs : list A) : list A := skipn (List.length cs / 2) cs.
(** A perfect picture, taken by the camera [k] from the pose [T0], each half of which determines the pose *)
Definition good_reference (k : intrinsics) (ref : iso * list (correspondence vec2)) : Prop :=
  rigid (fst ref) /\ ~ edge_on (fst ref) /\ perfect_image k (fst ref) (snd ref) /\
  four_flat_points (map in_target (first_half (snd ref))) /\ four_flat_points (map in_target (second_half (snd ref))).
(** The picture [cs] is nearly the reference, the solver reports its costs truthfully, and its two fits from [guess] explain the halves. *)
Definition checked_near (d : R) (k : intrinsics) (ref : iso * list (correspondence vec2)) (runs : pnp_run * pnp_run) (guess : iso)
  (cs : list (correspondence vec2)) : Prop :=
  near_picture d cs (snd ref) /\ honest (run_solve (fst runs)) /\ honest (run_solve (snd runs)) /\
  (forall r, fitted (fst runs) k guess (first_half cs) r -> explains k (fst ref) d (first_half cs) r) /\
  (forall r, fitted (snd runs) k guess (second_half cs) r -> explains k (fst ref) d (second_half cs) r).
