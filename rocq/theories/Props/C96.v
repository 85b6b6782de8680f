(** C96: when perfect pictures of a flat target determine the intrinsics of a camera. [perfect_image k T cs] says that the
    correspondences are what a pin-hole camera sees of a target at pose T. [ends_at_poses] says that the optimization
    ends at rigid target poses with no point in the plane of the camera (Spec/IntrinsicUniqueSpec.v). *)
From Coq Require Import Reals Arith List.
From Verif.Base Require Import Geom Outcome.
From Verif.Model Require Import Pose Covariance Solver HandEye BlockSolver Pnp Intrinsic.
From Verif.Spec Require Import Frames PinHole IntrinsicSpec UniqueSpec IntrinsicUniqueSpec.
From Verif.Proofs Require Import HandEyeProofs IntrinsicProofs UniqueExamples IntrinsicUnique IntrinsicUniqueExample.
Import ListNotations.
Local Open Scope R_scope.

(** If among the pictures are some whose poses determine the camera, and each of them shows four points of the target in
    general position and not edge-on, then a result without error and without distortion is the true camera. *)
Theorem C96_result_without_error_is_true_camera :
  forall u psolve pcov solve cov p r k T,
  honest_blocks solve -> (forall blocks start, ends_at_poses p (fst (solve blocks start))) ->
  optimizeIntrinsic u psolve pcov solve cov p = Ok r ->
  0 < fx k -> 0 < fy k -> 0 < fx (ir_intrinsics r) -> 0 < fy (ir_intrinsics r) ->
  ir_distortions r = [0; 0; 0; 0; 0] ->
  (forall i cs, nth_error (ip_image_observations p) i = Some cs -> perfect_image k (T i) cs) ->
  (exists chosen, poses_determine_camera (map T chosen) /\
     forall i, In i chosen -> exists cs, nth_error (ip_image_observations p) i = Some cs /\
       rigid (T i) /\ ~ edge_on (T i) /\ four_flat_points (map in_target cs)) ->
  ir_final_cost_per_obs r = 0 -> ir_intrinsics r = k.
Proof. exact intrinsic_unique. Qed.
Print Assumptions C96_result_without_error_is_true_camera.

(** One picture with the target tilted about the horizontal axis of the camera and one with the target tilted about the
    vertical axis determine it, by whatever angles. *)
Theorem C96_two_tilts_determine_camera :
  forall A B a b, lin A = aa_matrix a unitX -> lin B = aa_matrix b unitY -> sin a <> 0 -> sin b <> 0 ->
  poses_determine_camera [A; B].
Proof. exact tilts_determine. Qed.
Print Assumptions C96_two_tilts_determine_camera.

(** Pictures of a target parallel to the image do not, however many there are: any other focal length fits as well. *)
Theorem C96_parallel_pictures_leave_focal_length_open :
  forall u psolve pcov cov p k d T l, 0 < l ->
  (forall i cs, nth_error (ip_image_observations p) i = Some cs ->
     plain_pose (T i) /\ parallel_to_image (T i) /\ perfect_lens_image k d (T i) cs) ->
  exists solve, honest_blocks solve /\ (forall blocks start, ends_at_poses p (fst (solve blocks start))) /\
  forall r, optimizeIntrinsic u psolve pcov solve cov p = Ok r ->
    ir_final_cost_per_obs r = 0 /\
    ir_intrinsics r = Intr (l * fx k) (l * fy k) (cx k) (cy k) /\
    ir_distortions r = [l ^ 2 * d_k1 d; l ^ 4 * d_k2 d; l * d_p1 d; l * d_p2 d; l ^ 6 * d_k3 d].
Proof. exact parallel_undetermined. Qed.
Print Assumptions C96_parallel_pictures_leave_focal_length_open.

(** Two tilted pictures of a square: a result that meets all the conditions. *)
Example C96_two_pictures : forall u, exists r,
  optimizeIntrinsic u ex_solves (fun _ => ex_cov_oracle) sc_finds ex_cov_oracle sc_views = Ok r /\
  honest_blocks sc_finds /\ (forall blocks start, ends_at_poses sc_views (fst (sc_finds blocks start))) /\
  (forall i cs, nth_error (ip_image_observations sc_views) i = Some cs -> perfect_image ex_k (sc_tilt i) cs) /\
  poses_determine_camera (map sc_tilt [0; 1]%nat) /\
  (forall i, In i [0; 1]%nat -> exists cs, nth_error (ip_image_observations sc_views) i = Some cs /\
     rigid (sc_tilt i) /\ ~ edge_on (sc_tilt i) /\ four_flat_points (map in_target cs)) /\
  ir_distortions r = [0; 0; 0; 0; 0] /\ ir_final_cost_per_obs r = 0 /\ ir_intrinsics r = ex_k.
Proof. exact sc_example. Qed.

(** Two pictures straight ahead: a result without error with twice the true focal length. *)
Example C96_straight_pictures : forall u, exists solve r,
  honest_blocks solve /\ (forall blocks start, ends_at_poses sc_straight (fst (solve blocks start))) /\
  (forall i cs, nth_error (ip_image_observations sc_straight) i = Some cs ->
     perfect_image ex_k ex_ahead cs /\ rigid ex_ahead /\ ~ edge_on ex_ahead /\ four_flat_points (map in_target cs)) /\
  optimizeIntrinsic u ex_solves (fun _ => ex_cov_oracle) solve ex_cov_oracle sc_straight = Ok r /\
  ir_final_cost_per_obs r = 0 /\ ir_distortions r = [0; 0; 0; 0; 0] /\
  fx ex_k = 500 /\ fx (ir_intrinsics r) = 1000.
Proof. exact sc_wrong. Qed.
