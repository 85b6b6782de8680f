(** C06: the hand-eye result is the solver's final state in the user's frames. *)
From Coq Require Import Reals List Permutation.
From Verif.Base Require Import Geom Outcome.
From Verif.Model Require Import Pose Covariance Solver HandEye.
From Verif.Spec Require Import Frames.
From Verif.Proofs Require Import HandEyeProofs MoreExamples.
Import ListNotations.
Local Open Scope R_scope.

(** For every solver: its residuals are the reprojection errors with the transforms that its variables stand for (unless the
    camera rotation is a tiny non-zero one), it is started at the guesses, its final variables are converted to the two
    result transforms, and the reported costs are its costs divided by the number of residuals. *)
Theorem C06_result_2D3D :
  forall p, (forall o, In o (h2_observations p) -> plain_pose (to_camera_mount o) /\ plain_pose (to_target_mount o)) ->
  exists blocks : list (residual he_vars),
  (forall x, rigid (poseCalToEigen (fst x)) ->
     map (fun f => f x) blocks =
     map (fun oc =>
       let q := projectPoint_arr (h2_intr p)
         (iso_app (target_in_camera (iso_inv (poseCalToEigen (fst x))) (to_camera_mount (fst oc))
                     (to_target_mount (fst oc)) (poseCalToEigen (snd x))) (in_target (snd oc))) in
       [px q - px (in_image (snd oc)); py q - py (in_image (snd oc))])
       (all_pairs (h2_observations p))) /\
  forall u solve cov r, optimize2D3D u solve cov p = Ok r ->
  exists xf s,
    solve blocks (poseEigenToCal (iso_inv (h2_camera_guess p)), poseEigenToCal (h2_target_guess p)) = (xf, s) /\
    he_converged r = term_convergence s /\
    he_target_mount_to_target r = poseCalToEigen (snd xf) /\
    he_camera_mount_to_camera r = iso_inv (poseCalToEigen (fst xf)) /\
    he_initial_cost_per_obs r = initial_cost s / INR (2 * length (all_pairs (h2_observations p))) /\
    he_final_cost_per_obs r = final_cost s / INR (2 * length (all_pairs (h2_observations p))).
Proof. exact result2. Qed.
Print Assumptions C06_result_2D3D.

Theorem C06_result_3D3D :
  forall p, (forall o, In o (h3_observations p) -> plain_pose (to_camera_mount o) /\ plain_pose (to_target_mount o)) ->
  exists blocks : list (residual he_vars),
  (forall x, rigid (poseCalToEigen (fst x)) ->
     map (fun f => f x) blocks =
     map (fun oc =>
       let q := iso_app (target_in_camera (iso_inv (poseCalToEigen (fst x))) (to_camera_mount (fst oc))
                     (to_target_mount (fst oc)) (poseCalToEigen (snd x))) (in_target (snd oc)) in
       [vx q - vx (in_image (snd oc)); vy q - vy (in_image (snd oc)); vz q - vz (in_image (snd oc))])
       (all_pairs (h3_observations p))) /\
  forall u solve cov r, optimize3D3D u solve cov p = Ok r ->
  exists xf s,
    solve blocks (poseEigenToCal (iso_inv (h3_camera_guess p)), poseEigenToCal (h3_target_guess p)) = (xf, s) /\
    he_converged r = term_convergence s /\
    he_target_mount_to_target r = poseCalToEigen (snd xf) /\
    he_camera_mount_to_camera r = iso_inv (poseCalToEigen (fst xf)) /\
    he_initial_cost_per_obs r = initial_cost s / INR (3 * length (all_pairs (h3_observations p))) /\
    he_final_cost_per_obs r = final_cost s / INR (3 * length (all_pairs (h3_observations p))).
Proof. exact result3. Qed.
Print Assumptions C06_result_3D3D.

(** If the solver stays at its starting point, the guesses are returned unchanged. *)
Theorem C06_unmoved_returns_guess_2D3D :
  forall u solve cov p r, (forall blocks x, fst (solve blocks x) = x) ->
  optimize2D3D u solve cov p = Ok r ->
  plain_pose (h2_camera_guess p) -> plain_pose (h2_target_guess p) ->
  he_camera_mount_to_camera r = h2_camera_guess p /\ he_target_mount_to_target r = h2_target_guess p.
Proof. exact unmoved2. Qed.
Print Assumptions C06_unmoved_returns_guess_2D3D.

Theorem C06_unmoved_returns_guess_3D3D :
  forall u solve cov p r, (forall blocks x, fst (solve blocks x) = x) ->
  optimize3D3D u solve cov p = Ok r ->
  plain_pose (h3_camera_guess p) -> plain_pose (h3_target_guess p) ->
  he_camera_mount_to_camera r = h3_camera_guess p /\ he_target_mount_to_target r = h3_target_guess p.
Proof. exact unmoved3. Qed.
Print Assumptions C06_unmoved_returns_guess_3D3D.

(** The hypotheses are met by a concrete problem, for every solver. *)
Example C06_example : forall u solve, exists r, optimize2D3D u solve ex_cov_oracle ex_he = Ok r.
Proof. exact ex_he_accepted. Qed.
Example C06_example_mounts : forall o, In o (h2_observations ex_he) ->
  plain_pose (to_camera_mount o) /\ plain_pose (to_target_mount o).
Proof. exact ex_he_plain_obs. Qed.
Example C06_example_3D3D : forall u solve, exists r, optimize3D3D u solve ex_cov_oracle ex_he3 = Ok r.
Proof. exact ex_he3_accepted. Qed.
Example C06_example_3D3D_poses : plain_pose (h3_camera_guess ex_he3) /\ plain_pose (h3_target_guess ex_he3) /\
  forall o, In o (h3_observations ex_he3) -> plain_pose (to_camera_mount o) /\ plain_pose (to_target_mount o).
Proof. exact ex_he3_plain. Qed.
