(** C87: simulated hand-eye data fit the truth they were made from, and only this truth fits them.
    [T] is the pose of the target, [X] that of the camera on its mount, [B] that of the target base in the camera base. *)
From Coq Require Import Reals ZArith List.
From Verif.Base Require Import Geom Outcome Matrix.
From Verif.Model Require Import Pose Covariance Solver HandEye Simulation.
From Verif.Spec Require Import PinHole Frames OracleSpec PnpSpec UniqueSpec SimulationSpec.
From Verif.Proofs Require Import SimulationProofs SimHandEyeProofs SimExamples.
Import ListNotations.
Local Open Scope R_scope.

(** One observation for each camera pose [P] that is proposed, in their order *)
Theorem C87_observations :
  forall camera target gens T X B, rigid B -> rigid T -> rigid X ->
  exists os, createObservations2D camera target gens T X B = Ok os /\
  Forall2 (fun P o => taken T X B P o /\ seen camera (iso_inv P) (sim_points target) (correspondence_set o))
          (proposals gens T) os.
Proof. exact create2_ok. Qed.
Print Assumptions C87_observations.

Theorem C87_observations_points :
  forall target gens T X B, rigid B -> rigid T -> rigid X ->
  Forall2 (fun P o => taken T X B P o /\ correspondence_set o = measured (iso_inv P) (sim_points target))
          (proposals gens T) (createObservations3D target gens T X B).
Proof. exact create3_ok. Qed.
Print Assumptions C87_observations_points.

(** All residuals are zero at the truth. *)
Theorem C87_truth_fits :
  forall camera target gens T X B os pc pt, rigid B -> rigid T -> rigid X ->
  createObservations2D camera target gens T X B = Ok os ->
  poseCalToEigen pc = iso_inv X -> poseCalToEigen pt = iso_mul B T ->
  forall o c, In o os -> In c (correspondence_set o) -> plain_pose (to_camera_mount o) ->
  cost2D3D (mk_obs_cost (in_image c) (iso_inv (to_camera_mount o)) (to_target_mount o) (in_target c)) (sim_intr camera) (pc, pt)
  = [0; 0].
Proof. exact truth_zero2. Qed.
Print Assumptions C87_truth_fits.

Theorem C87_truth_fits_points :
  forall target gens T X B pc pt, rigid B -> rigid T -> rigid X ->
  poseCalToEigen pc = iso_inv X -> poseCalToEigen pt = iso_mul B T ->
  forall o c, In o (createObservations3D target gens T X B) -> In c (correspondence_set o) -> plain_pose (to_camera_mount o) ->
  cost3D3D (mk_obs_cost (in_image c) (iso_inv (to_camera_mount o)) (to_target_mount o) (in_target c)) (pc, pt) = [0; 0; 0].
Proof. exact truth_zero3. Qed.
Print Assumptions C87_truth_fits_points.

(** If the cameras were turned about two axes, a calibration without error is the truth. *)
Theorem C87_only_truth_fits :
  forall u solve cov camera target gens T X B os p r,
  rigid B -> rigid T -> rigid X -> (forall P, In P (proposals gens T) -> rigid P) ->
  createObservations2D camera target gens T X B = Ok os -> h2_observations p = os -> h2_intr p = sim_intr camera ->
  fx (sim_intr camera) <> 0 -> fy (sim_intr camera) <> 0 -> plain_obs os ->
  honest solve -> optimize2D3D u solve cov p = Ok r ->
  rigid (he_camera_mount_to_camera r) -> rigid (he_target_mount_to_target r) ->
  (forall P, In P (proposals gens T) -> ~ edge_on (iso_inv P) /\
     forall q, In q (sim_points target) -> visible camera (iso_app (iso_inv P) q) -> in_front (iso_app (iso_inv P) q)) ->
  (forall o, In o os -> four_flat_points (map in_target (correspondence_set o)) /\
     all_in_front (target_in_camera (he_camera_mount_to_camera r) (to_camera_mount o) (to_target_mount o)
                     (he_target_mount_to_target r)) (correspondence_set o)) ->
  two_axes (motions_of (map iso_inv (proposals gens T))) ->
  (he_final_cost_per_obs r = 0 <-> he_camera_mount_to_camera r = X /\ he_target_mount_to_target r = iso_mul B T).
Proof. exact sim_unique2. Qed.
Print Assumptions C87_only_truth_fits.

Theorem C87_only_truth_fits_points :
  forall u solve cov target gens T X B p r,
  rigid B -> rigid T -> rigid X -> (forall P, In P (proposals gens T) -> rigid P) ->
  h3_observations p = createObservations3D target gens T X B -> plain_obs (h3_observations p) ->
  honest solve -> optimize3D3D u solve cov p = Ok r ->
  rigid (he_camera_mount_to_camera r) -> rigid (he_target_mount_to_target r) ->
  not_on_a_line (sim_points target) ->
  two_axes (motions_of (map iso_inv (proposals gens T))) ->
  (he_final_cost_per_obs r = 0 <-> he_camera_mount_to_camera r = X /\ he_target_mount_to_target r = iso_mul B T).
Proof. exact sim_unique3. Qed.
Print Assumptions C87_only_truth_fits_points.

(** Three cameras that look at a board from different directions *)
Example C87_example :
  exists u solve cov gens os p r,
  (forall P, In P (proposals gens iso_id) -> rigid P) /\
  createObservations2D makeKinectCamera ex_board gens iso_id iso_id iso_id = Ok os /\
  h2_observations p = os /\ h2_intr p = sim_intr makeKinectCamera /\ plain_obs os /\
  honest solve /\ optimize2D3D u solve cov p = Ok r /\
  rigid (he_camera_mount_to_camera r) /\ rigid (he_target_mount_to_target r) /\
  (forall P, In P (proposals gens iso_id) -> ~ edge_on (iso_inv P) /\
     forall q, In q (sim_points ex_board) -> visible makeKinectCamera (iso_app (iso_inv P) q) -> in_front (iso_app (iso_inv P) q)) /\
  (forall o, In o os -> four_flat_points (map in_target (correspondence_set o)) /\
     all_in_front (target_in_camera (he_camera_mount_to_camera r) (to_camera_mount o) (to_target_mount o)
                     (he_target_mount_to_target r)) (correspondence_set o)) /\
  two_axes (motions_of (map iso_inv (proposals gens iso_id))) /\ length os = 3%nat.
Proof. exact ex_sim2. Qed.
Example C87_example_points :
  exists u solve cov gens p r,
  (forall P, In P (proposals gens iso_id) -> rigid P) /\
  h3_observations p = createObservations3D ex_board gens iso_id iso_id iso_id /\ plain_obs (h3_observations p) /\
  honest solve /\ optimize3D3D u solve cov p = Ok r /\
  rigid (he_camera_mount_to_camera r) /\ rigid (he_target_mount_to_target r) /\
  not_on_a_line (sim_points ex_board) /\
  two_axes (motions_of (map iso_inv (proposals gens iso_id))) /\ length (h3_observations p) = 3%nat.
Proof. exact ex_sim3. Qed.
