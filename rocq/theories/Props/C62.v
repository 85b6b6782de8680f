(** C62: what the hand-eye tools optimize and report. Ceres ([solve], [cov]), the pose estimations of the report
    ([runs]), drawing and the screen are arbitrary. [k] are the intrinsics, [tg] and [cg] the guesses. *)
From Coq Require Import Reals Arith List Permutation.
From Verif.Base Require Import Geom Outcome.
From Verif.Model Require Import Pose Covariance Solver HandEye Homography DataSet ExampleTools.
From Verif.Spec Require Import Frames PinHole ProjectionSpec ToolSpec.
From Verif.Spec Require ToolTextSpec.
From Verif.Proofs Require Import HandEyeProofs HomographyProofs IntrinsicValidationProofs HandEyeToolProofs SceneProofs.
From Verif.Proofs Require UniqueExamples ToolPageExamples.
Import ListNotations.
Local Open Scope R_scope.

(** Camera on the wrist: the residuals are the pixel errors of all correspondences of the usable images, the target standing
    still and the camera moving with the tool; wrist-to-camera and base-to-target are where the solver ended. *)
Theorem C62_camera_on_wrist :
  forall image features G v lu (seeded : nat -> G) uniform_int draw display u solve cov runs threshold k tg cg
    (ps : list (image * iso)) rep,
  @handEyeTool image features G on_wrist v lu seeded uniform_int draw display u solve cov runs threshold k tg cg
    (Some (data_of ps)) = Ok rep ->
  (forall p, In p ps -> plain_pose (snd p)) ->
  exists sel blocks xf s, chosen (usable v lu seeded uniform_int threshold) ps sel /\
    (forall x, rigid (poseCalToEigen (fst x)) -> map (fun f => f x) blocks =
     map (fun mc => pixel_error k (target_from_tool (fst mc) (iso_inv (poseCalToEigen (fst x))) (poseCalToEigen (snd x))) (snd mc))
         (seen_pairs sel)) /\
    solve blocks (poseEigenToCal (iso_inv cg), poseEigenToCal tg) = (xf, s) /\
    he_converged (rep_result rep) = term_convergence s /\
    he_target_mount_to_target (rep_result rep) = poseCalToEigen (snd xf) /\
    he_camera_mount_to_camera (rep_result rep) = iso_inv (poseCalToEigen (fst xf)) /\
    he_initial_cost_per_obs (rep_result rep) = initial_cost s / INR (2 * List.length (seen_pairs sel)) /\
    he_final_cost_per_obs (rep_result rep) = final_cost s / INR (2 * List.length (seen_pairs sel)).
Proof. exact (fun image features G => @tool_wrist image features G). Qed.
Print Assumptions C62_camera_on_wrist.

(** Static camera: the target moves with the tool. *)
Theorem C62_static_camera :
  forall image features G v lu (seeded : nat -> G) uniform_int draw display u solve cov runs threshold k tg cg
    (ps : list (image * iso)) rep,
  @handEyeTool image features G on_base v lu seeded uniform_int draw display u solve cov runs threshold k tg cg
    (Some (data_of ps)) = Ok rep ->
  (forall p, In p ps -> plain_pose (snd p)) ->
  exists sel blocks xf s, chosen (usable v lu seeded uniform_int threshold) ps sel /\
    (forall x, rigid (poseCalToEigen (fst x)) -> map (fun f => f x) blocks =
     map (fun mc => pixel_error k (target_from_base (fst mc) (iso_inv (poseCalToEigen (fst x))) (poseCalToEigen (snd x))) (snd mc))
         (seen_pairs sel)) /\
    solve blocks (poseEigenToCal (iso_inv cg), poseEigenToCal tg) = (xf, s) /\
    he_converged (rep_result rep) = term_convergence s /\
    he_target_mount_to_target (rep_result rep) = poseCalToEigen (snd xf) /\
    he_camera_mount_to_camera (rep_result rep) = iso_inv (poseCalToEigen (fst xf)) /\
    he_initial_cost_per_obs (rep_result rep) = initial_cost s / INR (2 * List.length (seen_pairs sel)) /\
    he_final_cost_per_obs (rep_result rep) = final_cost s / INR (2 * List.length (seen_pairs sel)).
Proof. exact (fun image features G => @tool_base image features G). Qed.
Print Assumptions C62_static_camera.

(** If every correspondence is where the camera sees it with the calibrated transforms, all reported errors are zero. *)
Theorem C62_perfect_camera_on_wrist :
  forall image features G v lu (seeded : nat -> G) uniform_int draw display u solve cov runs threshold k tg cg
    (ps : list (image * iso)) rep sel,
  fx k <> 0 -> fy k <> 0 -> chosen (usable v lu seeded uniform_int threshold) ps sel -> (forall p, In p ps -> rigid (snd p)) ->
  @handEyeTool image features G on_wrist v lu seeded uniform_int draw display u solve cov runs threshold k tg cg
    (Some (data_of ps)) = Ok rep ->
  let C := he_camera_mount_to_camera (rep_result rep) in let T := he_target_mount_to_target (rep_result rep) in
  rigid C -> rigid T ->
  (forall M c, In (M, c) (seen_pairs sel) ->
    let pose := target_from_tool M C T in vz (in_target c) = 0 /\ vz (iso_app pose (in_target c)) <> 0 /\
    crosses_plane pose (iso_app pose (in_target c)) /\ in_image c = pinhole k (iso_app pose (in_target c))) ->
  rep_errors rep = ErrorStats 0 (Some 0) 0 0.
Proof. exact (fun image features G => @tool_wrist_perfect image features G). Qed.
Print Assumptions C62_perfect_camera_on_wrist.

Theorem C62_perfect_static_camera :
  forall image features G v lu (seeded : nat -> G) uniform_int draw display u solve cov runs threshold k tg cg
    (ps : list (image * iso)) rep sel,
  fx k <> 0 -> fy k <> 0 -> chosen (usable v lu seeded uniform_int threshold) ps sel -> (forall p, In p ps -> rigid (snd p)) ->
  @handEyeTool image features G on_base v lu seeded uniform_int draw display u solve cov runs threshold k tg cg
    (Some (data_of ps)) = Ok rep ->
  let C := he_camera_mount_to_camera (rep_result rep) in let T := he_target_mount_to_target (rep_result rep) in
  rigid C -> rigid T ->
  (forall M c, In (M, c) (seen_pairs sel) ->
    let pose := target_from_base M C T in vz (in_target c) = 0 /\ vz (iso_app pose (in_target c)) <> 0 /\
    crosses_plane pose (iso_app pose (in_target c)) /\ in_image c = pinhole k (iso_app pose (in_target c))) ->
  rep_errors rep = ErrorStats 0 (Some 0) 0 0.
Proof. exact (fun image features G => @tool_base_perfect image features G). Qed.
Print Assumptions C62_perfect_static_camera.

(** Without a usable image, or without a data set, the tool ends with an error. *)
Theorem C62_no_usable_image :
  forall image features G v lu (seeded : nat -> G) uniform_int draw display u solve cov runs threshold k tg cg
    (ps : list (image * iso)) mount,
  in_bounds uniform_int -> (forall p, In p ps -> harmless v (fst p)) ->
  (forall p cs, In p ps -> ~ usable v lu seeded uniform_int threshold p cs) -> (forall l, Permutation l (co_order cov l)) ->
  @handEyeTool image features G mount v lu seeded uniform_int draw display u solve cov runs threshold k tg cg
    (Some (data_of ps)) = Throw CovarianceException.
Proof. exact (fun image features G => @tool_nothing image features G). Qed.
Print Assumptions C62_no_usable_image.

Theorem C62_no_data_set :
  forall image features G v lu (seeded : nat -> G) uniform_int draw display u solve cov runs threshold k tg cg mount,
  @handEyeTool image features G mount v lu seeded uniform_int draw display u solve cov runs threshold k tg cg None
  = Throw RuntimeError.
Proof. exact (fun image features G => @tool_no_data image features G). Qed.
Print Assumptions C62_no_data_set.

(** The tool runs on the scene of C61 with a solver that stays at the (right) guesses. *)
Example C62_scene : exists rep,
  handEyeTool on_wrist sc_vision (gauss 8) sc_seed sc_uniform (fun img _ => Ok img) (fun _ => Ok tt)
    (fun _ _ => 0) sc_stay ex_cov_oracle (fun _ => ex_run) 0 sc_intr sc_target iso_id (Some (data_of sc_data)) = Ok rep /\
  rep_errors rep = ErrorStats 0 (Some 0) 0 0.
Proof. exact sc_tool. Qed.

(** So does the tool for a static camera, on three pictures of a target that the tool carries. *)
Example C62_static_scene : exists rep,
  handEyeTool on_base sc_vision (gauss 8) sc_seed sc_uniform (fun img _ => Ok img) (fun _ => Ok tt)
    (fun _ _ => 0) UniqueExamples.sc_stay ex_cov_oracle (fun _ => ex_run) 0 sc_intr sc_target iso_id (Some (data_of ToolPageExamples.pg_data)) = Ok rep /\
  ToolTextSpec.ordinary_report rep.
Proof. exact (ToolPageExamples.pg_base (fun _ _ => 0)). Qed.

(** Pictures without a target *)
Example C62_blind : in_bounds sc_uniform /\ (forall p, In p ToolPageExamples.pg_blind -> harmless sc_vision (fst p)) /\
  (forall p cs, In p ToolPageExamples.pg_blind -> ~ usable sc_vision (gauss 8) sc_seed sc_uniform 0 p cs) /\ (forall l, Permutation l (co_order ex_cov_oracle l)).
Proof. exact ToolPageExamples.pg_nothing. Qed.
