(** C71: the tool that calibrates several static cameras in two steps (multi_static_camera_multi_step_extrinsic). In the first
    step, camera c is parameter block c and the target of the i-th used image the i-th block after them. *)
From Coq Require Import Reals Arith ZArith List.
From Verif.Base Require Import Geom Outcome.
From Verif.Model Require Import Pose Covariance Solver HandEye BlockSolver MultiCamera DataSet ExampleTools CameraTools.
From Verif.Spec Require Import Frames MultiSpec ToolSpec CameraSpec.
From Verif.Proofs Require Import HandEyeProofs SceneProofs CameraToolProofs RigToolProofs RigSceneProofs.
Import ListNotations.
Local Open Scope R_scope.

(** The images all cameras see are used, and no others. The first step finds cameras and target poses, starting at the camera
    guesses and at tool pose times wrist guess, and leaves the first camera where it is if asked to. The second step moves all
    cameras by one common transform and finds the target on the tool. In both, the errors are the reprojection errors of the
    used images. *)
Theorem C71_uses_common_images_partial :
  forall {image features} (v : vision image features) draw display umask runs rig n,
  orderly v -> rig <> [] -> even rig n -> (Z.of_nat (List.length rig) < 2 ^ 32)%Z ->
  forall solve solve_wrist fix_first W o printed w printed' shown,
  leaves_others solve ->
  (forall cam, In cam rig -> plain_pose (pose_of cam)) ->
  (forall cam p, In cam rig -> In p (pics cam) -> plain_pose (snd p)) ->
  stepTool v draw display umask runs solve solve_wrist fix_first W (map input rig) = Ok (o, printed, w, printed', shown) ->
  exists kept, chosen (common v rig) (seq 0 n) kept /\
  (kept <> [] -> exists blocks m0 m s,
    (forall m, (forall c, (c < List.length rig)%nat -> rigid (poseCalToEigen (read_pose m c))) ->
     map (fun b => rb_eval b m) blocks =
     let Cs := map (fun c => if andb fix_first (Nat.eqb c 0) then nth c (map pose_of rig) iso_id else iso_inv (poseCalToEigen (read_pose m c)))
       (seq 0 (List.length rig)) in
     let Ts := map (fun i => poseCalToEigen (read_pose m (List.length rig + i)%nat)) (seq 0 (List.length kept)) in
     flat_map (fun i => flat_map (fun c =>
         map (seen_error (nth c (map intr_of rig) intr0) (iso_mul (iso_inv (nth c Cs iso_id)) (nth i Ts iso_id)))
           (snd (nth i (of_nth c kept) (iso_id, []))))
       (seq 0 (List.length rig))) (seq 0 (List.length kept))) /\
    solve blocks m0 = (m, s) /\
    (forall c cam, nth_error rig c = Some cam -> read_pose m0 c = poseEigenToCal (iso_inv (pose_of cam))) /\
    (forall i k, nth_error kept i = Some k -> read_pose m0 (List.length rig + i) = poseEigenToCal (iso_mul (fst (snd k)) W)) /\
    or_converged o = term_convergence s /\
    or_base_to_target o = map (fun i => poseCalToEigen (read_pose m (List.length rig + i)%nat)) (seq 0 (List.length kept)) /\
    or_base_to_camera o = map (fun c => iso_inv (poseCalToEigen (read_pose m c))) (seq 0 (List.length rig)) /\
    (fix_first = true -> forall cam, nth_error rig 0 = Some cam -> nth_error (or_base_to_camera o) 0 = Some (pose_of cam)) /\
    or_initial_cost_per_obs o = initial_cost s / INR (2 * List.length blocks) /\
    or_final_cost_per_obs o = final_cost s / INR (2 * List.length blocks)) /\
  ((forall C, In C (or_base_to_camera o) -> plain_pose C) -> exists blocks m0 m s,
    (forall m, rigid (poseCalToEigen (read_pose m key_correction)) ->
     map (fun b => rb_eval b m) blocks =
     flat_map (fun c => camera_errors (nth c (map intr_of rig) intr0)
         (iso_mul (iso_inv (poseCalToEigen (read_pose m key_correction))) (nth c (or_base_to_camera o) iso_id))
         (poseCalToEigen (read_pose m key_wrist_target)) (of_nth c kept))
       (seq 0 (List.length rig))) /\
    solve_wrist blocks m0 = (m, s) /\
    (poseCalToEigen (read_pose m0 key_correction) = iso_id /\ read_pose m0 key_wrist_target = poseEigenToCal W) /\
    wr_converged w = term_convergence s /\
    wr_wrist_to_target w = poseCalToEigen (read_pose m key_wrist_target) /\
    wr_base_to_camera w = map (iso_mul (iso_inv (poseCalToEigen (read_pose m key_correction)))) (or_base_to_camera o) /\
    wr_initial_cost_per_obs w = initial_cost s / INR (2 * List.length blocks) /\
    wr_final_cost_per_obs w = final_cost s / INR (2 * List.length blocks)).
Proof. intros image features v draw display umask runs rig n. exact (step_calibrates v draw display umask runs rig n). Qed.
Print Assumptions C71_uses_common_images_partial.

(** Both steps print the same poses of the cameras relative to the first one. *)
Theorem C71_second_step_keeps_relative_poses :
  forall {image features} (v : vision image features) draw display umask runs rig n,
  orderly v -> rig <> [] -> even rig n -> (Z.of_nat (List.length rig) < 2 ^ 32)%Z ->
  forall solve solve_wrist fix_first W o printed w printed' shown,
  stepTool v draw display umask runs solve solve_wrist fix_first W (map input rig) = Ok (o, printed, w, printed', shown) ->
  (exists C0 rest D0 rest', or_base_to_camera o = C0 :: rest /\ wr_base_to_camera w = D0 :: rest' /\
    printed = map (fun C => (C, iso_mul (iso_inv C0) C)) (or_base_to_camera o) /\
    printed' = map (fun D => (D, iso_mul (iso_inv D0) D)) (wr_base_to_camera w)) /\
  ((forall C, In C (wr_base_to_camera w) -> rigid C) -> (forall C, In C (or_base_to_camera o) -> rigid C) ->
   map snd printed' = map snd printed).
Proof. intros image features v draw display umask runs rig n. exact (step_both_printed v draw display umask runs rig n). Qed.
Print Assumptions C71_second_step_keeps_relative_poses.

(** Full statement: if no image is seen by all cameras, the tool ends with an error. It does not: it prints every camera at the
    base, even a first camera that was to stay at its guess. *)
Theorem C71_no_common_image_refuted :
  exists (rig : list (camera (option iso))) cam, orderly sc_vision /\ even rig 1 /\ nth_error rig 0 = Some cam /\
  plain_pose (pose_of cam) /\ (forall i css, ~ all_see sc_vision rig i css) /\
  forall umask runs solve solve_wrist W, leaves_others solve -> exists o printed w printed' shown,
  stepTool sc_vision sc_draw sc_display umask runs solve solve_wrist true W (map input rig) = Ok (o, printed, w, printed', shown) /\
  or_base_to_camera o = [iso_id] /\ pose_of cam <> iso_id.
Proof. exact step_dark. Qed.
Print Assumptions C71_no_common_image_refuted.

Theorem C71_no_common_image :
  forall {image features} (v : vision image features) draw display umask runs rig n,
  orderly v -> rig <> [] -> even rig n -> (Z.of_nat (List.length rig) < 2 ^ 32)%Z ->
  forall solve solve_wrist fix_first W o printed w printed' shown, leaves_others solve ->
  (forall i css, ~ all_see v rig i css) ->
  stepTool v draw display umask runs solve solve_wrist fix_first W (map input rig) = Ok (o, printed, w, printed', shown) ->
  or_base_to_camera o = repeat iso_id (List.length rig).
Proof. intros image features v draw display umask runs rig n. exact (step_no_images v draw display umask runs rig n). Qed.
Print Assumptions C71_no_common_image.

(** It always returns. *)
Theorem C71_returns :
  forall {image features} (v : vision image features) draw display umask runs,
  (forall img ps, exists img', draw img ps = Ok img') -> (forall img, display img = Ok tt) ->
  forall rig n, orderly v -> rig <> [] -> even rig n -> (Z.of_nat (List.length rig) < 2 ^ 32)%Z ->
  forall solve solve_wrist fix_first W,
  exists r, stepTool v draw display umask runs solve solve_wrist fix_first W (map input rig) = Ok r.
Proof. intros image features. exact step_tool_returns. Qed.
Print Assumptions C71_returns.

Example C71_applies : orderly sc_vision /\ sc_rig <> [] /\ even sc_rig 3 /\ (Z.of_nat (List.length sc_rig) < 2 ^ 32)%Z /\
  (forall cam, In cam sc_rig -> plain_pose (pose_of cam)) /\
  (forall cam p, In cam sc_rig -> In p (pics cam) -> plain_pose (snd p)) /\
  (forall cam, In cam sc_rig -> exists p c cs, In p (pics cam) /\ sees_shown sc_vision p (c :: cs)).
Proof. exact sc_rig_fits. Qed.
(** One of its three images is seen by both cameras. *)
Example C71_one_common_image : chosen (common sc_vision sc_rig) (seq 0 3) sc_kept /\ List.length sc_kept = 1%nat.
Proof. exact (conj sc_common eq_refl). Qed.
