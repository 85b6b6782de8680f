(** C70: the tool that calibrates several static cameras (multi_static_camera_extrinsic). A rig is a list of cameras, each
    with pictures and the tool poses they were taken at (Spec/CameraSpec.v). Camera c is parameter block c, the target on the
    tool the block after them. *)
From Coq Require Import Reals Arith ZArith List.
From Verif.Base Require Import Geom Outcome.
From Verif.Model Require Import Pose Covariance Solver HandEye BlockSolver MultiCamera DataSet ExampleTools CameraTools.
From Verif.Spec Require Import Frames MultiSpec ToolSpec CameraSpec.
From Verif.Proofs Require Import HandEyeProofs SceneProofs CameraToolProofs RigToolProofs RigSceneProofs.
Import ListNotations.
Local Open Scope R_scope.

(** For every camera exactly the pictures in which it sees the target are used, with the tool poses of its own data set. The
    solver starts at the guesses, and what it makes small are the reprojection errors of these pictures. *)
Theorem C70_uses_pictures_with_target_partial :
  forall {image features} (v : vision image features) draw display umask runs rig n,
  orderly v -> rig <> [] -> even rig n ->
  forall u solve cov W0 r printed shown,
  (forall cam p, In cam rig -> In p (pics cam) -> plain_pose (snd p)) ->
  multiStaticTool v draw display umask runs u solve cov W0 (map input rig) = Ok (r, printed, shown) ->
  exists sels blocks m0 m s, Forall2 (fun cam sel => chosen (sees_shown v) (pics cam) sel) rig sels /\
    (forall m, (forall c, (c < List.length rig)%nat -> rigid (poseCalToEigen (read_pose m c))) ->
     map (fun b => rb_eval b m) blocks =
     flat_map (fun x => camera_errors (fst (fst x)) (snd x) (poseCalToEigen (read_pose m (List.length rig))) (snd (fst x)))
       (combine (combine (map intr_of rig) (map at_poses sels)) (map (fun c => iso_inv (poseCalToEigen (read_pose m c))) (seq 0 (List.length rig))))) /\
    solve blocks m0 = (m, s) /\
    read_pose m0 (List.length rig) = poseEigenToCal W0 /\
    (forall c cam, nth_error rig c = Some cam -> read_pose m0 c = poseEigenToCal (iso_inv (pose_of cam))) /\
    sr_converged r = term_convergence s /\
    sr_wrist_to_target r = poseCalToEigen (read_pose m (List.length rig)) /\
    sr_base_to_camera r = map (fun c => iso_inv (poseCalToEigen (read_pose m c))) (seq 0 (List.length rig)) /\
    sr_initial_cost_per_obs r = initial_cost s / INR (2 * List.length blocks) /\
    sr_final_cost_per_obs r = final_cost s / INR (2 * List.length blocks).
Proof. intros image features v draw display umask runs rig n. exact (static_calibrates v draw display umask runs rig n). Qed.
Print Assumptions C70_uses_pictures_with_target_partial.

(** It prints each camera in the base and in the first camera. *)
Theorem C70_prints_cameras :
  forall {image features} (v : vision image features) draw display umask runs rig n,
  orderly v -> rig <> [] -> even rig n ->
  forall u solve cov W0 r printed shown,
  multiStaticTool v draw display umask runs u solve cov W0 (map input rig) = Ok (r, printed, shown) ->
  exists C0 rest, sr_base_to_camera r = C0 :: rest /\
    printed = map (fun C => (C, iso_mul (iso_inv C0) C)) (sr_base_to_camera r).
Proof. intros image features v draw display umask runs rig n. exact (static_printed v draw display umask runs rig n). Qed.
Print Assumptions C70_prints_cameras.

(** It returns if every camera sees a point in some picture and the covariance can be computed. *)
Theorem C70_returns_partial :
  forall {image features} (v : vision image features) draw display umask runs,
  (forall img ps, exists img', draw img ps = Ok img') -> (forall img, display img = Ok tt) ->
  forall rig n, orderly v -> rig <> [] -> even rig n ->
  forall u solve cov W0,
  (forall cam, In cam rig -> exists p c cs, In p (pics cam) /\ sees_shown v p (c :: cs)) ->
  (forall bs, co_compute cov bs = true) -> (forall bs, co_get cov bs = true) ->
  (forall b i c j, co_cov cov b i c j = co_cov cov c j b i) ->
  exists r, multiStaticTool v draw display umask runs u solve cov W0 (map input rig) = Ok r.
Proof. intros image features. exact static_tool_returns. Qed.
Print Assumptions C70_returns_partial.

(** Full statement: a data set that cannot be loaded ends the three tools for several cameras with an error. Two of them throw,
    but this one uses the missing data set before it tests whether there is one. *)
Theorem C70_missing_data_set_refuted :
  forall {image features} (v : vision image features) draw display umask runs cameras,
  (exists c, In c cameras /\ cam_data c = None) ->
  (forall u solve cov W0, multiStaticTool v draw display umask runs u solve cov W0 cameras = UB) /\
  (forall solve solve_wrist fix_first W0, stepTool v draw display umask runs solve solve_wrist fix_first W0 cameras = Throw RuntimeError) /\
  multiPnpTool v draw display umask runs cameras = Throw RuntimeError.
Proof. intros image features. exact missing_data. Qed.
Print Assumptions C70_missing_data_set_refuted.

Example C70_applies : orderly sc_vision /\ sc_rig <> [] /\ even sc_rig 3 /\ (Z.of_nat (List.length sc_rig) < 2 ^ 32)%Z /\
  (forall cam, In cam sc_rig -> plain_pose (pose_of cam)) /\
  (forall cam p, In cam sc_rig -> In p (pics cam) -> plain_pose (snd p)) /\
  (forall cam, In cam sc_rig -> exists p c cs, In p (pics cam) /\ sees_shown sc_vision p (c :: cs)).
Proof. exact sc_rig_fits. Qed.
Example C70_runs : forall u solve W0 umask runs, exists r,
  multiStaticTool sc_vision sc_draw sc_display umask runs u solve ex_cov_oracle W0 (map input sc_rig) = Ok r.
Proof. intros u solve W0 umask runs. exact (proj1 (sc_tools_return u solve solve W0 true umask runs)). Qed.
