(** C72: the reprojections that the tools for several cameras show. [reprojected run T img cams r] (Spec/CameraSpec.v) says that
    r shows the target points as the first of [cams] sees them with a target at T, on the picture img, before and after a pose
    estimation that uses all of [cams]. *)
From Coq Require Import Reals Arith ZArith List.
From Verif.Base Require Import Geom Outcome.
From Verif.Model Require Import Pose Covariance Solver HandEye BlockSolver MultiCamera DataSet ExampleTools CameraTools.
From Verif.Spec Require Import Frames MultiSpec ToolSpec CameraSpec.
From Verif.Proofs Require Import HandEyeProofs SceneProofs CameraToolProofs RigToolProofs RigSceneProofs.
Import ListNotations.
Local Open Scope R_scope.

(** multi_static_camera_extrinsic: every image that two or more cameras see is shown. The target is where the first camera's data
    set says the tool was, and the picture is that of the first camera that sees the target. *)
Theorem C72_static_tool_shows :
  forall {image features} (v : vision image features) draw display umask runs rig n,
  orderly v -> rig <> [] -> even rig n ->
  forall u solve cov W0 r printed shown,
  multiStaticTool v draw display umask runs u solve cov W0 (map input rig) = Ok (r, printed, shown) ->
  exists sel, chosen (fun i seen => (2 <= List.length seen)%nat /\ seeing v rig (sr_base_to_camera r) i seen) (seq 0 n) sel /\
    Forall2 (fun x y => fst y = fst x /\ exists T s rest p, first_pose rig (fst x) T /\ snd x = s :: rest /\
      nth_error (pics (fst (fst s))) (fst x) = Some p /\
      reprojected (runs (fst x)) (iso_mul T (sr_wrist_to_target r)) (fst p)
        (map (fun s => (intr_of (fst (fst s)), snd (fst s), snd s)) (snd x)) (snd y)) sel shown.
Proof. intros image features v draw display umask runs rig n. exact (static_shows v draw display umask runs rig n). Qed.
Print Assumptions C72_static_tool_shows.

(** solve_multi_camera_pnp: every image that all cameras see is shown, on the first camera's picture. The estimation starts with
    the target at the tool pose. *)
Theorem C72_pnp_tool_shows :
  forall {image features} (v : vision image features) draw display umask runs rig n,
  orderly v -> rig <> [] -> even rig n -> (Z.of_nat (List.length rig) < 2 ^ 32)%Z ->
  forall shown, multiPnpTool v draw display umask runs (map input rig) = Ok shown ->
  exists kept, chosen (common v rig) (seq 0 n) kept /\
    Forall2 (fun k y => fst y = fst k /\ exists img, first_picture rig (fst k) img /\
      reprojected (runs (fst k)) (fst (snd k)) img (combine (combine (map intr_of rig) (map pose_of rig)) (snd (snd k))) (snd y)) kept shown.
Proof. intros image features v draw display umask runs rig n. exact (pnp_shows v draw display umask runs rig n). Qed.
Print Assumptions C72_pnp_tool_shows.

(** Full statement: the multi-step tool shows every image that all cameras see on the picture it was found in. It does not: it
    shows the picture whose number is the position among the used images. *)
Theorem C72_step_tool_shows_refuted :
  exists (rig : list (camera (option iso))) kept, orderly sc_vision /\ even rig 3 /\
  chosen (common sc_vision rig) (seq 0 3) kept /\
  forall umask runs solve solve_wrist fix_first W, exists o printed w printed' shown,
  stepTool sc_vision sc_draw sc_display umask runs solve solve_wrist fix_first W (map input rig) = Ok (o, printed, w, printed', shown) /\
  exists k r img, kept = [k] /\ shown = [r] /\ first_picture rig (fst k) img /\ rj_image r <> img.
Proof. exact step_wrong_picture. Qed.
Print Assumptions C72_step_tool_shows_refuted.

Theorem C72_step_tool_shows_partial :
  forall {image features} (v : vision image features) draw display umask runs rig n,
  orderly v -> rig <> [] -> even rig n -> (Z.of_nat (List.length rig) < 2 ^ 32)%Z ->
  forall solve solve_wrist fix_first W o printed w printed' shown,
  stepTool v draw display umask runs solve solve_wrist fix_first W (map input rig) = Ok (o, printed, w, printed', shown) ->
  exists kept, chosen (common v rig) (seq 0 n) kept /\
    Forall2 (fun x r => exists img, first_picture rig (fst x) img /\
      reprojected (runs (fst x)) (iso_mul (fst (snd (snd x))) (wr_wrist_to_target w)) img
        (combine (combine (map intr_of rig) (wr_base_to_camera w)) (snd (snd (snd x)))) r)
      (combine (seq 0 (List.length kept)) kept) shown.
Proof. intros image features v draw display umask runs rig n. exact (step_shows v draw display umask runs rig n). Qed.
Print Assumptions C72_step_tool_shows_partial.

Example C72_run : forall u solve solve_wrist W0 fix_first umask runs,
  (exists r, multiStaticTool sc_vision sc_draw sc_display umask runs u solve ex_cov_oracle W0 (map input sc_rig) = Ok r) /\
  (exists r, stepTool sc_vision sc_draw sc_display umask runs solve solve_wrist fix_first W0 (map input sc_rig) = Ok r) /\
  (exists r, multiPnpTool sc_vision sc_draw sc_display umask runs (map input sc_rig) = Ok r).
Proof. exact sc_tools_return. Qed.
