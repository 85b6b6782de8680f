(** C113: the text a tool prints. [page_of text page] says that the lines of the text are the blocks of the page, one below the other
    (Spec/ToolTextSpec.v); [shows] says that a number can be read to six digits (Spec/PrintTextSpec.v). [to_string_f] is what
    std::to_string makes of a double, [nan] what the stream makes of 0/0 and [std_sort] is std::sort. *)
From Coq Require Import Reals ZArith Ascii String List.
From Verif.Base Require Import Geom Outcome Matrix.
From Verif.Model Require Import Pose Covariance Solver HandEye Pnp BlockSolver MultiCamera Intrinsic Homography IntrinsicValidation DataSet ExampleTools CameraTools CvTools CovReport ParamText Print PrintText ToolText.
From Verif.Spec Require Import Frames CovarianceSpec PinHole ProjectionSpec CorrDataSpec TextSpec ParamTextSpec YamlSpec PrintSpec MultiSpec UniqueSpec ToolSpec CameraSpec PnpSpec IntrinsicSpec PrintTextSpec ToolTextSpec.
From Verif.Proofs Require ToolPageProofs RigPageProofs CvPageProofs PageExamples ToolPageExamples UniqueExamples SceneProofs HandEyeProofs HomographyProofs RigSceneProofs IntrinsicValidationProofs UniqueMultiExamples IntrinsicProofs PrintTextProofs CovarianceProofs.
Import ListNotations.
Local Open Scope string_scope.

(** camera_on_wrist_extrinsic prints, one below the other, costs, errors, both poses, correlations and differences. The final cost is that of the printed poses over the pictures that were used. *)
Theorem C113_wrist_page :
  forall (image features G : Type) (v : vision image features) (lu : lu_solver) (seeded : nat -> G) (uniform_int : nat -> nat -> G -> nat * G)
    (draw : image -> list vec2 -> res image) (display : image -> res unit) (u : nat -> nat -> R) (solve : solver he_vars) (cov : cov_oracle) (runs : nat -> pnp_run)
    (threshold : R) (k : intrinsics) (tg cg : iso) (ps : list (image * iso))
    (to_string_f : R -> string) (nan : string) (std_sort : (named_param -> named_param -> bool) -> list named_param -> list named_param),
  (forall x, one_line (to_string_f x)) -> one_line nan -> sort_contract std_sort ->
  forall rep,
  handEyeTool on_wrist v lu seeded uniform_int draw display u solve cov runs threshold k tg cg (Some (data_of ps)) = Ok rep -> (forall p, In p ps -> plain_pose (snd p)) -> honest solve -> ordinary_report rep ->
    exists sel, chosen (ToolSpec.usable v lu seeded uniform_int threshold) ps sel /\
    page_of (wristText to_string_f nan std_sort rep)
      [results_block (he_converged (rep_result rep)) (he_initial_cost_per_obs (rep_result rep)) (he_final_cost_per_obs (rep_result rep)); blank_line; errors_block nan (rep_errors rep); blank_line;
       transform_block "WRIST TO CAMERA" "Wrist" "Camera" (he_camera_mount_to_camera (rep_result rep)); blank_line; transform_block "BASE TO TARGET" "Base" "Target" (he_target_mount_to_target (rep_result rep)); blank_line;
       correlations_block (to_string_f (5 / 10)%R) (he_covariance (rep_result rep)); differences_block (rep_differences rep)] /\
    he_final_cost_per_obs (rep_result rep) = (half_squares (flat_map (fun mc => ToolSpec.pixel_error k (target_from_tool (fst mc) (he_camera_mount_to_camera (rep_result rep)) (he_target_mount_to_target (rep_result rep))) (snd mc)) (seen_pairs sel)) / INR (2 * List.length (seen_pairs sel)))%R.
Proof. exact @ToolPageProofs.wrist_page. Qed.
Print Assumptions C113_wrist_page.

(** Three pictures, one of them without the target: the tool goes through and its numbers are ordinary. *)
Example C113_wrist_case :
  forall u,
  exists rep, handEyeTool on_wrist SceneProofs.sc_vision (HomographyProofs.gauss 8) SceneProofs.sc_seed SceneProofs.sc_uniform (fun img _ => Ok img) (fun _ => Ok tt)
    u UniqueExamples.sc_stay HandEyeProofs.ex_cov_oracle (fun _ => IntrinsicValidationProofs.ex_run) 0 SceneProofs.sc_intr SceneProofs.sc_target iso_id (Some (data_of SceneProofs.sc_data)) = Ok rep /\ ordinary_report rep.
Proof. exact ToolPageExamples.pg_wrist. Qed.

(** static_camera_extrinsic: the same with the camera on the base and the target on the wrist. *)
Theorem C113_static_page :
  forall (image features G : Type) (v : vision image features) (lu : lu_solver) (seeded : nat -> G) (uniform_int : nat -> nat -> G -> nat * G)
    (draw : image -> list vec2 -> res image) (display : image -> res unit) (u : nat -> nat -> R) (solve : solver he_vars) (cov : cov_oracle) (runs : nat -> pnp_run)
    (threshold : R) (k : intrinsics) (tg cg : iso) (ps : list (image * iso))
    (to_string_f : R -> string) (nan : string) (std_sort : (named_param -> named_param -> bool) -> list named_param -> list named_param),
  (forall x, one_line (to_string_f x)) -> one_line nan -> sort_contract std_sort ->
  forall rep,
  handEyeTool on_base v lu seeded uniform_int draw display u solve cov runs threshold k tg cg (Some (data_of ps)) = Ok rep -> (forall p, In p ps -> plain_pose (snd p)) -> honest solve -> ordinary_report rep ->
    exists sel, chosen (ToolSpec.usable v lu seeded uniform_int threshold) ps sel /\
    page_of (staticText to_string_f nan std_sort rep)
      [results_block (he_converged (rep_result rep)) (he_initial_cost_per_obs (rep_result rep)) (he_final_cost_per_obs (rep_result rep)); blank_line; errors_block nan (rep_errors rep); blank_line;
       transform_block "BASE TO CAMERA" "Base" "Camera" (he_camera_mount_to_camera (rep_result rep)); blank_line; transform_block "WRIST_TO_TARGET" "Wrist" "Target" (he_target_mount_to_target (rep_result rep)); blank_line;
       correlations_block (to_string_f (5 / 10)%R) (he_covariance (rep_result rep)); differences_block (rep_differences rep)] /\
    he_final_cost_per_obs (rep_result rep) = (half_squares (flat_map (fun mc => ToolSpec.pixel_error k (target_from_base (fst mc) (he_camera_mount_to_camera (rep_result rep)) (he_target_mount_to_target (rep_result rep))) (snd mc)) (seen_pairs sel)) / INR (2 * List.length (seen_pairs sel)))%R.
Proof. exact @ToolPageProofs.base_page. Qed.
Print Assumptions C113_static_page.

(** The same for a camera that stands still. *)
Example C113_static_case :
  forall u,
  exists rep, handEyeTool on_base SceneProofs.sc_vision (HomographyProofs.gauss 8) SceneProofs.sc_seed SceneProofs.sc_uniform (fun img _ => Ok img) (fun _ => Ok tt)
    u UniqueExamples.sc_stay HandEyeProofs.ex_cov_oracle (fun _ => IntrinsicValidationProofs.ex_run) 0 SceneProofs.sc_intr SceneProofs.sc_target iso_id (Some (data_of ToolPageExamples.pg_data)) = Ok rep /\ ordinary_report rep.
Proof. exact ToolPageExamples.pg_base. Qed.

(** The example. *)
Theorem C113_example_page :
  forall r,
  ordinary_result r -> page_of (exampleText r)
  [results_block (he_converged r) (he_initial_cost_per_obs r) (he_final_cost_per_obs r); blank_line;
   transform_block "WRIST TO CAMERA" "Wrist" "Camera" (he_camera_mount_to_camera r); blank_line;
   transform_block "BASE TO TARGET" "Base" "Target" (he_target_mount_to_target r); blank_line].
Proof. exact @CvPageProofs.example_page. Qed.
Print Assumptions C113_example_page.

(** solve_pnp: the camera, the pose OpenCV finds and the one that is optimized. *)
Theorem C113_solve_pnp_page :
  forall (image features : Type) (v : vision image features) cv u solve cov k img T r,
  solvePnpTool v cv u solve cov k img = Ok (T, r) -> honest solve ->
  ordinary_camera k -> ordinary_pose T -> ordinary_cost (pnp_initial_cost_per_obs r) -> ordinary_cost (pnp_final_cost_per_obs r) -> ordinary_pose (pnp_camera_to_target r) ->
  exists cs, sees v img cs /\ solveCVPnP cv k cs = Ok T /\
    page_of (pnpText k T r)
      [camera_block "Camera Intrinsics" k; blank_line; transform_block "OpenCV solvePNP" "Camera" "Target" T; blank_line;
       results_block (pnp_converged r) (pnp_initial_cost_per_obs r) (pnp_final_cost_per_obs r); blank_line;
       transform_block "RCT CAMERA TO TARGET" "Camera" "Target" (pnp_camera_to_target r); blank_line] /\
    ((forall c, In c cs -> in_front (iso_app (pnp_camera_to_target r) (in_target c))) ->
     pnp_final_cost_per_obs r = half_squares (flat_map (PnpSpec.pixel_error k (pnp_camera_to_target r)) cs) / INR (2 * List.length cs))%R.
Proof. exact @CvPageProofs.pnp_page. Qed.
Print Assumptions C113_solve_pnp_page.

(** A picture of eight points. *)
Example C113_solve_pnp_case :
  forall u,
  exists T r,
  solvePnpTool SceneProofs.sc_vision (fun _ _ _ => Ok (true, (V3 0 0 0, V3 0 0 1))) u (ToolPageExamples.pg_goes SceneProofs.sc_target) HandEyeProofs.ex_cov_oracle SceneProofs.sc_intr (Some iso_id) = Ok (T, r) /\
  ordinary_camera SceneProofs.sc_intr /\ ordinary_pose T /\ ordinary_cost (pnp_initial_cost_per_obs r) /\ ordinary_cost (pnp_final_cost_per_obs r) /\ ordinary_pose (pnp_camera_to_target r) /\
  (forall cs, sees SceneProofs.sc_vision (Some iso_id) cs -> forall c, In c cs -> in_front (iso_app (pnp_camera_to_target r) (in_target c))).
Proof. exact ToolPageExamples.pg_solve_pnp. Qed.

(** intrinsic_calibration: what OpenCV finds, then costs, camera, lens and correlations. On reaching its end it has found the target in every picture it used, and writes no line about failures. *)
Theorem C113_intrinsic_page :
  forall (image features size : Type) (v : vision image features) (size_of : image -> size) (cal : calibrate_camera size) (u : nat -> nat -> R)
    (psolve : pnp_solvers) (pcov : pnp_covs) (solve : block_solver) (cov : cov_oracle) (k : intrinsics) (images : list image) (poses : list iso)
    (to_string_f : R -> string) (std_sort : (named_param -> named_param -> bool) -> list named_param -> list named_param),
  (forall x, one_line (to_string_f x)) -> sort_contract std_sort ->
  forall cv r,
  intrinsicTool v size_of cal u psolve pcov solve cov k (Some (DS images poses)) = Ok (cv, r) -> honest_blocks solve ->
    ordinary_camera (fst cv) -> Forall ordinary_number (snd cv) -> ordinary_cost (ir_initial_cost_per_obs r) -> ordinary_cost (ir_final_cost_per_obs r) ->
    ordinary_camera (ir_intrinsics r) -> Forall ordinary_number (ir_distortions r) ->
    exists sel first rest K ds c1 c2 c3 c4 c5 lens, chosen (sees v) images sel /\ images = first :: rest /\
      cal (map (map in_target) (map snd sel)) (map (map in_image) (map snd sel)) (size_of first) (camera_matrix k) = Ok (K, ds) /\ firstn 5 ds = [c1; c2; c3; c4; c5] /\
      let p := IP (map snd sel) k "pose" in
      (forall failed, (forall i, In i failed -> (i < List.length sel)%nat /\ not_located u psolve pcov p i) ->
        page_of (intrinsicText to_string_f std_sort cv failed r)
          [title_block "OpenCV Calibration"; camera_block "OpenCV Intrinsics" (Intr (m00 K) (m11 K) (m02 K) (m12 K)); blank_line;
           lens_block "OpenCV Distortion" c1 c2 c3 c4 c5; blank_line;
           title_block "Calibration Complete"; results_block (ir_converged r) (ir_initial_cost_per_obs r) (ir_final_cost_per_obs r); blank_line;
           camera_block "RCT Intrinsics" (ir_intrinsics r); blank_line;
           lens_block "RCT Distortion" (d_k1 lens) (d_k2 lens) (d_p1 lens) (d_p2 lens) (d_k3 lens); blank_line;
           correlations_block (to_string_f (5 / 10)%R) (ir_covariance r)]) /\
      exists Ts : nat -> iso, let views := image_views p (seq 0 (List.length sel)) in
        (forall i x, In (i, x) views -> vz (iso_app (Ts i) (in_target x)) <> 0%R) ->
        ir_final_cost_per_obs r = (half_squares (flat_map (fun x => lens_error (ir_intrinsics r) lens (Ts (fst x)) (snd x)) views) / INR (2 * List.length views))%R.
Proof. exact @CvPageProofs.intrinsic_page. Qed.
Print Assumptions C113_intrinsic_page.

(** Pictures of such points. *)
Example C113_intrinsic_case :
  forall u,
  exists cv r,
  intrinsicTool ToolPageExamples.pg_eyes (fun _ => tt) ToolPageExamples.pg_cv u IntrinsicProofs.ex_solves (fun _ => HandEyeProofs.ex_cov_oracle) ToolPageExamples.pg_finds HandEyeProofs.ex_cov_oracle (Intr 450 450 300 200) (Some (DS ToolPageExamples.pg_pictures2 [])) = Ok (cv, r) /\
  ordinary_camera (fst cv) /\ Forall ordinary_number (snd cv) /\ ordinary_cost (ir_initial_cost_per_obs r) /\ ordinary_cost (ir_final_cost_per_obs r) /\
  ordinary_camera (ir_intrinsics r) /\ Forall ordinary_number (ir_distortions r).
Proof. exact ToolPageExamples.pg_intrinsic. Qed.

(** multi_camera_pnp: for every image that all cameras see, under its number, the estimate next to the pose in the file. *)
Theorem C113_multi_pnp_page :
  forall (image features : Type) (v : vision image features) (draw : image -> list vec2 -> res image) (display : image -> res unit)
    (umask : nat -> nat -> nat) (runs : nat -> block_solver) (rig : list (camera image)) (n : nat),
  orderly v -> rig <> [] -> even rig n ->
  forall shown cam0,
  (Z.of_nat (List.length rig) < 2 ^ 32)%Z -> nth_error rig 0 = Some cam0 ->
    multiPnpTool v draw display umask runs (map input rig) = Ok shown ->
    (forall p, In p (pics cam0) -> ordinary_pose (snd p)) -> (forall y, In y shown -> ordinary_estimate (rj_pnp (snd y))) ->
    exists kept pages, chosen (common v rig) (seq 0 n) kept /\
      page_of (multiPnpText (data_of (pics cam0)) shown) (concat pages) /\
      Forall2 (fun x page => let '(i, (T, css)) := x in exists e,
        optimizeMpnp (runs i) (MP (map intr_of rig) (map pose_of rig) css T) = Ok e /\ page = pnp_image_blocks i e T (mr_base_to_target e)) kept pages.
Proof. exact @RigPageProofs.multi_pnp_page. Qed.
Print Assumptions C113_multi_pnp_page.

(** Three cameras and two images, of which one camera sees only one. *)
Example C113_multi_pnp_case :
  forall umask,
  exists shown,
  multiPnpTool SceneProofs.sc_vision RigSceneProofs.sc_draw RigSceneProofs.sc_display umask (fun _ => PageExamples.pg_run) (map input PageExamples.pg_rig) = Ok shown /\ shown <> [] /\
  (forall cam p, In cam PageExamples.pg_rig -> In p (pics cam) -> ordinary_pose (snd p)) /\ (forall y, In y shown -> ordinary_estimate (rj_pnp (snd y))).
Proof. exact PageExamples.pg_pnp. Qed.

(** multi_static_camera_extrinsic: the pose printed as "CAMERA 0 TO TARGET" is not always that of the target in camera 0. *)
Theorem C113_camera_0_to_target_refuted :
  exists u umask runs solve cov W0 (rig : list (camera (option iso))) r printed shown,
  orderly SceneProofs.sc_vision /\ rig <> [] /\ even rig 2 /\ (forall cam p, In cam rig -> In p (pics cam) -> plain_pose (snd p)) /\
  multiStaticTool SceneProofs.sc_vision RigSceneProofs.sc_draw RigSceneProofs.sc_display umask runs u solve cov W0 (map input rig) = Ok (r, printed, shown) /\ honest_blocks solve /\
  exists before after e X Y C0 rest T, page_of (multiText r printed shown) (before ++ static_image_blocks 0 e X Y ++ after) /\
    sr_base_to_camera r = C0 :: rest /\ first_pose rig 0 T /\
    norm (vsub (tr X) (tr (iso_mul (iso_inv C0) (iso_mul T (sr_wrist_to_target r))))) = 1%R.
Proof. exact @PageExamples.pg_static_label. Qed.
Print Assumptions C113_camera_0_to_target_refuted.

(** It is the pose in the first camera that sees the image. The rest of the page is as it says. Missing: that this camera is camera 0. *)
Theorem C113_static_rig_page_partial :
  forall (image features : Type) (v : vision image features) (draw : image -> list vec2 -> res image) (display : image -> res unit)
    (umask : nat -> nat -> nat) (runs : nat -> block_solver) (rig : list (camera image)) (n : nat),
  orderly v -> rig <> [] -> even rig n ->
  forall u solve cov W0 r printed shown,
  (forall cam p, In cam rig -> In p (pics cam) -> plain_pose (snd p)) ->
    multiStaticTool v draw display umask runs u solve cov W0 (map input rig) = Ok (r, printed, shown) ->
    honest_blocks solve -> ordinary_cost (sr_initial_cost_per_obs r) -> ordinary_cost (sr_final_cost_per_obs r) ->
    ordinary_pose (sr_wrist_to_target r) -> ordinary_cameras (sr_base_to_camera r) -> (forall y, In y shown -> ordinary_reprojection (snd y)) ->
    exists sels images pages C0 rest, Forall2 (fun cam sel => chosen (sees_shown v) (pics cam) sel) rig sels /\
      chosen (fun i seen => (2 <= List.length seen)%nat /\ seeing v rig (sr_base_to_camera r) i seen) (seq 0 n) images /\
      sr_base_to_camera r = C0 :: rest /\
      page_of (multiText r printed shown)
        ([results_block (sr_converged r) (sr_initial_cost_per_obs r) (sr_final_cost_per_obs r); blank_line;
          transform_block "WRIST TO TARGET" "Wrist" "Target" (sr_wrist_to_target r); blank_line] ++
         flat_map (static_camera_blocks C0) (with_number (sr_base_to_camera r)) ++ [title_block "REPROJECTION ERROR"] ++ concat pages)%list /\
      Forall2 (fun x page => exists T s others e, first_pose rig (fst x) T /\ snd x = s :: others /\
        let C := snd (fst s) in
        optimizeMpnp (runs (fst x)) (MP (map (fun s => intr_of (fst (fst s))) (snd x)) (map (fun s => snd (fst s)) (snd x)) (map snd (snd x)) (iso_mul T (sr_wrist_to_target r))) = Ok e /\
        page = static_image_blocks (fst x) e (iso_mul (iso_inv C) (iso_mul T (sr_wrist_to_target r))) (iso_mul (iso_inv C) (mr_base_to_target e))) images pages /\
      let errors := flat_map (fun x => camera_errors (fst (fst x)) (snd x) (sr_wrist_to_target r) (snd (fst x))) (combine (combine (map intr_of rig) (map at_poses sels)) (sr_base_to_camera r)) in
      sr_final_cost_per_obs r = (half_squares (concat errors) / INR (2 * List.length errors))%R.
Proof. exact @RigPageProofs.static_page. Qed.
Print Assumptions C113_static_rig_page_partial.

(** The rig of three cameras. *)
Example C113_static_rig_case :
  forall u umask,
  exists r printed shown,
  multiStaticTool SceneProofs.sc_vision RigSceneProofs.sc_draw RigSceneProofs.sc_display umask (fun _ => PageExamples.pg_run) u UniqueMultiExamples.sc_still HandEyeProofs.ex_cov_oracle SceneProofs.sc_target (map input PageExamples.pg_rig) = Ok (r, printed, shown) /\
  sr_base_to_camera r = map pose_of PageExamples.pg_rig /\ sr_wrist_to_target r = SceneProofs.sc_target /\
  ordinary_cost (sr_initial_cost_per_obs r) /\ ordinary_cost (sr_final_cost_per_obs r) /\ ordinary_pose (sr_wrist_to_target r) /\
  ordinary_cameras (sr_base_to_camera r) /\ (forall y, In y shown -> ordinary_reprojection (snd y)).
Proof. exact PageExamples.pg_static. Qed.

(** multi_static_camera_multi_step_extrinsic: the number in "REPROJECT IMAGE" is not always that of the image. *)
Theorem C113_image_titles_refuted :
  exists umask runs solve solve_wrist W (rig : list (camera (option iso))) o printed w printed' shown i T css,
  orderly SceneProofs.sc_vision /\ rig <> [] /\ even rig 2 /\ (Z.of_nat (List.length rig) < 2 ^ 32)%Z /\
  stepTool SceneProofs.sc_vision RigSceneProofs.sc_draw RigSceneProofs.sc_display umask runs solve solve_wrist true W (map input rig) = Ok (o, printed, w, printed', shown) /\
  chosen (common SceneProofs.sc_vision rig) (seq 0 2) [(i, (T, css))] /\ i <> 0%nat /\
  exists before e D0 rest, wr_base_to_camera w = D0 :: rest /\
    optimizeMpnp (runs 0%nat) (MP (map intr_of rig) (wr_base_to_camera w) css (iso_mul T (wr_wrist_to_target w))) = Ok e /\
    page_of (stepText o printed w printed' shown)
      (before ++ step_image_blocks 0 e (iso_mul (iso_inv D0) (iso_mul T (wr_wrist_to_target w))) (iso_mul (iso_inv D0) (mr_base_to_target e))).
Proof. exact @PageExamples.pg_step_title. Qed.
Print Assumptions C113_image_titles_refuted.

(** It is the position among the images that all cameras see. The rest of the page is as it says. Missing: that the numbers are those of the images. *)
Theorem C113_step_page_partial :
  forall (image features : Type) (v : vision image features) (draw : image -> list vec2 -> res image) (display : image -> res unit)
    (umask : nat -> nat -> nat) (runs : nat -> block_solver) (rig : list (camera image)) (n : nat),
  orderly v -> rig <> [] -> even rig n ->
  forall solve solve_wrist fix_first W o printed w printed' shown,
  (Z.of_nat (List.length rig) < 2 ^ 32)%Z ->
    stepTool v draw display umask runs solve solve_wrist fix_first W (map input rig) = Ok (o, printed, w, printed', shown) ->
    ordinary_cost (or_initial_cost_per_obs o) -> ordinary_cost (or_final_cost_per_obs o) -> ordinary_cameras (or_base_to_camera o) ->
    ordinary_cost (wr_initial_cost_per_obs w) -> ordinary_cost (wr_final_cost_per_obs w) -> ordinary_cameras (wr_base_to_camera w) ->
    ordinary_pose (wr_wrist_to_target w) -> (forall y, In y shown -> ordinary_reprojection y) ->
    exists kept pages C0 Cs D0 Ds, chosen (common v rig) (seq 0 n) kept /\ or_base_to_camera o = C0 :: Cs /\ wr_base_to_camera w = D0 :: Ds /\
      page_of (stepText o printed w printed' shown)
        ([title_block "Running calibration for only cameras"; results_block (or_converged o) (or_initial_cost_per_obs o) (or_final_cost_per_obs o); blank_line] ++
         flat_map (step_camera_blocks C0) (with_number (or_base_to_camera o)) ++
         [title_block "Running calibration for wrist only using camera only results";
          results_block (wr_converged w) (wr_initial_cost_per_obs w) (wr_final_cost_per_obs w); blank_line;
          transform_block "Wrist to Target" "Wrist" "Target" (wr_wrist_to_target w); blank_line] ++
         flat_map (step_camera_blocks D0) (with_number (wr_base_to_camera w)) ++ [title_block "REPROJECTION ERROR"] ++ concat pages)%list /\
      Forall2 (fun x page => let '(position, (i, (T, css))) := x in exists e,
        optimizeMpnp (runs position) (MP (map intr_of rig) (wr_base_to_camera w) css (iso_mul T (wr_wrist_to_target w))) = Ok e /\
        page = step_image_blocks position e (iso_mul (iso_inv D0) (iso_mul T (wr_wrist_to_target w))) (iso_mul (iso_inv D0) (mr_base_to_target e)))
        (with_number kept) pages.
Proof. exact @RigPageProofs.step_page. Qed.
Print Assumptions C113_step_page_partial.

(** The rig of three cameras. *)
Example C113_step_case :
  forall umask fix_first,
  exists o printed w printed' shown,
  stepTool SceneProofs.sc_vision RigSceneProofs.sc_draw RigSceneProofs.sc_display umask (fun _ => PageExamples.pg_run) PageExamples.pg_run PageExamples.pg_run fix_first SceneProofs.sc_target (map input PageExamples.pg_rig) = Ok (o, printed, w, printed', shown) /\
  ordinary_cost (or_initial_cost_per_obs o) /\ ordinary_cost (or_final_cost_per_obs o) /\ ordinary_cameras (or_base_to_camera o) /\
  ordinary_cost (wr_initial_cost_per_obs w) /\ ordinary_cost (wr_final_cost_per_obs w) /\ ordinary_cameras (wr_base_to_camera w) /\
  ordinary_pose (wr_wrist_to_target w) /\ (forall y, In y shown -> ordinary_reprojection y).
Proof. exact PageExamples.pg_step. Qed.

(** Ways to write numbers on one line, and a way to sort *)
Example C113_writing : (forall x, one_line (stream6 x)) /\ sort_contract (@CovarianceProofs.insertion_sort named_param).
Proof. split; [ exact (PrintTextProofs.streamed_line 6) | exact CovarianceProofs.insertion_sort_contract ]. Qed.
