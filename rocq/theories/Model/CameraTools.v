(** The tools for several cameras: rct_examples/src/tools/multi_static_camera_extrinsic.cpp [multi],
    multi_static_camera_multi_step_extrinsic.cpp [step] and solve_multi_camera_pnp.cpp [mpnp] *)
From Coq Require Import Reals Arith String List.
From Verif.Base Require Import Geom Outcome.
From Verif.Model Require Import Pose Covariance Solver HandEye BlockSolver MultiCamera DataSet CorrDataSet ExampleTools.
Import ListNotations.
Local Open Scope R_scope.

(** What was loaded for a camera: the parsed data set, the intrinsics and the pose (guess) *)
Record camera_input (image : Type) := Cam { cam_data : option (data_set image); cam_intr : intrinsics; cam_pose : iso }.
Arguments Cam {image}. Arguments cam_data {image}. Arguments cam_intr {image}. Arguments cam_pose {image}.

(** What one call of reproject shows and prints *)
Record reprojection (image : Type) := RJ {
  rj_image : image;
  rj_camera_to_target : iso;
  rj_before : list vec2;
  rj_pnp : mpnp_result;
  rj_pnp_camera_to_target : iso;
  rj_after : list vec2 }.
Arguments RJ {image}. Arguments rj_image {image}. Arguments rj_camera_to_target {image}. Arguments rj_before {image}.
Arguments rj_pnp {image}. Arguments rj_pnp_camera_to_target {image}. Arguments rj_after {image}.

Section Tools.
  (** [umask] is what is in the memory of a new mask. [runs i] is what Ceres does in the i-th call of reproject. *)
  Context {image features : Type} (v : vision image features)
          (draw : image -> list vec2 -> res image) (display : image -> res unit)
          (umask : nat -> nat -> nat) (runs : nat -> block_solver).

  (** [multi]:24-73, [step]:25-70, [mpnp]:26-78, reproject. The three differ only in which transforms they print:
      [mpnp] prints base_to_target and r.base_to_target, which are in the result as well. *)
  Definition reprojectCameras (run : block_solver) (base_to_target : iso) (base_to_camera : list iso) (intr : list intrinsics)
    (img : image) (correspondence_sets : list (list (correspondence vec2))) : res (reprojection image) :=
    do base_to_camera0 <- idx base_to_camera 0;
    let camera_to_target := iso_mul (iso_inv base_to_camera0) base_to_target in
    let target_points := flat_map (map in_target) correspondence_sets in
    do intr0 <- idx intr 0;
    let before := getReprojections camera_to_target intr0 target_points in
    do before_frame <- draw img before;
    do r <- optimizeMpnp run (MP intr base_to_camera correspondence_sets base_to_target);
    let result_camera_to_target := iso_mul (iso_inv base_to_camera0) (mr_base_to_target r) in
    let after := getReprojections result_camera_to_target intr0 target_points in
    do after_frame <- draw img after;
    do _ <- display before_frame;
    do _ <- display after_frame;
    Ok (RJ img camera_to_target before r result_camera_to_target after).

  (** [multi]:145, [step]:144, [mpnp]:144: the correspondences of all images, shown on the screen *)
  Definition corrDataSet (data : list (data_set image)) : res (corr_data (list (correspondence vec2))) :=
    construct (find v) (none v) (create v) (show_features v) true umask [] data.

  (** [multi]:172-183, [step]:172-184 and 205-217: each camera in the base and in the first camera *)
  Definition printedCameras (base_to_camera : list iso) (num_of_cameras : nat) : res (list (iso * iso)) :=
    mapM (fun c => do t <- idx base_to_camera c; do t0 <- idx base_to_camera 0; Ok (t, iso_mul (iso_inv t0) t))
      (seq 0 num_of_cameras).

  (** ** multi_static_camera_extrinsic *)
  (** [multi]:111: the result of parseFromFile is dereferenced before the test whether there is one *)
  Definition staticData (c : camera_input image) : res (data_set image) :=
    match cam_data c with Some d => Ok d | None => UB end.
  (** [multi]:147-159, the wrist poses and observations of camera c. The vectors have one element for each camera. *)
  Definition staticObservations (data : list (data_set image)) (cd : corr_data (list (correspondence vec2))) (c : nat)
    : res (list iso * list (list (correspondence vec2))) :=
    foldM (fun st i =>
        let '(wrist_poses, image_observations) := st in
        do found <- foundCorrespondence cd c i;
        if found then
          do data_set <- idx data c;
          do tool_pose <- idx (ds_tool_poses data_set) i;
          do cs <- getCorrespondenceSet cd c i;
          Ok (wrist_poses ++ [tool_pose], image_observations ++ [cs])%list
        else Ok st)
      (seq 0 (getImageCount cd)) ([], []).
  (** [multi]:189-220, the loop over the cameras for image i: base_to_camera, intr, corr_set and image *)
  Definition staticSeen (data : list (data_set image)) (cd : corr_data (list (correspondence vec2)))
    (base_to_camera : list iso) (intr : list intrinsics) (num_of_cameras i : nat)
    : res (list iso * list intrinsics * list (list (correspondence vec2)) * option image) :=
    foldM (fun st c =>
        let '(b, k, s, img) := st in
        do found <- foundCorrespondence cd c i;
        if found then
          do bc <- idx base_to_camera c;
          do kc <- idx intr c;
          do cs <- getCorrespondenceSet cd c i;
          do img' <- match b with
                     | [] => do data_set <- idx data c; do im <- idx (ds_images data_set) i; Ok (Some im)
                     | _ => Ok img
                     end;
          Ok (b ++ [bc], k ++ [kc], s ++ [cs], img')%list
        else Ok st)
      (seq 0 num_of_cameras) ([], [], [], None).
  (** [multi]:187-227, the reprojections of the images that at least two cameras have seen. Two cameras found the target,
      so that an image has been chosen. *)
  Definition staticReprojections (data : list (data_set image)) (cd : corr_data (list (correspondence vec2)))
    (opt_result : static_result) (intr : list intrinsics) (num_of_cameras : nat) : res (list (nat * reprojection image)) :=
    do first <- idx data 0;
    foldM (fun shown i =>
        do base_to_wrist <- idx (ds_tool_poses first) i;
        do st <- staticSeen data cd (sr_base_to_camera opt_result) intr num_of_cameras i;
        let '(b, k, s, img) := st in
        if Nat.leb 2 (List.length b) then
          match img with
          | Some im =>
              do r <- reprojectCameras (runs i) (iso_mul base_to_wrist (sr_wrist_to_target opt_result)) b k im s;
              Ok (shown ++ [(i, r)])%list
          | None => UB
          end
        else Ok shown)
      (seq 0 (List.length (ds_images first))) [].
  (** [multi]:89-235 from the loaded parameters on. Parsing has been done before; the outcome of parseFromFile is
      looked at here. *)
  Definition multiStaticTool (u : nat -> nat -> R) (solve : block_solver) (cov : cov_oracle)
    (wrist_to_target_guess : iso) (cameras : list (camera_input image))
    : res (static_result * list (iso * iso) * list (nat * reprojection image)) :=
    do data <- mapM staticData cameras;
    do cd <- corrDataSet data;
    do obs <- mapM (staticObservations data cd) (seq 0 (getCameraCount cd));
    do opt_result <- optimizeStatic u solve cov
        (SP (map cam_intr cameras) (map fst obs) (map snd obs) wrist_to_target_guess (map cam_pose cameras)
            "wrist_to_target" "base_to_camera");
    do printed <- printedCameras (sr_base_to_camera opt_result) (List.length cameras);
    do shown <- staticReprojections data cd opt_result (map cam_intr cameras) (List.length cameras);
    Ok (opt_result, printed, shown).

  (** ** multi_static_camera_multi_step_extrinsic *)
  (** [step]:108-111, [mpnp]:115-118 *)
  Definition cameraData (c : camera_input image) : res (data_set image) :=
    match cam_data c with Some d => Ok d | None => Throw RuntimeError end.
  (** [step]:146-161: target guesses, wrist poses and, for each image, the correspondences of all cameras. The program keeps
      one list for each camera, to which it adds one set for each image; see [stepTool]. *)
  Definition stepImages (data : list (data_set image)) (cd : corr_data (list (correspondence vec2))) (wrist_to_target : iso)
    : res (list (iso * iso * list (list (correspondence vec2)))) :=
    foldM (fun kept i =>
        do n <- getImageCameraCount cd i;
        if Nat.eqb n (getCameraCount cd) then
          do first <- idx data 0;
          do tool_pose <- idx (ds_tool_poses first) i;
          do sets <- mapM (fun c => getCorrespondenceSet cd c i) (seq 0 (getCameraCount cd));
          Ok (kept ++ [(iso_mul tool_pose wrist_to_target, tool_pose, sets)])%list
        else Ok kept)
      (seq 0 (getImageCount cd)) [].
  (** The list of camera c *)
  Definition ofCamera (kept : list (iso * iso * list (list (correspondence vec2)))) (c : nat) : list (list (correspondence vec2)) :=
    map (fun k => nth c (snd k) []) kept.
  (** [step]:221-243: the image shown with the i-th kept observation is the i-th image of the data set *)
  Definition stepReprojections (data : list (data_set image)) (wrist_poses : list iso) (wrist_to_target : iso)
    (base_to_camera : list iso) (intr : list intrinsics) (image_observations : list (list (list (correspondence vec2))))
    (num_of_cameras : nat) : res (list (reprojection image)) :=
    mapM (fun i =>
        do wrist_pose <- idx wrist_poses i;
        do st <- mapM (fun c =>
            do bc <- idx base_to_camera c;
            do kc <- idx intr c;
            do observations_c <- idx image_observations c;
            do cs <- idx observations_c i;
            Ok (bc, kc, cs)) (seq 0 num_of_cameras);
        do first <- idx data 0;
        do img <- idx (ds_images first) i;
        reprojectCameras (runs i) (iso_mul wrist_pose wrist_to_target) (map (fun x => fst (fst x)) st) (map (fun x => snd (fst x)) st) img (map snd st))
      (seq 0 (List.length wrist_poses)).
  (** [step]:86-251 from the loaded parameters on *)
  Definition stepTool (solve : block_solver) (solve_wrist : block_solver) (fix_first_camera : bool) (wrist_to_target : iso)
    (cameras : list (camera_input image))
    : res (only_result * list (iso * iso) * wrist_result * list (iso * iso) * list (reprojection image)) :=
    do data <- mapM cameraData cameras;
    do cd <- corrDataSet data;
    do kept <- stepImages data cd wrist_to_target;
    let intr := map cam_intr cameras in
    let image_observations := map (ofCamera kept) (seq 0 (List.length cameras)) in
    let wrist_poses := map (fun k => snd (fst k)) kept in
    do opt_result <- optimizeOnly solve
        (OP fix_first_camera intr image_observations (map (fun k => fst (fst k)) kept) (map cam_pose cameras));
    do printed <- printedCameras (or_base_to_camera opt_result) (List.length cameras);
    do opt_wrist_only_result <- optimizeWrist solve_wrist
        (WP intr wrist_poses image_observations wrist_to_target (or_base_to_camera opt_result));
    do printed' <- printedCameras (wr_base_to_camera opt_wrist_only_result) (List.length cameras);
    do shown <- stepReprojections data wrist_poses (wr_wrist_to_target opt_wrist_only_result)
                  (wr_base_to_camera opt_wrist_only_result) intr image_observations (List.length cameras);
    Ok (opt_result, printed, opt_wrist_only_result, printed', shown).

  (** ** solve_multi_camera_pnp *)
  (** [mpnp]:94-167 from the loaded parameters on *)
  Definition multiPnpTool (cameras : list (camera_input image)) : res (list (nat * reprojection image)) :=
    do data <- mapM cameraData cameras;
    do cd <- corrDataSet data;
    foldM (fun shown i =>
        do n <- getImageCameraCount cd i;
        if Nat.eqb n (getCameraCount cd) then
          do corr_set <- mapM (fun c => getCorrespondenceSet cd c i) (seq 0 (List.length cameras));
          do first <- idx data 0;
          do tool_pose <- idx (ds_tool_poses first) i;
          do img <- idx (ds_images first) i;
          do r <- reprojectCameras (runs i) tool_pose (map cam_pose cameras) (map cam_intr cameras) img corr_set;
          Ok (shown ++ [(i, r)])%list
        else Ok shown)
      (seq 0 (getImageCount cd)) [].
End Tools.
