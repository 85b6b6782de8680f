(** The calibration tools for one camera: rct_examples/src/tools/camera_on_wrist_extrinsic.cpp [wrist],
    static_camera_extrinsic.cpp [static], intrinsic_calibration.cpp [intr],
    camera_intrinsic_calibration_validation.cpp [valid], noise_qualification_2d.cpp [noise],
    hand_eye_calibration_analysis.h [an], rct_examples/src/examples/camera_on_wrist.cpp [ex] and
    rct_image_tools/include/rct_image_tools/image_utils.h [iu] *)
From Coq Require Import Reals Arith String List.
From Verif.Base Require Import Geom Outcome.
From Verif.Model Require Import Pose Covariance Solver HandEye Pnp Homography Projection Accumulator
  IntrinsicValidation DataSet.
Import ListNotations.
Local Open Scope R_scope.

(** The exceptions that [catch (const std::runtime_error&)] catches: rct_optimizations/types.h:193-203,
    rct_ros_tools/exceptions.h:11; those of roscpp and yaml-cpp also derive from std::runtime_error. *)
Definition runtime_error (e : exn) : bool :=
  match e with OutOfRange | XmlRpcException | CvException => false | _ => true end.
(** A try block whose handler catches std::runtime_error *)
Definition catch_runtime {A} (x : res A) (handler : res A) : res A :=
  match x with Throw e => if runtime_error e then handler else x | _ => x end.

(** [iu]:18-33, getReprojections *)
Definition getReprojections (camera_to_target : iso) (intr : intrinsics) (target_points : list vec3) : list vec2 :=
  map (fun point_in_target => projectPoint_arr intr (iso_app camera_to_target point_in_target)) target_points.

(** Eigen: mean of an array, which asserts that there is an element *)
Definition array_mean (a : list R) : res R :=
  match a with [] => UB | _ => Ok (fold_left Rplus a 0 / INR (List.length a)) end.

(** What a tool does with an image: the target finder, the emptiness test of its features, the target's
    createCorrespondences, drawing features and showing the drawing, showing the image itself. *)
Record vision (image features : Type) := Vision {
  find : image -> res features;
  none : features -> bool;
  create : features -> res (list (correspondence vec2));
  show_features : image -> features -> res unit;
  show_image : image -> res unit }.
Arguments Vision {image features}. Arguments find {image features}. Arguments none {image features}.
Arguments create {image features}. Arguments show_features {image features}. Arguments show_image {image features}.

Section Loops.
  Context {image features G : Type} (v : vision image features)
          (lu : lu_solver) (seeded : nat -> G) (uniform_int : nat -> nat -> G -> nat * G).

  (** [wrist]:93-95, [static]:90-92 and the same lines of the others: features or a runtime_error *)
  Definition findFeatures (img : image) : res features :=
    do target_features <- find v img;
    if none v target_features then Throw RuntimeError else Ok target_features.

  (** [wrist]:26, [static]:24 *)
  Definition RANDOM_SEED : nat := 1.
  (** [wrist]:108-114, [static]:102-108: the homography check *)
  Definition checkHomography (homography_threshold : R) (correspondence_set : list (correspondence vec2)) : res unit :=
    do random_sampler <- mk_random_sampler (List.length correspondence_set) (List.length correspondence_set / 3) RANDOM_SEED;
    do homography_error <- calculateHomographyError lu correspondence_set (randomSample seeded uniform_int random_sampler);
    do mean <- array_mean homography_error;
    if Rlt_dec homography_threshold mean then Throw RuntimeError else Ok tt.

  (** [wrist]:86-131 and [static]:84-125, one round of the loop. [mount] makes an observation of correspondences and
      a tool pose. The observation is added before the features are shown: an exception while they are shown does
      not take it away. *)
  Definition collectObservation (mount : list (correspondence vec2) -> iso -> observation vec2) (homography_threshold : R)
    (data : data_set image) (st : list (observation vec2) * list image) (i : nat)
    : res (list (observation vec2) * list image) :=
    let '(observations, found_images) := st in
    do img <- idx (ds_images data) i;
    let failed st := do _ <- show_image v img; Ok st in
    match
      (do target_features <- findFeatures img;
       do tool_pose <- idx (ds_tool_poses data) i;
       do correspondence_set <- create v target_features;
       do _ <- checkHomography homography_threshold correspondence_set;
       Ok (target_features, mount correspondence_set tool_pose))
    with
    | Ok (target_features, obs) =>
        let st' := (observations ++ [obs], found_images ++ [img])%list in
        catch_runtime (do _ <- show_features v img target_features; Ok st') (failed st')
    | Throw e => if runtime_error e then failed st else Throw e
    | UB => UB
    end.
  Definition collectObservations mount homography_threshold (data : data_set image) :=
    foldM (collectObservation mount homography_threshold data) (seq 0 (List.length (ds_images data))) ([], []).
  (** [wrist]:102-104: the camera moves with the tool *)
  Definition on_wrist (cs : list (correspondence vec2)) (tool_pose : iso) : observation vec2 := Obs cs tool_pose iso_id.
  (** [static]:96-98: the target moves with the tool *)
  Definition on_base (cs : list (correspondence vec2)) (tool_pose : iso) : observation vec2 := Obs cs iso_id tool_pose.

  (** [intr]:112-136, the loop: only finding and pairing is guarded, showing is not *)
  Definition intrinsicObservation (image_observations : list (list (correspondence vec2))) (img : image)
    : res (list (list (correspondence vec2))) :=
    match (do target_features <- findFeatures img; do cs <- create v target_features; Ok (target_features, cs)) with
    | Ok (target_features, cs) =>
        do _ <- show_features v img target_features; Ok (image_observations ++ [cs])%list
    | Throw e => if runtime_error e then Ok image_observations else Throw e
    | UB => UB
    end.
  Definition intrinsicObservations (data : data_set image) := foldM intrinsicObservation (ds_images data) [].

  (** [valid]:94-129, the loop: only finding and showing is guarded, pairing is not *)
  Definition validationObservation (data : data_set image) (observations : list (observation vec2)) (i : nat)
    : res (list (observation vec2)) :=
    do img <- idx (ds_images data) i;
    match (do target_features <- findFeatures img; do _ <- show_features v img target_features; Ok target_features) with
    | Ok target_features =>
        do tool_pose <- idx (ds_tool_poses data) i;
        do cs <- create v target_features;
        Ok (observations ++ [on_wrist cs tool_pose])%list
    | Throw e => if runtime_error e then do _ <- show_image v img; Ok observations else Throw e
    | UB => UB
    end.
  Definition validationObservations (data : data_set image) :=
    foldM (validationObservation data) (seq 0 (List.length (ds_images data))) [].

  (** [ex]:98-127, the loop of the example: any std::exception of the finder skips the image, features are not
      tested for being none, nothing is shown *)
  Definition exampleObservation (data : data_set image) (observations : list (observation vec2)) (i : nat)
    : res (list (observation vec2)) :=
    do img <- idx (ds_images data) i;
    match find v img with
    | Ok target_features =>
        do cs <- create v target_features;
        do wrist_pose <- idx (ds_tool_poses data) i;
        Ok (observations ++ [on_wrist cs wrist_pose])%list
    | Throw XmlRpcException => Throw XmlRpcException
    | Throw _ => Ok observations
    | UB => UB
    end.
  Definition exampleObservations (data : data_set image) :=
    foldM (exampleObservation data) (seq 0 (List.length (ds_images data))) [].

  (** [noise]:60-97, the loop. [names] are the image names of the data file (lines 62-64) and [read] is
      readImageOpenCV. The variable [image] is static: it is initialised once, by the first round that reaches
      line 65, and keeps that image in all later rounds. *)
  Definition noiseProblem (read : string -> image) (camera : intrinsics) (camera_to_target_guess : iso)
    (st : option image * list pnp_problem) (name : string) : res (option image * list pnp_problem) :=
    let '(static_image, problem_set) := st in
    let img := match static_image with Some first => first | None => read name end in
    match (do target_features <- findFeatures img; do _ <- show_features v img target_features; Ok target_features) with
    | Ok target_features =>
        do cs <- create v target_features;
        Ok (Some img, problem_set ++ [PnP2 camera cs camera_to_target_guess default_pnp_label])%list
    | Throw e => if runtime_error e then do _ <- show_image v img; Ok (Some img, problem_set) else Throw e
    | UB => UB
    end.
  Definition noiseProblems read camera camera_to_target_guess (names : list string) : res (list pnp_problem) :=
    do st <- foldM (noiseProblem read camera camera_to_target_guess) names (None, []);
    Ok (snd st).
End Loops.

(** ** Analysis of a hand-eye calibration *)
Section Analysis.
  Context {image : Type} (draw : image -> list vec2 -> res image) (display : image -> res unit).

  (** [an]:26-55, reproject *)
  Definition reproject (run : pnp_run) (camera_to_target : iso) (correspondence_set : list (correspondence vec2))
    (intr : intrinsics) (img : image) : res iso :=
    let target_points := map in_target correspondence_set in
    let reprojections := getReprojections camera_to_target intr target_points in
    do frame <- draw img reprojections;
    do r <- optimizePnP (run_u run) (run_solve run) (run_cov run)
              (PnP2 intr correspondence_set camera_to_target default_pnp_label);
    do _ <- display frame;
    Ok (pnp_camera_to_target r).

  (** [an]:65-105, analyzeResults: the four printed numbers *)
  Record differences := Diff { pos_mean : R; pos_stdev : R; ori_mean_deg : R; ori_stdev_deg : R }.
  Definition analyzeResults (runs : nat -> pnp_run) (problem : he_problem2D3D) (opt_result : he_result)
    (images : list image) : res differences :=
    do accs <- foldM (fun accs i =>
        let '(pos_diff_acc, ori_diff_acc) := accs in
        do obs <- at_ (h2_observations problem) i;
        let camera_to_target :=
          iso_mul (iso_mul (iso_mul (iso_inv (he_camera_mount_to_camera opt_result)) (iso_inv (to_camera_mount obs)))
                           (to_target_mount obs)) (he_target_mount_to_target opt_result) in
        do img <- idx images i;
        do camera_to_target_pnp <- reproject (runs i) camera_to_target (correspondence_set obs) (h2_intr problem) img;
        let diff := iso_mul (iso_inv camera_to_target) camera_to_target_pnp in
        Ok (acc_push pos_diff_acc (norm (tr diff)),
            acc_push ori_diff_acc (angular_distance (quat_of_mat (lin camera_to_target)) (quat_of_mat (lin camera_to_target_pnp)))))
      (seq 0 (List.length images)) (acc_empty, acc_empty);
    let '(pos_diff_acc, ori_diff_acc) := accs in
    do pm <- acc_mean pos_diff_acc;
    do om <- acc_mean ori_diff_acc;
    Ok (Diff pm (sqrt (acc_variance pos_diff_acc)) (om * 180 / PI) (sqrt (acc_variance ori_diff_acc) * 180 / PI)).

  (** [an]:107-117, analyze3DProjectionError: the four printed numbers. With one error the standard deviation is
      0/0, which is printed as nan: [None]. The mean of no errors fails an assertion of Eigen. *)
  Record error_stats := ErrorStats { err_mean : R; err_stdev : option R; err_min : R; err_max : R }.
  Definition errorStats (error : list R) : res error_stats :=
    do mean <- array_mean error;
    let squares := fold_left Rplus (map (fun e => (e - mean) * (e - mean)) error) 0 in
    let std_dev := match List.length error with 1%nat => None | n => Some (sqrt (squares / INR (n - 1))) end in
    Ok (ErrorStats mean std_dev (fold_left Rmin error (hd 0 error)) (fold_left Rmax error (hd 0 error))).
  Definition analyze3DProjectionError (problem : he_problem2D3D) (opt_result : he_result) : res error_stats :=
    do error <- compute3DProjectionError_set (h2_observations problem) (h2_intr problem)
                  (he_camera_mount_to_camera opt_result) (he_target_mount_to_target opt_result);
    errorStats error.
End Analysis.

(** [wrist]:51-159 and [static]:48-153, the tools from the loaded data set on. The parameters, guesses and the finder have
    been loaded; what is printed is returned. main() turns a std::exception into the exit code -1. *)
Record hand_eye_report := Report {
  rep_result : he_result; rep_errors : error_stats; rep_differences : differences }.
Definition handEyeTool {image features G} (mount : list (correspondence vec2) -> iso -> observation vec2)
  (v : vision image features) (lu : lu_solver) (seeded : nat -> G) (uniform_int : nat -> nat -> G -> nat * G)
  (draw : image -> list vec2 -> res image) (display : image -> res unit)
  (u : nat -> nat -> R) (solve : solver he_vars) (cov : cov_oracle) (runs : nat -> pnp_run)
  (homography_threshold : R) (intr : intrinsics) (target_guess camera_guess : iso)
  (maybe_data_set : option (data_set image)) : res hand_eye_report :=
  match maybe_data_set with
  | None => Throw RuntimeError
  | Some data =>
      do st <- collectObservations v lu seeded uniform_int mount homography_threshold data;
      let '(observations, found_images) := st in
      let problem := HEP2 observations intr target_guess camera_guess default_he_labels in
      do opt_result <- optimize2D3D u solve cov problem;
      do errors <- analyze3DProjectionError problem opt_result;
      do diffs <- analyzeResults draw display runs problem opt_result found_images;
      Ok (Report opt_result errors diffs)
  end.

(** [valid]:24-44, analyzeResults: whether "valid" is printed *)
Definition within_tolerance (result : accuracy_result) (pos_tol ang_tol : R) : bool :=
  let pos_error := fst (ar_pos_error result) + 2 * snd (ar_pos_error result) in
  let ang_error := fst (ar_ang_error result) + 2 * snd (ar_ang_error result) in
  if Rlt_dec pos_tol pos_error then false else if Rlt_dec ang_tol ang_error then false else true.
(** [valid]:67-141, the tool from the loaded data set on *)
Definition validationTool {image features} (v : vision image features) (runs : nat -> pnp_run * pnp_run)
  (intr : intrinsics) (target_mount_to_target camera_mount_to_camera : iso)
  (maybe_data_set : option (data_set image)) : res bool :=
  match maybe_data_set with
  | None => Throw RuntimeError
  | Some data =>
      do observations <- validationObservations v data;
      do result <- measureIntrinsicCalibrationAccuracy runs observations intr camera_mount_to_camera
                     target_mount_to_target iso_id 1;
      let pos_tol := 1 / 1000 in
      let ang_tol := 5 / 100 * PI / 180 in
      Ok (within_tolerance result pos_tol ang_tol)
  end.
