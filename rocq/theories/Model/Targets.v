(** Calibration targets and the features found on them (rct_image_tools). *)
From Coq Require Import Reals Arith List.
From Verif.Base Require Import Geom Outcome Matrix.
From Verif.Model Require Import Pose HandEye.
Import ListNotations.
Local Open Scope R_scope.

(** [m.emplace(k, v)] and [m.insert({k, v})] on a std::map: keeps the keys in increasing order and
    leaves an existing entry alone. *)
Fixpoint emplace {V} (k : nat) (v : V) (m : amap V) : amap V :=
  match m with
  | [] => [(k, v)]
  | (k', v') :: r =>
      if Nat.ltb k k' then (k, v) :: m else if Nat.eqb k k' then m else (k', v') :: emplace k v r
  end.
(** [m.at(k)] *)
Definition map_at {V} (m : amap V) (k : nat) : res V :=
  match find_key k m with Some v => Ok v | None => Throw OutOfRange end.

(** rct_image_tools/include/rct_image_tools/target_features.h:9-23, TargetFeatures: the image
    positions of the features of each target element, by ID. *)
Definition features := amap (list vec2).

(** ** Modified circle grid *)

(** include/rct_image_tools/modified_circle_grid_target.h:10-30 and
    src/rct_image_tools/modified_circle_grid_target.cpp:5-8, ModifiedCircleGridTarget *)
Record circle_grid := CG { cg_rows : nat; cg_cols : nat; cg_spacing : R }.

(** modified_circle_grid_target.cpp:41-60, createPoints. [i] runs from 1 to [rows]. *)
Definition createPoints (t : circle_grid) : list vec3 :=
  flat_map (fun i =>
      let y := INR (cg_rows t - i) * cg_spacing t in
      map (fun j => let x := INR j * cg_spacing t in V3 x y 0) (seq 0 (cg_cols t)))
    (seq 1 (cg_rows t)).

(** modified_circle_grid_target.cpp:20-39, ModifiedCircleGridTarget::createCorrespondences. The
    assert of line 24 is compiled out. *)
Definition circle_correspondences (t : circle_grid) (target_features : features) : res (list (correspondence vec2)) :=
  let target_points := createPoints t in
  foldM (fun cs i =>
      do p <- at_ target_points i;
      do f <- map_at target_features i;
      do o <- at_ f 0;
      Ok (cs ++ [Corr o p]))
    (seq 0 (length target_points)) [].

(** modified_circle_grid_target.cpp:10-18, operator== *)
Definition circle_grid_eqb (a b : circle_grid) : bool :=
  andb (andb (Nat.eqb (cg_rows a) (cg_rows b)) (Nat.eqb (cg_cols a) (cg_cols b)))
       (if Rlt_dec (Rabs (cg_spacing a - cg_spacing b)) DBL_EPS then true else false).

(** ** ArUco grid board *)

(** The parts of cv::aruco::GridBoard that are read: [ids] and [objPoints]. IDs are not negative. *)
Record aruco_board := Board { board_ids : list nat; board_objPoints : list (list vec3) }.

(** src/rct_image_tools/aruco_grid_target.cpp:11-26, mapArucoIdsToObjPts. The conversion of the
    coordinates from float is exact. *)
Definition mapArucoIdsToObjPts (board : aruco_board) : res (amap (list vec3)) :=
  foldM (fun m i =>
      do obj_pts <- idx (board_objPoints board) i;
      do id <- idx (board_ids board) i;
      Ok (emplace id obj_pts m))
    (seq 0 (length (board_ids board))) [].

(** aruco_grid_target.cpp:64-81, ArucoGridTarget::createCorrespondences *)
Definition aruco_correspondences (points : amap (list vec3)) (target_features : features)
  : res (list (correspondence vec2)) :=
  foldM (fun cs (it : nat * list vec2) =>
      foldM (fun cs i =>
          do ps <- map_at points (fst it);
          do p <- at_ ps i;
          do fs <- map_at target_features (fst it);
          do f <- at_ fs i;
          Ok (cs ++ [Corr f p]))
        (seq 0 (length (snd it))) cs)
    target_features [].

(** src/rct_image_tools/aruco_finder.cpp:14-38, findTargetFeatures, given what OpenCV's
    detectMarkers and refineDetectedMarkers report. [obs_pts] has four elements, initially
    indeterminate ([u]). *)
Definition aruco_obs_pts (u : nat -> vec2) (corner_pts : list vec2) : res (list vec2) :=
  if Nat.ltb 4 (length corner_pts) then UB
  else Ok (map (fun j => match nth_error corner_pts j with Some c => c | None => u j end) (seq 0 4)).
Definition aruco_features (u : nat -> vec2) (marker_ids : list nat) (marker_corners : list (list vec2)) : res features :=
  foldM (fun m i =>
      do corner_pts <- idx marker_corners i;
      do obs_pts <- aruco_obs_pts u corner_pts;
      do id <- idx marker_ids i;
      Ok (emplace id obs_pts m))
    (seq 0 (length marker_ids)) [].

(** ** ChArUco board *)

(** src/rct_image_tools/charuco_grid_target.cpp:11-21, mapCharucoIdsToObjPts: the chessboard corners
    numbered from zero. *)
Definition mapCharucoIdsToObjPts (chessboardCorners : list vec3) : res (amap vec3) :=
  foldM (fun m i => do corner <- at_ chessboardCorners i; Ok (emplace i corner m))
    (seq 0 (length chessboardCorners)) [].

(** charuco_grid_target.cpp:60-75, CharucoGridTarget::createCorrespondences *)
Definition charuco_correspondences (points : amap vec3) (target_features : features)
  : res (list (correspondence vec2)) :=
  foldM (fun cs (it : nat * list vec2) =>
      do p <- map_at points (fst it);
      do fs <- map_at target_features (fst it);
      do f <- at_ fs 0;
      Ok (cs ++ [Corr f p]))
    target_features [].

(** src/rct_image_tools/charuco_finder.cpp:13-46, findTargetFeatures, given the marker IDs reported
    by detectMarkers and the number, corners and IDs reported by interpolateCornersCharuco. *)
Definition charuco_features (marker_ids : list nat) (detected_corners : nat)
    (charuco_corners : list vec2) (charuco_ids : list nat) : res features :=
  match marker_ids with
  | [] => Throw RuntimeError
  | _ :: _ =>
      foldM (fun m i =>
          do corner <- at_ charuco_corners i;
          do id <- idx charuco_ids i;
          Ok (emplace id [corner] m))
        (seq 0 detected_corners) []
  end.

(** src/rct_image_tools/modified_circle_grid_finder.cpp:416-426, the feature map built from the
    ordered points. *)
Definition circle_features (points : list vec2) : res features :=
  foldM (fun m i => do pt <- at_ points i; Ok (emplace i [pt] m)) (seq 0 (length points)) [].

(** ** Reprojection *)

(** include/rct_image_tools/image_utils.h:18-33, getReprojections *)
Definition getReprojections (camera_to_target : iso) (intr : intrinsics) (target_points : list vec3) : list vec2 :=
  map (fun point_in_target =>
      let in_camera := iso_app camera_to_target point_in_target in
      projectPoint_arr intr in_camera)
    target_points.
