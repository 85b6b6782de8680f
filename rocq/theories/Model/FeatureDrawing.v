(** Showing found features: drawTargetFeatures of the three finders (rct_image_tools/src/rct_image_tools).
    What is drawn is listed; how OpenCV draws it is a parameter, and so are all pixels. *)
From Coq Require Import Reals ZArith Arith String List.
From Verif.Base Require Import Geom Outcome.
From Verif.Model Require Import Pose HandEye CircleDetector Targets.
Import ListNotations.

(** What is drawn: cv::drawKeypoints (circle_detector.cpp:427), cv::drawChessboardCorners, a label with a dot
    (modified_circle_grid_finder.cpp:12-25; the place of the text is rounded), cv::aruco::drawDetectedMarkers
    (aruco_finder.cpp:54) and cv::aruco::drawDetectedCornersCharuco (charuco_finder.cpp:68). Narrowing to float is left out. *)
Inductive mark :=
| Keypoints (ks : list keypoint)
| ChessboardCorners (width height : nat) (points : list vec2)
| PointLabel (label : string) (position : vec2)
| DetectedMarkers (corners : list (list vec2)) (ids : list nat)
| DetectedCorners (corners : list vec2) (ids : list nat).

Section Drawing.
  Context {image : Type} (paint : mark -> image -> image).
  (** cv::Mat values share buffers: an image is the place of its buffer in a list. Drawing into it changes the buffer. *)
  Definition draw_into (h : list image) (k : nat) (m : mark) : res (list image) :=
    do i <- idx h k; Ok (firstn k h ++ paint m i :: skipn (S k) h)%list.
  Definition draw_all (h : list image) (k : nat) (ms : list mark) : res (list image) := foldM (fun h m => draw_into h k m) ms h.
  (** clone() and copyTo() *)
  Definition copy (h : list image) (k : nat) : res (list image * nat) := do i <- idx h k; Ok (h ++ [i], List.length h)%list.

  (** circle_detector.cpp:393-430, drawDetectedCircles of an image whose circles at all thresholds are [contours_at]. The outlines of
      the contours (lines 408-415) are left out. *)
  Definition drawDetectedCircles (contours_at : R -> list contour) (p : circle_params) (h : list image) (k : nat) : res (list image * nat) :=
    do keypoints <- detect contours_at p;
    do (h, output) <- copy h k;
    do h <- draw_into h output (Keypoints keypoints);
    Ok (h, output).

  (** modified_circle_grid_finder.cpp:27-52, renderObservations. The place of the origin is computed in unsigned int. *)
  Definition renderObservations (h : list image) (input : nat) (points : list vec2) (t : circle_grid) : res (list image * nat) :=
    do (h, output) <- copy h input;
    match points with
    | [] => Ok (h, output)
    | _ :: _ =>
        do first <- idx points 0;
        do h <- draw_all h output [ChessboardCorners (cg_cols t) (cg_rows t) points; PointLabel "First Point" first];
        do origin <- idx points (Z.to_nat ((Z.of_nat (cg_rows t) * Z.of_nat (cg_cols t) - Z.of_nat (cg_cols t)) mod 2 ^ 32));
        do h <- draw_into h output (PointLabel "Origin" origin);
        do last <- idx points (List.length points - 1);
        do h <- draw_into h output (PointLabel "Last Point" last);
        Ok (h, output)
    end.

  (** modified_circle_grid_finder.cpp:429-446, ModifiedCircleGridTargetFinder::drawTargetFeatures *)
  Definition draw_circle_grid (contours_at : R -> list contour) (p : circle_params) (t : circle_grid) (h : list image) (k : nat)
    (target_features : features) : res (list image * nat) :=
    do (h, out_image) <- drawDetectedCircles contours_at p h k;
    do cv_obs <- mapM (fun it => at_ (snd it) 0) target_features;
    renderObservations h out_image cv_obs t.

  (** aruco_finder.cpp:40-56, ArucoGridBoardTargetFinder::drawTargetFeatures *)
  Definition draw_aruco (h : list image) (k : nat) (target_features : features) : res (list image * nat) :=
    let marker_ids := map fst target_features in
    let marker_corners := map snd target_features in
    do h <- draw_into h k (DetectedMarkers marker_corners marker_ids);
    Ok (h, k).

  (** charuco_finder.cpp:48-71, CharucoGridBoardTargetFinder::drawTargetFeatures *)
  Definition draw_charuco (h : list image) (k : nat) (target_features : features) : res (list image * nat) :=
    let charuco_ids := map fst target_features in
    do charuco_corners <- mapM (fun it => at_ (snd it) 0) target_features;
    do h <- draw_into h k (DetectedCorners charuco_corners charuco_ids);
    Ok (h, k).
End Drawing.
