(** Circle detector (rct_image_tools/src/rct_image_tools/circle_detector.cpp). *)
From Coq Require Import Reals Arith Bool List.
From Verif.Base Require Import Geom Outcome.
Import ListNotations.
Local Open Scope R_scope.

Definition rltb (a b : R) : bool := if Rlt_dec a b then true else false.
Definition rleb (a b : R) : bool := if Rle_dec a b then true else false.

(** include/rct_image_tools/circle_detector.h:10-64, CircleDetectorParams *)
Record circle_params := CircleParams {
  minThreshold : R; maxThreshold : R; nThresholds : nat;
  minRepeatability : nat; circleInclusionRadius : R; maxRadiusDiff : R;
  maxAverageEllipseError : R;
  filterByColor : bool; circleColor : nat;
  filterByArea : bool; minArea : R; maxArea : R;
  filterByCircularity : bool; minCircularity : R; maxCircularity : R;
  filterByInertia : bool; minInertiaRatio : R; maxInertiaRatio : R;
  filterByConvexity : bool; minConvexity : R; maxConvexity : R }.

(** circle_detector.h:71-76, CircleDetector::Center *)
Record center := Center { c_location : vec2; c_radius : R; c_confidence : R }.
(** cv::KeyPoint, position and size *)
Record keypoint := KP { kp_pt : vec2; kp_size : R }.

(** cv::RotatedRect; the angle is in degrees. *)
Record rotated_rect := RRect { rr_center : vec2; rr_width : R; rr_height : R; rr_angle : R }.

(** What OpenCV reports about a contour of the binarized image: its points, moments, arc length,
    area, the area of its convex hull, the fitted ellipse and the colour at the centre of the ellipse. *)
Record contour := Contour {
  ct_points : list vec2;
  ct_m00 : R; ct_mu11 : R; ct_mu20 : R; ct_mu02 : R;
  ct_perimeter : R; ct_area : R; ct_hull_area : R;
  ct_box : rotated_rect; ct_color : nat }.

(** [value < low || value >= high] *)
Definition outside (value low high : R) : bool := rltb value low || rleb high value.

(** circle_detector.cpp:127-146, the inertia ratio. [imax] is not zero when the denominator is larger
    than [eps], unless the moments are inconsistent; a zero [imax] is taken as not a number. *)
Definition inertia_ratio (mu20 mu11 mu02 : R) : res R :=
  let denominator := sqrt ((2 * mu11) * (2 * mu11) + (mu20 - mu02) * (mu20 - mu02)) in
  let eps := 1 / 100 in
  if Rlt_dec eps denominator then
    let cosmin := (mu20 - mu02) / denominator in
    let sinmin := 2 * mu11 / denominator in
    let cosmax := - cosmin in
    let sinmax := - sinmin in
    let imin := 1 / 2 * (mu20 + mu02) - 1 / 2 * (mu20 - mu02) * cosmin - mu11 * sinmin in
    let imax := 1 / 2 * (mu20 + mu02) - 1 / 2 * (mu20 - mu02) * cosmax - mu11 * sinmax in
    if Req_EM_T imax 0 then UB else Ok (imin / imax)
  else Ok 1.

(** circle_detector.cpp:109-162 and 168-172, the filters: [Ok true] when the contour is skipped. A
    zero perimeter or hull area is taken as not a number. *)
Definition filtered (p : circle_params) (c : contour) : res bool :=
  if filterByArea p && outside (ct_m00 c) (minArea p) (maxArea p) then Ok true else
  do circ <- (if filterByCircularity p then
                if Req_EM_T (ct_perimeter c) 0 then UB else
                Ok (outside (4 * PI * ct_m00 c / (ct_perimeter c * ct_perimeter c)) (minCircularity p) (maxCircularity p))
              else Ok false);
  if (circ : bool) then Ok true else
  do inert <- (if filterByInertia p then
                 do ratio <- inertia_ratio (ct_mu20 c) (ct_mu11 c) (ct_mu02 c);
                 Ok (outside ratio (minInertiaRatio p) (maxInertiaRatio p))
               else Ok false);
  if (inert : bool) then Ok true else
  do conv <- (if filterByConvexity p then
                if Req_EM_T (ct_hull_area c) 0 then UB else
                Ok (outside (ct_area c / ct_hull_area c) (minConvexity p) (maxConvexity p))
              else Ok false);
  if (conv : bool) then Ok true else
  Ok (filterByColor p && negb (Nat.eqb (ct_color c) (circleColor p))).

(** circle_detector.cpp:184-199, the value of the ellipse equation at a contour point *)
Definition ellipse_output (box : rotated_rect) (pt : vec2) : R :=
  let angle := rr_angle box * PI / 180 in
  let a := rr_width box / 2 in
  let b := rr_height box / 2 in
  let v := v2sub pt (rr_center box) in
  let x := px v * cos angle + py v * sin angle in
  let y := px v * sin angle - py v * cos angle in
  sqrt ((x * x) / (a * a) + (y * y) / (b * b)).

(** circle_detector.cpp:174-203, the error of the ellipse. An ellipse with an empty axis is taken as
    not a number. *)
Definition ellipse_error (c : contour) : res R :=
  if Req_EM_T (rr_width (ct_box c)) 0 then UB else
  if Req_EM_T (rr_height (ct_box c)) 0 then UB else
  let output := fold_left (fun output pt => output + ellipse_output (ct_box c) pt) (ct_points c) 0 in
  Ok (Rabs (output / INR (length (ct_points c)) - 1)).

(** circle_detector.cpp:205-216, the centre made from a contour. The confidence 1/0 of a perfect fit is
    infinite, which is taken as not a number. *)
Definition make_center (c : contour) (err : R) : res center :=
  if Req_EM_T err 0 then UB
  else Ok (Center (rr_center (ct_box c)) ((rr_height (ct_box c) + rr_width (ct_box c)) / 4) (1 / err)).

(** circle_detector.cpp:87-91 and 98-217, the loop of findCircles over the contours of the binarized
    image, without the first ones that have less than five points *)
Definition findCircles (contours : list contour) (p : circle_params) : res (list center) :=
  let contours := filter (fun c => negb (Nat.ltb (length (ct_points c)) 5)) contours in
  foldM (fun centers c =>
      do skip <- filtered p c;
      if (skip : bool) then Ok centers else
      do err <- ellipse_error c;
      if Rlt_dec err (maxAverageEllipseError p) then do x <- make_center c err; Ok (centers ++ [x]) else Ok centers)
    contours [].

(** circle_detector.cpp:245-257, the i-th threshold *)
Definition threshold (p : circle_params) (i : nat) : R :=
  let threshold_range := maxThreshold p - minThreshold p in
  if Nat.ltb (nThresholds p) 2 then minThreshold p + threshold_range / 2
  else minThreshold p + INR i / INR (nThresholds p - 1) * threshold_range.

(** circle_detector.cpp:228-264, applyThresholds. [image t] are the contours of the image binarized at
    threshold t. *)
Definition applyThresholds (image : R -> list contour) (p : circle_params) : res (list (list center)) :=
  if Nat.ltb (nThresholds p) (minRepeatability p) then Throw RuntimeError
  else mapM (fun i => findCircles (image (threshold p i)) p) (seq 0 (nThresholds p)).

(** circle_detector.cpp:290-295, the test of the lambda [exists] *)
Definition same_circle (p : circle_params) (existing c : center) : bool :=
  let pos_diff := norm2 (v2sub (c_location existing) (c_location c)) in
  let radius_diff := Rabs (c_radius existing - c_radius c) in
  rleb pos_diff (circleInclusionRadius p) && rleb radius_diff (maxRadiusDiff p).
(** circle_detector.cpp:281-303, the lambda [exists]; -1 is [None]. *)
Fixpoint exists_ (p : circle_params) (c : center) (known_centers : list (list center)) : option nat :=
  match known_centers with
  | [] => None
  | existing_centers :: r =>
      match existing_centers with
      | existing :: _ => if same_circle p existing c then Some 0%nat else option_map S (exists_ p c r)
      | [] => option_map S (exists_ p c r)
      end
  end.
(** [v.at(i).push_back(c)] *)
Fixpoint push_at {A} (l : list (list A)) (i : nat) (c : A) : res (list (list A)) :=
  match l, i with
  | [], _ => Throw OutOfRange
  | g :: r, 0%nat => Ok ((g ++ [c]) :: r)
  | g :: r, S i => do r' <- push_at r i c; Ok (g :: r')
  end.
(** circle_detector.cpp:305-329, the groups *)
Definition group_step (p : circle_params) (grouped_centers : list (list center)) (c : center) : res (list (list center)) :=
  match exists_ p c grouped_centers with
  | Some match_idx => push_at grouped_centers match_idx c
  | None => Ok (grouped_centers ++ [[c]])
  end.
Definition group_centers (p : circle_params) (all_centers : list (list center)) : res (list (list center)) :=
  foldM (fun g centers => foldM (group_step p) centers g) all_centers [].

(** circle_detector.cpp:341-355, the keypoint of a group. A zero normalizer gives no number. *)
Definition group_keypoint (g : list center) : res keypoint :=
  let '(sx, sy, sr, n) :=
    fold_left (fun '(sx, sy, sr, n) c =>
        (sx + c_confidence c * px (c_location c), sy + c_confidence c * py (c_location c),
         sr + c_confidence c * c_radius c, n + c_confidence c))
      g (0, 0, 0, 0) in
  if Req_EM_T n 0 then UB else Ok (KP (V2 (sx / n) (sy / n)) (sr / n * 2)).

(** circle_detector.cpp:274-360, detectKeyPoints *)
Definition detectKeyPoints (all_centers : list (list center)) (p : circle_params) : res (list keypoint) :=
  do grouped_centers <- group_centers p all_centers;
  foldM (fun keypoints g =>
      if Nat.leb (minRepeatability p) (length g) then do k <- group_keypoint g; Ok (keypoints ++ [k]) else Ok keypoints)
    grouped_centers [].

(** circle_detector.cpp:368-391, CircleDetector::detect, on the grayscale image *)
Definition detect (image : R -> list contour) (p : circle_params) : res (list keypoint) :=
  do centers <- applyThresholds image p; detectKeyPoints centers p.
