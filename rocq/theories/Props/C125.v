(** C125: showing the features that were found. [paint m i]: the image [i] after OpenCV drew [m] into it; images in memory are lists.
    [images_kept], [new_image], [only_changed], [labelled]: Spec/DrawingSpec.v. *)
From Coq Require Import Reals ZArith String List.
From Verif.Base Require Import Geom Outcome.
From Verif.Model Require Import Pose HandEye CircleDetector Targets FeatureDrawing.
From Verif.Spec Require Import DrawingSpec.
From Verif.Proofs Require FilterProofs DrawingProofs.
Import ListNotations.
Local Open Scope nat_scope.

(** For circle grids the property holds: the image is kept, and a new one shows the corners of the grid with labels at the observations
    of the top left, the origin and the bottom right point of the target. *)
Theorem C125_circle_grid :
  forall (image : Type) (paint : mark -> image -> image) contours_at p t pts fs cs h k i ks,
  (1 <= cg_rows t)%nat -> (1 <= cg_cols t)%nat -> (Z.of_nat (cg_rows t) * Z.of_nat (cg_cols t) < 2 ^ 32)%Z ->
  List.length pts = (cg_rows t * cg_cols t)%nat -> circle_features pts = Ok fs -> circle_correspondences t fs = Ok cs ->
  detect contours_at p = Ok ks -> nth_error h k = Some i ->
  exists h' k' first origin last, draw_circle_grid paint contours_at p t h k fs = Ok (h', k') /\ images_kept h h' /\
    In first cs /\ in_target first = V3 0%R (INR (cg_rows t - 1) * cg_spacing t)%R 0%R /\
    In origin cs /\ in_target origin = vzero /\
    In last cs /\ in_target last = V3 (INR (cg_cols t - 1) * cg_spacing t)%R 0%R 0%R /\
    new_image h h' k' (labelled paint t pts (in_image first) (in_image origin) (in_image last) (paint (Keypoints ks) i)).
Proof. exact @DrawingProofs.labels_right. Qed.
Print Assumptions C125_circle_grid.

(** A grid of two by two circles. *)
Example C125_circle_grid_example :
  exists h' k' origin, draw_circle_grid DrawingProofs.history (fun _ => []) FilterProofs.ex_params (CG 2 2 1%R) [[]] 0
    [(0%nat, [V2 0%R 0%R]); (1%nat, [V2 9%R 0%R]); (2%nat, [V2 0%R 9%R]); (3%nat, [V2 9%R 9%R])] = Ok (h', k') /\ nth_error h' k' = Some origin /\
    In (PointLabel "Origin" (V2 0%R 9%R)) origin /\ images_kept [[]] h'.
Proof. exact DrawingProofs.grid_example. Qed.

(** Without features only the detected circles are drawn. *)
Theorem C125_circle_grid_nothing :
  forall (image : Type) (paint : mark -> image -> image) contours_at p t h k i ks,
  detect contours_at p = Ok ks -> nth_error h k = Some i ->
  exists h' k', draw_circle_grid paint contours_at p t h k [] = Ok (h', k') /\ images_kept h h' /\ new_image h h' k' (paint (Keypoints ks) i).
Proof. exact @DrawingProofs.nothing_to_label. Qed.
Print Assumptions C125_circle_grid_nothing.

(** An entry without a position throws an exception. *)
Theorem C125_circle_grid_empty :
  forall (image : Type) (paint : mark -> image -> image) contours_at p t h k i ks fs,
  detect contours_at p = Ok ks -> nth_error h k = Some i ->
  (exists it, In it fs /\ snd it = []) -> draw_circle_grid paint contours_at p t h k fs = Throw OutOfRange.
Proof. exact @DrawingProofs.empty_feature. Qed.
Print Assumptions C125_circle_grid_empty.

(** Undefined behaviour if the features do not reach the last row. *)
Theorem C125_circle_grid_too_few :
  forall (image : Type) (paint : mark -> image -> image) contours_at p t h k i ks fs,
  detect contours_at p = Ok ks -> nth_error h k = Some i ->
  (1 <= cg_rows t)%nat -> (Z.of_nat (cg_rows t) * Z.of_nat (cg_cols t) < 2 ^ 32)%Z ->
  (forall it, In it fs -> snd it <> []) -> (1 <= List.length fs <= (cg_rows t - 1) * cg_cols t)%nat ->
  draw_circle_grid paint contours_at p t h k fs = UB.
Proof. exact @DrawingProofs.too_few. Qed.
Print Assumptions C125_circle_grid_too_few.

(** The property: drawing keeps the image it is given. It fails for ArUco boards: they are drawn into it. *)
Theorem C125_image_kept_refuted :
  forall (image : Type) (paint : mark -> image -> image) h k i fs h' k',
  nth_error h k = Some i ->
  paint (DetectedMarkers (map snd fs) (map fst fs)) i <> i -> draw_aruco paint h k fs = Ok (h', k') -> ~ images_kept h h'.
Proof. exact @DrawingProofs.markers_overwrite. Qed.
Print Assumptions C125_image_kept_refuted.

(** Likewise for ChArUco boards. *)
Theorem C125_image_kept_charuco_refuted :
  forall (image : Type) (paint : mark -> image -> image) h k i fs h' k',
  nth_error h k = Some i ->
  (forall pts, map Some pts = map (fun it : nat * list vec2 => nth_error (snd it) 0) fs -> paint (DetectedCorners pts (map fst fs)) i <> i) ->
  draw_charuco paint h k fs = Ok (h', k') -> ~ images_kept h h'.
Proof. exact @DrawingProofs.corners_overwrite. Qed.
Print Assumptions C125_image_kept_charuco_refuted.

(** What is drawn for ArUco boards: all markers with their IDs; other images are kept. *)
Theorem C125_image_kept_partial :
  forall (image : Type) (paint : mark -> image -> image) h k i fs,
  nth_error h k = Some i ->
  exists h', draw_aruco paint h k fs = Ok (h', k) /\ only_changed h h' k i (paint (DetectedMarkers (map snd fs) (map fst fs)) i).
Proof. exact @DrawingProofs.aruco_drawn. Qed.
Print Assumptions C125_image_kept_partial.

(** Likewise for ChArUco boards: the first position of every feature, with its ID. *)
Theorem C125_image_kept_charuco_partial :
  forall (image : Type) (paint : mark -> image -> image) h k i fs,
  nth_error h k = Some i -> (forall it, In it fs -> snd it <> []) ->
  exists h' pts, draw_charuco paint h k fs = Ok (h', k) /\ map Some pts = map (fun it => nth_error (snd it) 0) fs /\
    only_changed h h' k i (paint (DetectedCorners pts (map fst fs)) i).
Proof. exact @DrawingProofs.charuco_drawn. Qed.
Print Assumptions C125_image_kept_charuco_partial.

(** One marker, drawn into an image that lists what is drawn. *)
Example C125_marker_example :
  exists h', draw_aruco DrawingProofs.history [[]] 0 [(7%nat, [V2 1%R 1%R; V2 2%R 1%R; V2 2%R 2%R; V2 1%R 2%R])] = Ok (h', 0%nat) /\ ~ images_kept [[]] h'.
Proof. exact DrawingProofs.marker_example. Qed.

(** One corner. *)
Example C125_corner_example :
  exists h', draw_charuco DrawingProofs.history [[]] 0 [(7%nat, [V2 1%R 1%R])] = Ok (h', 0%nat) /\ ~ images_kept [[]] h'.
Proof. exact DrawingProofs.corner_example. Qed.
