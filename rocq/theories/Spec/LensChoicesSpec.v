(** Vocabulary for the pictures of an intrinsic calibration described in two ways. *)
From Coq Require Import Reals Arith List.
From Verif.Base Require Import Geom.
From Verif.Model Require Import Pose Solver HandEye BlockSolver Intrinsic.
From Verif.Spec Require Import Frames PnpSpec IntrinsicSpec UniqueSpec SameDataSpec RigChoicesSpec.
Import ListNotations.
Local Open Scope R_scope.

(** The points of image [i]. *)
Definition picture (p : intrinsic_problem) (i : nat) : list (correspondence vec2) := nth i (ip_image_observations p) [].
(** In every image the target has a rigid pose and all its points lie in front of the camera. *)
Definition in_view_of_lens (p : intrinsic_problem) (T : nat -> iso) : Prop :=
  forall i, (i < length (ip_image_observations p))%nat ->
  rigid (T i) /\ forall c, In c (picture p i) -> 0 < vz (iso_app (T i) (in_target c)).
(** Half the sum of the squared distances in the images, for a camera with a lens and a pose of the target in every image. *)
Definition lens_sum (p : intrinsic_problem) (k : intrinsics) (d : distortion) (T : nat -> iso) : R :=
  half_squares (flat_map (fun i => flat_map (lens_error k d (T i)) (picture p i)) (seq 0 (length (ip_image_observations p)))).
(** No camera, lens and poses fit better. *)
Definition best_lens (p : intrinsic_problem) (k : intrinsics) (d : distortion) (T : nat -> iso) : Prop :=
  in_view_of_lens p T /\ forall k' d' T', in_view_of_lens p T' -> lens_sum p k d T <= lens_sum p k' d' T'.

(** Where an optimization ends, is a best fit. *)
Definition ends_at_best (p : intrinsic_problem) (m : mem) : Prop :=
  let n := length (ip_image_observations p) in
  best_lens p (camera_of (m n)) (lens_of (m n)) (fun i => poseCalToEigen (read_pose m i)).
(** The lens with these coefficients. *)
Definition lens_with (l : list R) : distortion := Dist (nth 0 l 0) (nth 1 l 0) (nth 2 l 0) (nth 3 l 0) (nth 4 l 0).

(** The choices of the second description: for every image the unit of length (one old unit is [pic_unit i] new ones) and
    the frame of the target (with pose [pic_target i] in the old one, in new units); the pictures are resized by [pic_zoom]
    and moved by [pic_shift]; what is now image [i] was image [pic_was i]. *)
Record picture_choices := PictureChoices {
  pic_unit : nat -> R; pic_target : nat -> iso; pic_zoom : R; pic_shift : vec2; pic_was : nat -> nat }.
Definition sensible_pictures (h : picture_choices) : Prop :=
  (forall i, 0 < pic_unit h i /\ rigid (pic_target h i)) /\ pic_zoom h <> 0.
Definition same_pictures (h : picture_choices) (p p' : intrinsic_problem) : Prop :=
  let n := length (ip_image_observations p) in
  length (ip_image_observations p') = n /\ reorders (pic_was h) n /\
  forall i, (i < n)%nat ->
    same_picture (pic_unit h i) (pic_target h i) (pic_zoom h) (pic_shift h) (picture p (pic_was h i)) (picture p' i).
