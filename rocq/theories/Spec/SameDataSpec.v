(** Vocabulary for the same measurements described in two ways. *)
From Coq Require Import Reals List Permutation.
From Verif.Base Require Import Geom.
From Verif.Model Require Import Pose HandEye.
From Verif.Spec Require Import Frames PinHole PnpSpec UniqueSpec.
Import ListNotations.
Local Open Scope R_scope.

(** One measured point: where the two mounts were, the point in the target frame, and what the camera measured. *)
Record sighting (I : Type) := Sighting { camera_mount : iso; target_mount : iso; point : vec3; measured : I }.
Arguments Sighting {I}. Arguments camera_mount {I}. Arguments target_mount {I}. Arguments point {I}. Arguments measured {I}.
Definition sightings {I} (os : list (observation I)) : list (sighting I) :=
  flat_map (fun o => map (fun c => Sighting (to_camera_mount o) (to_target_mount o) (in_target c) (in_image c))
                         (correspondence_set o)) os.

(** Where a calibration puts the point, in the frame of the camera. *)
Definition seen_at {I} (camera_mount_to_camera target_mount_to_target : iso) (s : sighting I) : vec3 :=
  iso_app (target_in_camera camera_mount_to_camera (camera_mount s) (target_mount s) target_mount_to_target) (point s).

(** The error of a calibration: half the sum of the squared distances, in the image or in space. *)
Definition image_error (k : intrinsics) (ss : list (sighting vec2)) (X Z : iso) : R :=
  half_squares (flat_map (fun s => let q := pinhole k (seen_at X Z s) in
                                   [px q - px (measured s); py q - py (measured s)]) ss).
Definition space_error (ss : list (sighting vec3)) (X Z : iso) : R :=
  half_squares (flat_map (fun s => let q := seen_at X Z s in
                                   [vx q - vx (measured s); vy q - vy (measured s); vz q - vz (measured s)]) ss).
(** No calibration that has all points in front of the camera has a smaller error. *)
Definition in_view (ss : list (sighting vec2)) (X Z : iso) : Prop :=
  rigid X /\ rigid Z /\ forall s, In s ss -> 0 < vz (seen_at X Z s).
Definition best_for_images (k : intrinsics) (ss : list (sighting vec2)) (X Z : iso) : Prop :=
  in_view ss X Z /\ forall X' Z', in_view ss X' Z' -> image_error k ss X Z <= image_error k ss X' Z'.
Definition best_in_space (ss : list (sighting vec3)) (X Z : iso) : Prop :=
  rigid X /\ rigid Z /\ forall X' Z', rigid X' -> rigid Z' -> space_error ss X Z <= space_error ss X' Z'.

(** Another unit of length: one old unit is [s] new ones. *)
Definition in_unit (s : R) (T : iso) : iso := Iso (lin T) (vscale s (tr T)).

(** The choices of the second description: the unit of length, the poses of the new frames of the camera mount, of the
    target mount and of the target in the old ones (in new units). *)
Record choices := Choices { unit_of_length : R; mount_c : iso; mount_t : iso; target_frame : iso }.
Definition sensible (h : choices) : Prop :=
  0 < unit_of_length h /\ rigid (mount_c h) /\ rigid (mount_t h) /\ rigid (target_frame h).
(** The same calibration in the new frames. *)
Definition new_camera (h : choices) (X : iso) : iso := iso_mul (iso_inv (mount_c h)) (in_unit (unit_of_length h) X).
Definition new_target (h : choices) (Z : iso) : iso :=
  iso_mul (iso_mul (iso_inv (mount_t h)) (in_unit (unit_of_length h) Z)) (target_frame h).
(** The same place of mounts and point in the new frames. The frame in which the two mount poses are given may be another
    one for every sighting: its old pose in the new one is [B]. *)
Definition same_place {I J} (h : choices) (a : sighting I) (b : sighting J) : Prop :=
  (exists B, rigid B /\
     camera_mount b = iso_mul (iso_mul B (in_unit (unit_of_length h) (camera_mount a))) (mount_c h) /\
     target_mount b = iso_mul (iso_mul B (in_unit (unit_of_length h) (target_mount a))) (mount_t h)) /\
  point b = iso_app (iso_inv (target_frame h)) (vscale (unit_of_length h) (point a)).

(** The same picture, resized by [m] and moved by [d], and the camera for such pictures. *)
Definition resized (m : R) (d p : vec2) : vec2 := V2 (m * px p + px d) (m * py p + py d).
Definition resized_camera (m : R) (d : vec2) (k : intrinsics) : intrinsics :=
  Intr (m * fx k) (m * fy k) (m * cx k + px d) (m * cy k + py d).

(** The same data in another order, in the new frames. *)
Definition same_images (h : choices) (m : R) (d : vec2) (ss ss' : list (sighting vec2)) : Prop :=
  exists l, Permutation l ss' /\
    Forall2 (fun a b => same_place h a b /\ measured b = resized m d (measured a)) ss l.
(** For measured points, the new frame of the camera has the pose [K] in the old one (in new units). *)
Definition same_points (h : choices) (K : iso) (ss ss' : list (sighting vec3)) : Prop :=
  exists l, Permutation l ss' /\
    Forall2 (fun a b => same_place h a b /\
                        measured b = iso_app (iso_inv K) (vscale (unit_of_length h) (measured a))) ss l.

(** The same for one picture of the target, whose pose in the camera frame is sought. *)
Definition pose_error (k : intrinsics) (cs : list (correspondence vec2)) (T : iso) : R := half_squares (flat_map (pixel_error k T) cs).
Definition pose_error3 (cs : list (correspondence vec3)) (T : iso) : R := half_squares (flat_map (point_error T) cs).
Definition best_pose (k : intrinsics) (cs : list (correspondence vec2)) (T : iso) : Prop :=
  rigid T /\ (forall c, In c cs -> 0 < vz (iso_app T (in_target c))) /\
  forall T', rigid T' -> (forall c, In c cs -> 0 < vz (iso_app T' (in_target c))) -> pose_error k cs T <= pose_error k cs T'.
Definition best_pose3 (cs : list (correspondence vec3)) (T : iso) : Prop :=
  rigid T /\ forall T', rigid T' -> pose_error3 cs T <= pose_error3 cs T'.
(** New unit [s], new frame of the target [G] and, for measured points, of the camera [K]. *)
Definition same_picture (s : R) (G : iso) (m : R) (d : vec2) (cs cs' : list (correspondence vec2)) : Prop :=
  exists l, Permutation l cs' /\
    Forall2 (fun a b => in_target b = iso_app (iso_inv G) (vscale s (in_target a)) /\ in_image b = resized m d (in_image a)) cs l.
Definition same_cloud (s : R) (G K : iso) (cs cs' : list (correspondence vec3)) : Prop :=
  exists l, Permutation l cs' /\
    Forall2 (fun a b => in_target b = iso_app (iso_inv G) (vscale s (in_target a)) /\
                        in_image b = iso_app (iso_inv K) (vscale s (in_image a))) cs l.
