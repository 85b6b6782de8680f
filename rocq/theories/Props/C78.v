(** C78: with perfect data and robot motions about two axes, a hand-eye result without error is the true calibration.
    [motions_of] lists the motions of the target mount in the frame of the camera mount between all pairs of observations,
    [two_axes] says that two of them turn about axes that are not parallel (Spec/UniqueSpec.v). *)
From Coq Require Import Reals Arith List.
From Verif.Base Require Import Geom Outcome.
From Verif.Model Require Import Pose Solver HandEye.
From Verif.Spec Require Import PinHole Frames PnpSpec UniqueSpec.
From Verif.Proofs Require Import UniqueProofs UniqueExamples.
Import ListNotations.
Local Open Scope R_scope.

(** Images. *)
Theorem C78_image_error_zero_iff_true_calibration :
  forall u solve cov p r X0 Z0,
  honest solve -> optimize2D3D u solve cov p = Ok r ->
  let seen X Z o := target_in_camera X (to_camera_mount o) (to_target_mount o) Z in
  plain_obs (h2_observations p) -> fx (h2_intr p) <> 0 -> fy (h2_intr p) <> 0 ->
  rigid X0 -> rigid Z0 ->
  rigid (he_camera_mount_to_camera r) -> rigid (he_target_mount_to_target r) ->
  (forall o, In o (h2_observations p) ->
     four_flat_points (map in_target (correspondence_set o)) /\
     ~ edge_on (seen X0 Z0 o) /\
     perfect_image (h2_intr p) (seen X0 Z0 o) (correspondence_set o) /\
     all_in_front (seen (he_camera_mount_to_camera r) (he_target_mount_to_target r) o) (correspondence_set o)) ->
  two_axes (motions_of (map mounts (h2_observations p))) ->
  (he_final_cost_per_obs r = 0 <-> he_camera_mount_to_camera r = X0 /\ he_target_mount_to_target r = Z0).
Proof. exact he_unique2. Qed.
Print Assumptions C78_image_error_zero_iff_true_calibration.

(** Measured points. *)
Theorem C78_point_error_zero_iff_true_calibration :
  forall u solve cov p r X0 Z0,
  honest solve -> optimize3D3D u solve cov p = Ok r ->
  let seen X Z o := target_in_camera X (to_camera_mount o) (to_target_mount o) Z in
  plain_obs (h3_observations p) -> rigid X0 -> rigid Z0 ->
  rigid (he_camera_mount_to_camera r) -> rigid (he_target_mount_to_target r) ->
  (forall o, In o (h3_observations p) ->
     not_on_a_line (map in_target (correspondence_set o)) /\
     perfect_points (seen X0 Z0 o) (correspondence_set o)) ->
  two_axes (motions_of (map mounts (h3_observations p))) ->
  (he_final_cost_per_obs r = 0 <-> he_camera_mount_to_camera r = X0 /\ he_target_mount_to_target r = Z0).
Proof. exact he_unique3. Qed.
Print Assumptions C78_point_error_zero_iff_true_calibration.

(** One axis is not enough: when all motions leave a direction alone, the calibration can be moved along it by any
    distance without any change in where the target is seen. *)
Theorem C78_one_axis_leaves_it_open :
  forall I (os : list (observation I)) X0 Z0 d s,
  rigid X0 -> rigid Z0 ->
  (forall o, In o os -> rigid (to_camera_mount o) /\ rigid (to_target_mount o)) ->
  (forall o o', In o os -> In o' os -> mvec (lin (motion o o')) d = d) ->
  exists X Z, rigid X /\ rigid Z /\ lin X = lin X0 /\ tr X = vadd (tr X0) (vscale s d) /\
    forall o, In o os ->
      target_in_camera X (to_camera_mount o) (to_target_mount o) Z =
      target_in_camera X0 (to_camera_mount o) (to_target_mount o) Z0.
Proof. exact (@one_axis_free). Qed.
Print Assumptions C78_one_axis_leaves_it_open.

(** When all motions leave a point alone, there is a second calibration that sees every point of a flat target at the
    mirrored place behind the camera ... *)
Theorem C78_turning_about_a_point_has_a_mirror_image :
  forall I (os : list (observation I)) X Z m,
  rigid X -> rigid Z ->
  (forall o, In o os -> rigid (to_camera_mount o) /\ rigid (to_target_mount o)) ->
  (forall o o', In o os -> In o' os -> iso_app (motion o o') m = m) ->
  exists X' Z', rigid X' /\ rigid Z' /\
    forall o, In o os -> forall v, vz v = 0 ->
      iso_app (target_in_camera X' (to_camera_mount o) (to_target_mount o) Z') v =
      vneg (iso_app (target_in_camera X (to_camera_mount o) (to_target_mount o) Z) v).
Proof. exact (@fixed_point_mirror). Qed.
Print Assumptions C78_turning_about_a_point_has_a_mirror_image.

(** ... which the projection used does not tell from the point itself. *)
Theorem C78_mirrored_point_has_the_same_pixel :
  forall k q,
  vz q <> 0 -> projectPoint_arr k (vneg q) = projectPoint_arr k q.
Proof. exact mirror_pixel. Qed.
Print Assumptions C78_mirrored_point_has_the_same_pixel.

Example C78_image_applies :
  exists u solve cov p r X0 Z0, honest solve /\ optimize2D3D u solve cov p = Ok r /\
  let seen X Z o := target_in_camera X (to_camera_mount o) (to_target_mount o) Z in
  plain_obs (h2_observations p) /\ fx (h2_intr p) <> 0 /\ fy (h2_intr p) <> 0 /\
  rigid X0 /\ rigid Z0 /\ rigid (he_camera_mount_to_camera r) /\ rigid (he_target_mount_to_target r) /\
  (forall o, In o (h2_observations p) ->
     four_flat_points (map in_target (correspondence_set o)) /\
     ~ edge_on (seen X0 Z0 o) /\
     perfect_image (h2_intr p) (seen X0 Z0 o) (correspondence_set o) /\
     all_in_front (seen (he_camera_mount_to_camera r) (he_target_mount_to_target r) o) (correspondence_set o)) /\
  two_axes (motions_of (map mounts (h2_observations p))).
Proof. exact ex_he_unique2. Qed.
Example C78_points_apply :
  exists u solve cov p r X0 Z0, honest solve /\ optimize3D3D u solve cov p = Ok r /\
  let seen X Z o := target_in_camera X (to_camera_mount o) (to_target_mount o) Z in
  plain_obs (h3_observations p) /\
  rigid X0 /\ rigid Z0 /\ rigid (he_camera_mount_to_camera r) /\ rigid (he_target_mount_to_target r) /\
  (forall o, In o (h3_observations p) ->
     not_on_a_line (map in_target (correspondence_set o)) /\
     perfect_points (seen X0 Z0 o) (correspondence_set o)) /\
  two_axes (motions_of (map mounts (h3_observations p))).
Proof. exact ex_he_unique3. Qed.
(** The data of this example are of the second kind: the target mount turns about its origin only. *)
Example C78_mirror_applies :
  exists m, forall o o', In o (h2_observations ex_he2) -> In o' (h2_observations ex_he2) ->
  iso_app (motion o o') m = m.
Proof. exact ex_fixed_point. Qed.
