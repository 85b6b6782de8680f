(** C111: exactly when perfect data determine a hand-eye calibration, and what is left open otherwise. [motions_of] lists how
    the target mount moved in the frame of the camera mount between all pairs of observations (Spec/UniqueSpec.v). The motions
    [tell_all] when they leave no direction alone and keep no line. [alternative] and [static_alternative] describe the
    calibrations that explain the same data (Spec/DeterminedSpec.v). *)
From Coq Require Import Reals List Arith.
From Verif.Base Require Import Geom Outcome.
From Verif.Model Require Import Pose Covariance Solver HandEye BlockSolver MultiCamera.
From Verif.Spec Require Import PinHole Frames PnpSpec MultiSpec UniqueSpec DeterminedSpec.
From Verif.Proofs Require Import DeterminedProofs DeterminedStatic DeterminedExample.
Import ListNotations.
Local Open Scope R_scope.

(** Images: the results without error are the alternatives to the true calibration. *)
Theorem C111_images_without_error :
  forall u solve cov p r X0 Z0,
  honest solve -> optimize2D3D u solve cov p = Ok r ->
  let seen X Z o := target_in_camera X (to_camera_mount o) (to_target_mount o) Z in
  plain_obs (h2_observations p) -> fx (h2_intr p) <> 0 -> fy (h2_intr p) <> 0 ->
  rigid X0 -> rigid Z0 ->
  rigid (he_camera_mount_to_camera r) -> rigid (he_target_mount_to_target r) ->
  (forall o, In o (h2_observations p) ->
     four_flat_points (map in_target (correspondence_set o)) /\
     ~ edge_on (seen X0 Z0 o) /\
     perfect_image (h2_intr p) (seen X0 Z0 o) (correspondence_set o) /\
     all_in_front (seen (he_camera_mount_to_camera r) (he_target_mount_to_target r) o) (correspondence_set o)) ->
  h2_observations p <> [] ->
  (he_final_cost_per_obs r = 0 <->
   alternative (map mounts (h2_observations p)) X0 Z0 (he_camera_mount_to_camera r) (he_target_mount_to_target r)).
Proof. exact images_alternatives. Qed.
Print Assumptions C111_images_without_error.

(** Measured points. *)
Theorem C111_points_without_error :
  forall u solve cov p r X0 Z0,
  honest solve -> optimize3D3D u solve cov p = Ok r ->
  let seen X Z o := target_in_camera X (to_camera_mount o) (to_target_mount o) Z in
  plain_obs (h3_observations p) -> rigid X0 -> rigid Z0 ->
  rigid (he_camera_mount_to_camera r) -> rigid (he_target_mount_to_target r) ->
  (forall o, In o (h3_observations p) ->
     not_on_a_line (map in_target (correspondence_set o)) /\
     perfect_points (seen X0 Z0 o) (correspondence_set o)) ->
  h3_observations p <> [] ->
  (he_final_cost_per_obs r = 0 <->
   alternative (map mounts (h3_observations p)) X0 Z0 (he_camera_mount_to_camera r) (he_target_mount_to_target r)).
Proof. exact points_alternatives. Qed.
Print Assumptions C111_points_without_error.

(** If the motions tell all, the true calibration is the only result without error. *)
Theorem C111_images_tell :
  forall u solve cov p r X0 Z0,
  honest solve -> optimize2D3D u solve cov p = Ok r ->
  let seen X Z o := target_in_camera X (to_camera_mount o) (to_target_mount o) Z in
  plain_obs (h2_observations p) -> fx (h2_intr p) <> 0 -> fy (h2_intr p) <> 0 ->
  rigid X0 -> rigid Z0 ->
  rigid (he_camera_mount_to_camera r) -> rigid (he_target_mount_to_target r) ->
  (forall o, In o (h2_observations p) ->
     four_flat_points (map in_target (correspondence_set o)) /\
     ~ edge_on (seen X0 Z0 o) /\
     perfect_image (h2_intr p) (seen X0 Z0 o) (correspondence_set o) /\
     all_in_front (seen (he_camera_mount_to_camera r) (he_target_mount_to_target r) o) (correspondence_set o)) ->
  h2_observations p <> [] -> tell_all (motions_of (map mounts (h2_observations p))) ->
  (he_final_cost_per_obs r = 0 <-> he_camera_mount_to_camera r = X0 /\ he_target_mount_to_target r = Z0).
Proof. exact images_told. Qed.
Print Assumptions C111_images_tell.

(** Three images between which the mount turned about two axes. *)
Example C111_images_case : exists u solve cov p r X0 Z0, honest solve /\ optimize2D3D u solve cov p = Ok r /\
  let seen X Z o := target_in_camera X (to_camera_mount o) (to_target_mount o) Z in
  plain_obs (h2_observations p) /\ fx (h2_intr p) <> 0 /\ fy (h2_intr p) <> 0 /\
  rigid X0 /\ rigid Z0 /\ rigid (he_camera_mount_to_camera r) /\ rigid (he_target_mount_to_target r) /\
  (forall o, In o (h2_observations p) ->
     four_flat_points (map in_target (correspondence_set o)) /\
     ~ edge_on (seen X0 Z0 o) /\
     perfect_image (h2_intr p) (seen X0 Z0 o) (correspondence_set o) /\
     all_in_front (seen (he_camera_mount_to_camera r) (he_target_mount_to_target r) o) (correspondence_set o)) /\
  h2_observations p <> [] /\ tell_all (motions_of (map mounts (h2_observations p))).
Proof. exact told_images_case. Qed.

(** Measured points. *)
Theorem C111_points_tell :
  forall u solve cov p r X0 Z0,
  honest solve -> optimize3D3D u solve cov p = Ok r ->
  let seen X Z o := target_in_camera X (to_camera_mount o) (to_target_mount o) Z in
  plain_obs (h3_observations p) -> rigid X0 -> rigid Z0 ->
  rigid (he_camera_mount_to_camera r) -> rigid (he_target_mount_to_target r) ->
  (forall o, In o (h3_observations p) ->
     not_on_a_line (map in_target (correspondence_set o)) /\
     perfect_points (seen X0 Z0 o) (correspondence_set o)) ->
  h3_observations p <> [] -> tell_all (motions_of (map mounts (h3_observations p))) ->
  (he_final_cost_per_obs r = 0 <-> he_camera_mount_to_camera r = X0 /\ he_target_mount_to_target r = Z0).
Proof. exact points_told. Qed.
Print Assumptions C111_points_tell.

(** Three measurements. *)
Example C111_points_case : exists u solve cov p r X0 Z0, honest solve /\ optimize3D3D u solve cov p = Ok r /\
  let seen X Z o := target_in_camera X (to_camera_mount o) (to_target_mount o) Z in
  plain_obs (h3_observations p) /\
  rigid X0 /\ rigid Z0 /\ rigid (he_camera_mount_to_camera r) /\ rigid (he_target_mount_to_target r) /\
  (forall o, In o (h3_observations p) ->
     not_on_a_line (map in_target (correspondence_set o)) /\
     perfect_points (seen X0 Z0 o) (correspondence_set o)) /\
  h3_observations p <> [] /\ tell_all (motions_of (map mounts (h3_observations p))).
Proof. exact told_points_case. Qed.

(** If they do not, every calibration has a rival: the target is at the same place in the camera in every observation. *)
Theorem C111_otherwise_another :
  forall I (os : list (observation I)) X0 Z0,
  rigid X0 -> rigid Z0 ->
  (forall o, In o os -> rigid (to_camera_mount o) /\ rigid (to_target_mount o)) ->
  leave_a_direction (motions_of (map mounts os)) \/ keep_a_line (motions_of (map mounts os)) ->
  exists X Z, rigid X /\ rigid Z /\ X <> X0 /\
    forall o, In o os -> target_in_camera X (to_camera_mount o) (to_target_mount o) Z =
      target_in_camera X0 (to_camera_mount o) (to_target_mount o) Z0.
Proof. exact another_calibration. Qed.
Print Assumptions C111_otherwise_another.

(** Half turns about two perpendicular axes leave no direction alone, but they keep the line across both: they do not tell all. *)
Example C111_half_turns : ~ leave_a_direction (motions_of halves) /\ keep_a_line (motions_of halves) /\
  (exists A B, In A (motions_of halves) /\ In B (motions_of halves) /\ lin A = aa_matrix PI unitX /\ lin B = aa_matrix PI unitY).
Proof. exact ex_halves. Qed.

(** What it means that motions tell all: whatever moves the camera and leaves all motions as they were moves nothing. *)
Theorem C111_what_tells_all :
  forall As,
  (forall A, In A As -> rigid A) ->
  tell_all As <-> (forall G, rigid G -> (forall A, In A As -> iso_mul G A = iso_mul A G) -> G = iso_id).
Proof. exact only_identity_commutes. Qed.
Print Assumptions C111_what_tells_all.

(** Turns about two axes, not half turns, tell all. *)
Theorem C111_two_axes_tell_all :
  forall As,
  (forall A, In A As -> rigid A) -> two_axes As -> tell_all As.
Proof. exact two_axes_tell. Qed.
Print Assumptions C111_two_axes_tell_all.

(** Cameras at rest and a target on the wrist: the results without error. *)
Theorem C111_static_cameras_without_error :
  forall u solve cov p r C0 Z0,
  let n := List.length (sp_base_to_camera_guess p) in
  let k c := nth c (sp_intr p) intr0 in
  let wrist c i := nth i (nth c (sp_wrist_poses p) []) iso_id in
  let images c := List.length (nth c (sp_wrist_poses p) []) in
  let image c i := nth i (nth c (sp_image_observations p) []) [] in
  let seen C Z c i := iso_mul (iso_inv (C c)) (iso_mul (wrist c i) Z) in
  let found c := nth c (sr_base_to_camera r) iso_id in
  honest_blocks solve -> optimizeStatic u solve cov p = Ok r -> static_sizes p -> plain_wrists p ->
  (forall c, (c < n)%nat -> rigid (C0 c)) -> rigid Z0 ->
  (forall T, In T (sr_base_to_camera r) -> rigid T) -> rigid (sr_wrist_to_target r) ->
  (forall c i, (c < n)%nat -> (i < images c)%nat ->
     perfect_image (k c) (seen C0 Z0 c i) (image c i) /\
     all_in_front (seen found (sr_wrist_to_target r) c i) (image c i)) ->
  (forall c i, (c < n)%nat -> (i < images c)%nat -> usable (k c) (seen C0 Z0 c i) (image c i)) ->
  (exists c i, (c < n)%nat /\ (i < images c)%nat) ->
  (sr_final_cost_per_obs r = 0 <->
   static_alternative n images wrist C0 Z0 found (sr_wrist_to_target r)).
Proof. exact static_alternatives. Qed.
Print Assumptions C111_static_cameras_without_error.

(** What counts are the motions of the wrist before all cameras together. *)
Theorem C111_static_cameras_tell :
  forall u solve cov p r C0 Z0,
  let n := List.length (sp_base_to_camera_guess p) in
  let k c := nth c (sp_intr p) intr0 in
  let wrist c i := nth i (nth c (sp_wrist_poses p) []) iso_id in
  let images c := List.length (nth c (sp_wrist_poses p) []) in
  let image c i := nth i (nth c (sp_image_observations p) []) [] in
  let seen C Z c i := iso_mul (iso_inv (C c)) (iso_mul (wrist c i) Z) in
  let found c := nth c (sr_base_to_camera r) iso_id in
  honest_blocks solve -> optimizeStatic u solve cov p = Ok r -> static_sizes p -> plain_wrists p ->
  (forall c, (c < n)%nat -> rigid (C0 c)) -> rigid Z0 ->
  (forall T, In T (sr_base_to_camera r) -> rigid T) -> rigid (sr_wrist_to_target r) ->
  (forall c i, (c < n)%nat -> (i < images c)%nat ->
     perfect_image (k c) (seen C0 Z0 c i) (image c i) /\
     all_in_front (seen found (sr_wrist_to_target r) c i) (image c i)) ->
  (forall c i, (c < n)%nat -> (i < images c)%nat -> usable (k c) (seen C0 Z0 c i) (image c i)) ->
  (0 < n)%nat -> (forall c, (c < n)%nat -> (0 < images c)%nat) ->
  tell_all (wrist_motions n images wrist) ->
  (sr_final_cost_per_obs r = 0 <->
   sr_base_to_camera r = map C0 (seq 0 n) /\ sr_wrist_to_target r = Z0).
Proof. exact static_told. Qed.
Print Assumptions C111_static_cameras_tell.

(** The wrist turns about one axis before one camera and about another before the other. Neither camera could do alone. *)
Example C111_static_cameras_case : exists u solve cov p r C0 Z0,
  let n := List.length (sp_base_to_camera_guess p) in
  let k c := nth c (sp_intr p) intr0 in
  let wrist c i := nth i (nth c (sp_wrist_poses p) []) iso_id in
  let images c := List.length (nth c (sp_wrist_poses p) []) in
  let image c i := nth i (nth c (sp_image_observations p) []) [] in
  let seen C Z c i := iso_mul (iso_inv (C c)) (iso_mul (wrist c i) Z) in
  let found c := nth c (sr_base_to_camera r) iso_id in
  honest_blocks solve /\ optimizeStatic u solve cov p = Ok r /\ static_sizes p /\ plain_wrists p /\
  (forall c, (c < n)%nat -> rigid (C0 c)) /\ rigid Z0 /\
  (forall T, In T (sr_base_to_camera r) -> rigid T) /\ rigid (sr_wrist_to_target r) /\
  (forall c i, (c < n)%nat -> (i < images c)%nat ->
     perfect_image (k c) (seen C0 Z0 c i) (image c i) /\
     all_in_front (seen found (sr_wrist_to_target r) c i) (image c i)) /\
  (forall c i, (c < n)%nat -> (i < images c)%nat -> usable (k c) (seen C0 Z0 c i) (image c i)) /\
  n = 2%nat /\ (forall c, (c < n)%nat -> (0 < images c)%nat) /\
  tell_all (wrist_motions n images wrist) /\
  (forall c, (c < n)%nat -> leave_a_direction (wrist_motions 1 (fun _ => images c) (fun _ => wrist c))) /\
  sr_final_cost_per_obs r = 0.
Proof. exact split_case. Qed.

(** Otherwise there is another place for the target on the wrist that looks the same to all cameras. *)
Theorem C111_static_cameras_otherwise_another :
  forall n images wrist,
  (forall c i, (c < n)%nat -> (i < images c)%nat -> rigid (wrist c i)) ->
  forall C0 Z0,
  (forall c, (c < n)%nat -> rigid (C0 c)) -> rigid Z0 ->
    leave_a_direction (wrist_motions n images wrist) \/ keep_a_line (wrist_motions n images wrist) ->
    exists C Z, (forall c, (c < n)%nat -> rigid (C c)) /\ rigid Z /\ Z <> Z0 /\
      forall c i, (c < n)%nat -> (i < images c)%nat ->
        iso_mul (iso_inv (C c)) (iso_mul (wrist c i) Z) = iso_mul (iso_inv (C0 c)) (iso_mul (wrist c i) Z0).
Proof. exact static_another. Qed.
Print Assumptions C111_static_cameras_otherwise_another.
