(** C45: YAML round trip of hand-eye results. *)
From Coq Require Import Reals String List Lra.
From Verif.Base Require Import Geom Outcome.
From Verif.Model Require Import Pose Covariance HandEye Yaml Serialization.
From Verif.Spec Require Import YamlSpec.
From Verif.Proofs Require Import EulerProofs.
Local Open Scope R_scope.

(** The full property fails: the roll and the yaw are exchanged on the way back. *)
Theorem C45_round_trip_refuted :
  ~ (forall c0 r, rigid (he_target_mount_to_target r) -> rigid (he_camera_mount_to_camera r) ->
     exists r', as_ (decode_result c0) (encode_result r) = Ok r' /\
       he_target_mount_to_target r' = he_target_mount_to_target r /\ he_camera_mount_to_camera r' = he_camera_mount_to_camera r).
Proof. exact result_wrong. Qed.
Print Assumptions C45_round_trip_refuted.

(** What comes back, for every result: convergence, costs and positions are kept, the orientations are [swapped]. *)
Theorem C45_round_trip_value : forall r c0,
  as_ (decode_result c0) (encode_result r) =
  Ok (HER (he_converged r) (he_initial_cost_per_obs r) (he_final_cost_per_obs r)
          (swapped (he_target_mount_to_target r)) (swapped (he_camera_mount_to_camera r)) c0).
Proof. exact result_reads. Qed.
Print Assumptions C45_round_trip_value.

(** It holds for orientations whose roll equals their yaw. *)
Theorem C45_round_trip_partial : forall r c0,
  rigid (he_target_mount_to_target r) -> rigid (he_camera_mount_to_camera r) ->
  let t := eulerAngles210 (lin (he_target_mount_to_target r)) in
  let c := eulerAngles210 (lin (he_camera_mount_to_camera r)) in
  vz t = vx t -> vz c = vx c ->
  as_ (decode_result c0) (encode_result r) =
  Ok (HER (he_converged r) (he_initial_cost_per_obs r) (he_final_cost_per_obs r)
          (he_target_mount_to_target r) (he_camera_mount_to_camera r) c0).
Proof. exact result_same. Qed.
Print Assumptions C45_round_trip_partial.

(** Away from the poles of the angles these are the only ones that survive. *)
Theorem C45_survives_iff : forall T, rigid T -> Rabs (m20 (lin T)) < 1 ->
  (swapped T = T <-> vz (eulerAngles210 (lin T)) = vx (eulerAngles210 (lin T))).
Proof. exact swapped_iff. Qed.
Print Assumptions C45_survives_iff.

(** A turn about z comes back as the same turn about x. *)
Theorem C45_yaw_becomes_roll : forall a t, 0 < a < PI -> swapped (Iso (rot_z a) t) = Iso (rot_x a) t.
Proof. exact yaw_becomes_roll. Qed.
Print Assumptions C45_yaw_becomes_roll.

(** The written angles themselves are right: roll, pitch and yaw about fixed axes make up the rotation. *)
Theorem C45_written_angles : forall m, is_rot m -> let e := eulerAngles210 m in rpy_matrix (vz e) (vy e) (vx e) = m.
Proof. exact euler_spec. Qed.
Print Assumptions C45_written_angles.

(** The identity has roll = yaw = 0. *)
Example C45_identity : rigid (Iso (rot_z 0) vzero) /\ swapped (Iso (rot_z 0) vzero) = Iso (rot_z 0) vzero.
Proof. exact identity_kept. Qed.
