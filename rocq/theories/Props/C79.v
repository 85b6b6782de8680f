(** C79: with perfect data, when the result of a calibration with several cameras without error is the true one.
    [usable] says that the pose of the target can be told from an image (Spec/UniqueSpec.v). *)
From Coq Require Import Reals Arith List.
From Verif.Base Require Import Geom Outcome.
From Verif.Model Require Import Pose Solver HandEye BlockSolver MultiCamera.
From Verif.Spec Require Import PinHole Frames PnpSpec MultiSpec UniqueSpec.
From Verif.Proofs Require Import UniqueMulti UniqueMultiExamples.
Import ListNotations.
Local Open Scope R_scope.

(** PnP with several cameras: one of them has a usable image. *)
Theorem C79_multi_camera_pnp :
  forall solve p r B0,
  let n := List.length (mp_base_to_camera p) in
  let k c := nth c (mp_intr p) intr0 in
  let image c := nth c (mp_image_observations p) [] in
  let seen B c := iso_mul (iso_inv (nth c (mp_base_to_camera p) iso_id)) B in
  honest_blocks solve -> optimizeMpnp solve p = Ok r -> mpnp_sizes p ->
  (forall T, In T (mp_base_to_camera p) -> plain_pose T) ->
  rigid B0 -> rigid (mr_base_to_target r) ->
  (forall c, (c < n)%nat -> perfect_image (k c) (seen B0 c) (image c) /\
                       all_in_front (seen (mr_base_to_target r) c) (image c)) ->
  (exists c, (c < n)%nat /\ usable (k c) (seen B0 c) (image c)) ->
  (mr_final_cost_per_obs r = 0 <-> mr_base_to_target r = B0).
Proof. exact mpnp_unique. Qed.
Print Assumptions C79_multi_camera_pnp.

(** Static cameras and a target on the wrist: every camera has a usable image, and between the usable images of one
    camera the wrist turned about two axes. *)
Theorem C79_static_cameras :
  forall u solve cov p r C0 Z0,
  let n := List.length (sp_base_to_camera_guess p) in
  let k c := nth c (sp_intr p) intr0 in
  let wrist c i := nth i (nth c (sp_wrist_poses p) []) iso_id in
  let images c := List.length (nth c (sp_wrist_poses p) []) in
  let image c i := nth i (nth c (sp_image_observations p) []) [] in
  let seen C Z c i := iso_mul (iso_inv (C c)) (iso_mul (wrist c i) Z) in
  let found c := nth c (sr_base_to_camera r) iso_id in
  honest_blocks solve -> optimizeStatic u solve cov p = Ok r -> static_sizes p -> plain_wrists p ->
  (forall c, (c < n)%nat -> rigid (C0 c)) -> rigid Z0 ->
  (forall T, In T (sr_base_to_camera r) -> rigid T) -> rigid (sr_wrist_to_target r) ->
  (forall c i, (c < n)%nat -> (i < images c)%nat ->
     perfect_image (k c) (seen C0 Z0 c i) (image c i) /\
     all_in_front (seen found (sr_wrist_to_target r) c i) (image c i)) ->
  (exists c chosen, (c < n)%nat /\
     (forall i, In i chosen -> (i < images c)%nat /\ usable (k c) (seen C0 Z0 c i) (image c i)) /\
     two_axes (motions_of (map (wrist c) chosen))) ->
  (forall c, (c < n)%nat -> exists i, (i < images c)%nat /\ usable (k c) (seen C0 Z0 c i) (image c i)) ->
  (sr_final_cost_per_obs r = 0 <->
   sr_base_to_camera r = map C0 (seq 0 n) /\ sr_wrist_to_target r = Z0).
Proof. exact static_unique. Qed.
Print Assumptions C79_static_cameras.

(** Wrist only: the guesses are right up to a common motion K0 of all cameras. One camera suffices. *)
Theorem C79_wrist_only :
  forall solve p r K0 Z0,
  let n := List.length (wp_base_to_camera_guess p) in
  let k c := nth c (wp_intr p) intr0 in
  let wrist i := nth i (wp_wrist_poses p) iso_id in
  let image c i := nth i (nth c (wp_image_observations p) []) [] in
  let truth c := iso_mul K0 (nth c (wp_base_to_camera_guess p) iso_id) in
  let found c := nth c (wr_base_to_camera r) iso_id in
  let seen C Z c i := iso_mul (iso_inv (C c)) (iso_mul (wrist i) Z) in
  honest_blocks solve -> optimizeWrist solve p = Ok r -> wrist_sizes p ->
  (forall T, In T (wp_wrist_poses p) -> plain_pose T) -> (forall T, In T (wp_base_to_camera_guess p) -> plain_pose T) ->
  rigid K0 -> rigid Z0 ->
  (forall T, In T (wr_base_to_camera r) -> rigid T) -> rigid (wr_wrist_to_target r) ->
  (forall c i, (c < n)%nat -> (i < List.length (wp_wrist_poses p))%nat ->
     perfect_image (k c) (seen truth Z0 c i) (image c i) /\
     all_in_front (seen found (wr_wrist_to_target r) c i) (image c i)) ->
  (exists c chosen, (c < n)%nat /\
     (forall i, In i chosen -> (i < List.length (wp_wrist_poses p))%nat /\ usable (k c) (seen truth Z0 c i) (image c i)) /\
     two_axes (motions_of (map wrist chosen))) ->
  (wr_final_cost_per_obs r = 0 <->
   wr_base_to_camera r = map truth (seq 0 n) /\ wr_wrist_to_target r = Z0).
Proof. exact wrist_unique. Qed.
Print Assumptions C79_wrist_only.

(** Cameras only, with a fixed first camera: what is linked to it by usable images is right. *)
Theorem C79_cameras_only_fixed :
  forall solve p r C0 B0,
  let n := List.length (op_base_to_camera_guess p) in
  let images := List.length (op_base_to_target_guess p) in
  let k c := nth c (op_intr p) intr0 in
  let image c i := nth i (nth c (op_image_observations p) []) [] in
  let camera c := nth c (or_base_to_camera r) iso_id in
  let target i := nth i (or_base_to_target r) iso_id in
  let seen (C B : nat -> iso) c i := iso_mul (iso_inv (C c)) (B i) in
  let good c i := (c < n)%nat /\ (i < images)%nat /\ usable (k c) (seen C0 B0 c i) (image c i) in
  honest_blocks solve -> leaves_others solve -> optimizeOnly solve p = Ok r -> only_sizes p ->
  op_fix_first_camera p = true -> nth_error (op_base_to_camera_guess p) 0 = Some (C0 0%nat) -> plain_pose (C0 0%nat) ->
  op_base_to_target_guess p <> [] ->
  (forall c, (c < n)%nat -> rigid (C0 c)) -> (forall i, (i < images)%nat -> rigid (B0 i)) ->
  (forall T, In T (or_base_to_camera r) -> rigid T) -> (forall T, In T (or_base_to_target r) -> rigid T) ->
  (forall c i, (c < n)%nat -> (i < images)%nat ->
    perfect_image (k c) (seen C0 B0 c i) (image c i) /\ all_in_front (seen camera target c i) (image c i)) ->
  or_final_cost_per_obs r = 0 ->
  (forall c, linked_camera good 0 c -> (c < n)%nat -> camera c = C0 c) /\
  (forall i, linked_image good 0 i -> (i < images)%nat -> target i = B0 i).
Proof. exact only_unique_fixed. Qed.
Print Assumptions C79_cameras_only_fixed.

(** Cameras only: what is linked to a camera by usable images is right up to a motion common to all of it ... *)
Theorem C79_cameras_only_up_to_a_motion :
  forall solve p r C0 B0,
  let n := List.length (op_base_to_camera_guess p) in
  let images := List.length (op_base_to_target_guess p) in
  let k c := nth c (op_intr p) intr0 in
  let image c i := nth i (nth c (op_image_observations p) []) [] in
  let camera c := nth c (or_base_to_camera r) iso_id in
  let target i := nth i (or_base_to_target r) iso_id in
  let seen (C B : nat -> iso) c i := iso_mul (iso_inv (C c)) (B i) in
  let good c i := (c < n)%nat /\ (i < images)%nat /\ usable (k c) (seen C0 B0 c i) (image c i) in
  honest_blocks solve -> leaves_others solve -> optimizeOnly solve p = Ok r -> only_sizes p ->
  (op_fix_first_camera p = true -> forall T, nth_error (op_base_to_camera_guess p) 0 = Some T -> plain_pose T) ->
  (forall c, (c < n)%nat -> rigid (C0 c)) -> (forall i, (i < images)%nat -> rigid (B0 i)) ->
  (forall T, In T (or_base_to_camera r) -> rigid T) -> (forall T, In T (or_base_to_target r) -> rigid T) ->
  (forall c i, (c < n)%nat -> (i < images)%nat ->
    perfect_image (k c) (seen C0 B0 c i) (image c i) /\ all_in_front (seen camera target c i) (image c i)) ->
  forall a, (a < n)%nat -> or_final_cost_per_obs r = 0 ->
  let M := iso_mul (camera a) (iso_inv (C0 a)) in
  (forall c, linked_camera good a c -> (c < n)%nat -> camera c = iso_mul M (C0 c)) /\
  (forall i, linked_image good a i -> (i < images)%nat -> target i = iso_mul M (B0 i)).
Proof. exact only_unique. Qed.
Print Assumptions C79_cameras_only_up_to_a_motion.

(** ... which cannot be told: moving cameras and targets together changes no error. *)
Theorem C79_common_motion_is_not_seen :
  forall p C B M v,
  rigid M -> (forall c, (c < List.length (op_base_to_camera_guess p))%nat -> rigid (C c)) ->
  In v (only_views p) ->
  only_error p (fun c => iso_mul M (C c)) (fun i => iso_mul M (B i)) v = only_error p C B v.
Proof. exact only_common_motion. Qed.
Print Assumptions C79_common_motion_is_not_seen.

Example C79_multi_camera_pnp_applies :
  exists solve p r B0,
  let n := List.length (mp_base_to_camera p) in
  let k c := nth c (mp_intr p) intr0 in
  let image c := nth c (mp_image_observations p) [] in
  let seen B c := iso_mul (iso_inv (nth c (mp_base_to_camera p) iso_id)) B in
  honest_blocks solve /\ optimizeMpnp solve p = Ok r /\ mpnp_sizes p /\
  (forall T, In T (mp_base_to_camera p) -> plain_pose T) /\
  rigid B0 /\ rigid (mr_base_to_target r) /\
  (forall c, (c < n)%nat -> perfect_image (k c) (seen B0 c) (image c) /\
                       all_in_front (seen (mr_base_to_target r) c) (image c)) /\
  (exists c, (c < n)%nat /\ usable (k c) (seen B0 c) (image c)) /\
  mr_final_cost_per_obs r = 0.
Proof. exact ex_mp_unique. Qed.
Example C79_static_applies :
  exists u solve cov p r C0 Z0,
  let n := List.length (sp_base_to_camera_guess p) in
  let k c := nth c (sp_intr p) intr0 in
  let wrist c i := nth i (nth c (sp_wrist_poses p) []) iso_id in
  let images c := List.length (nth c (sp_wrist_poses p) []) in
  let image c i := nth i (nth c (sp_image_observations p) []) [] in
  let seen C Z c i := iso_mul (iso_inv (C c)) (iso_mul (wrist c i) Z) in
  let found c := nth c (sr_base_to_camera r) iso_id in
  honest_blocks solve /\ optimizeStatic u solve cov p = Ok r /\ static_sizes p /\ plain_wrists p /\
  (forall c, (c < n)%nat -> rigid (C0 c)) /\ rigid Z0 /\
  (forall T, In T (sr_base_to_camera r) -> rigid T) /\ rigid (sr_wrist_to_target r) /\
  (forall c i, (c < n)%nat -> (i < images c)%nat ->
     perfect_image (k c) (seen C0 Z0 c i) (image c i) /\
     all_in_front (seen found (sr_wrist_to_target r) c i) (image c i)) /\
  (exists c chosen, (c < n)%nat /\
     (forall i, In i chosen -> (i < images c)%nat /\ usable (k c) (seen C0 Z0 c i) (image c i)) /\
     two_axes (motions_of (map (wrist c) chosen))) /\
  (forall c, (c < n)%nat -> exists i, (i < images c)%nat /\ usable (k c) (seen C0 Z0 c i) (image c i)) /\
  sr_final_cost_per_obs r = 0.
Proof. exact ex_sp_unique. Qed.
Example C79_wrist_only_applies :
  exists solve p r K0 Z0,
  let n := List.length (wp_base_to_camera_guess p) in
  let k c := nth c (wp_intr p) intr0 in
  let wrist i := nth i (wp_wrist_poses p) iso_id in
  let image c i := nth i (nth c (wp_image_observations p) []) [] in
  let truth c := iso_mul K0 (nth c (wp_base_to_camera_guess p) iso_id) in
  let found c := nth c (wr_base_to_camera r) iso_id in
  let seen C Z c i := iso_mul (iso_inv (C c)) (iso_mul (wrist i) Z) in
  honest_blocks solve /\ optimizeWrist solve p = Ok r /\ wrist_sizes p /\
  (forall T, In T (wp_wrist_poses p) -> plain_pose T) /\ (forall T, In T (wp_base_to_camera_guess p) -> plain_pose T) /\
  rigid K0 /\ rigid Z0 /\
  (forall T, In T (wr_base_to_camera r) -> rigid T) /\ rigid (wr_wrist_to_target r) /\
  (forall c i, (c < n)%nat -> (i < List.length (wp_wrist_poses p))%nat ->
     perfect_image (k c) (seen truth Z0 c i) (image c i) /\
     all_in_front (seen found (wr_wrist_to_target r) c i) (image c i)) /\
  (exists c chosen, (c < n)%nat /\
     (forall i, In i chosen -> (i < List.length (wp_wrist_poses p))%nat /\ usable (k c) (seen truth Z0 c i) (image c i)) /\
     two_axes (motions_of (map wrist chosen))) /\
  wr_final_cost_per_obs r = 0.
Proof. exact ex_wp_unique. Qed.
Example C79_cameras_only_applies :
  exists solve p r C0 B0,
  let n := List.length (op_base_to_camera_guess p) in
  let images := List.length (op_base_to_target_guess p) in
  let k c := nth c (op_intr p) intr0 in
  let image c i := nth i (nth c (op_image_observations p) []) [] in
  let camera c := nth c (or_base_to_camera r) iso_id in
  let target i := nth i (or_base_to_target r) iso_id in
  let seen (C B : nat -> iso) c i := iso_mul (iso_inv (C c)) (B i) in
  let good c i := (c < n)%nat /\ (i < images)%nat /\ usable (k c) (seen C0 B0 c i) (image c i) in
  honest_blocks solve /\ leaves_others solve /\ optimizeOnly solve p = Ok r /\ only_sizes p /\
  op_fix_first_camera p = true /\ nth_error (op_base_to_camera_guess p) 0 = Some (C0 0%nat) /\ plain_pose (C0 0%nat) /\
  op_base_to_target_guess p <> [] /\
  (forall c, (c < n)%nat -> rigid (C0 c)) /\ (forall i, (i < images)%nat -> rigid (B0 i)) /\
  (forall T, In T (or_base_to_camera r) -> rigid T) /\ (forall T, In T (or_base_to_target r) -> rigid T) /\
  (forall c i, (c < n)%nat -> (i < images)%nat ->
    perfect_image (k c) (seen C0 B0 c i) (image c i) /\ all_in_front (seen camera target c i) (image c i)) /\
  linked_camera good 0 1 /\ linked_image good 0 0 /\ (1 < n)%nat.
Proof. exact ex_op_unique. Qed.
