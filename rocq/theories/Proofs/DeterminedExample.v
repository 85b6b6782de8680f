(** Two cameras that only together tell where the target is on the wrist. *)
From Coq Require Import Reals Lra Psatz Arith Lia List String.
From Verif.Base Require Import Geom Outcome Matrix.
From Verif.Model Require Import Pose Covariance Solver HandEye BlockSolver MultiCamera.
From Verif.Spec Require Import CovarianceSpec PinHole Frames HomographySpec PnpSpec MultiSpec UniqueSpec DeterminedSpec.
From Verif.Proofs Require Import GeomLemmas RotLemmas AngleAxisLemmas PoseProofs CovarianceProofs HandEyeProofs PnpProofs
  MultiCameraProofs UniqueLemmas UniqueProofs UniqueExamples UniqueMulti UniqueMultiExamples DeterminedProofs DeterminedStatic.
Import ListNotations.
Local Open Scope R_scope.

Definition split_wrists : list (list iso) := [[iso_id; ex_turn unitX]; [iso_id; ex_turn unitY]].
Definition split_sp : static_problem :=
  SP [ex_k; ex_k] split_wrists (map (map ex_picture) split_wrists) iso_id [ex_camera; ex_camera] "wrist_to_target" "base_to_camera".
Lemma split_in c i : (c < 2)%nat -> (i < List.length (nth c split_wrists []))%nat -> In (nth i (nth c split_wrists []) iso_id) ex_mounts.
Proof.
  intros Hc Hi. destruct c as [|[|c]]; [ | | lia ]; destruct i as [|[|i]]; cbn in Hi; try lia; cbn [split_wrists nth ex_mounts In]; auto.
Qed.
Lemma split_pictures c i : (c < 2)%nat -> (i < List.length (nth c split_wrists []))%nat ->
  nth i (nth c (map (map ex_picture) split_wrists) []) [] = ex_picture (nth i (nth c split_wrists []) iso_id).
Proof.
  intros Hc Hi. destruct c as [|[|c]]; [ | | lia ]; destruct i as [|[|i]]; cbn in Hi; try lia; reflexivity.
Qed.
Lemma first_inverse T : iso_mul (iso_inv iso_id) T = T.
Proof. rewrite iso_inv_id. apply iso_mul_id_l. Qed.
Lemma split_tells : tell_all (wrist_motions 2 (fun c => List.length (nth c split_wrists [])) (fun c i => nth i (nth c split_wrists []) iso_id)).
Proof.
  apply two_axes_tell.
  - apply wrist_motions_rigid. intros c i Hc Hi. pose proof (split_in c i Hc Hi) as H. apply plain_rigid, ex_mounts_plain, H.
  - destruct third_bounds as [_ S].
    exists (ex_turn unitX), (ex_turn unitY), unitX, unitY. split; [ | split; [ | split; [ | split ] ] ].
    + apply in_wrist_motions. exists 0%nat, 0%nat, 1%nat. repeat split; try (cbn; lia). cbn [split_wrists nth]. rewrite first_inverse. reflexivity.
    + apply in_wrist_motions. exists 1%nat, 0%nat, 1%nat. repeat split; try (cbn; lia). cbn [split_wrists nth]. rewrite first_inverse. reflexivity.
    + split; [ unfold dot, unitX; cbn [vx vy vz]; ring | exists (PI / 3); split; [ reflexivity | lra ] ].
    + split; [ unfold dot, unitY; cbn [vx vy vz]; ring | exists (PI / 3); split; [ reflexivity | lra ] ].
    + unfold cross, unitX, unitY, vzero; cbn [vx vy vz]. intros E. injection E. lra.
Qed.
(** Each camera alone leaves the axis open about which the wrist turned before it. *)
Lemma axis_kept a u : dot u u = 1 -> mvec (aa_matrix a u) u = u.
Proof.
  intros U. destruct u as [x y z]. unfold aa_matrix, mvec. unfold dot in U. cbn [vx vy vz] in *.
  cbn [vx vy vz m00 m01 m02 m10 m11 m12 m20 m21 m22]. set (c := cos a). set (s := sin a).
  apply vec3_ext; cbn [vx vy vz]; [ transitivity (x * (c + (1 - c) * (x * x + y * y + z * z))) | transitivity (y * (c + (1 - c) * (x * x + y * y + z * z)))
    | transitivity (z * (c + (1 - c) * (x * x + y * y + z * z))) ]; try ring; rewrite U; ring.
Qed.
Lemma one_camera_leaves u : dot u u = 1 ->
  leave_a_direction (wrist_motions 1 (fun _ => 2%nat) (fun _ i => nth i [iso_id; ex_turn u] iso_id)).
Proof.
  intros U. exists u. split; [ apply unit_nonzero, U | ].
  assert (K : forall i, mvec (lin (nth i [iso_id; ex_turn u] iso_id)) u = u /\ mvec (lin (iso_inv (nth i [iso_id; ex_turn u] iso_id))) u = u).
  { intros i. assert (D : forall T, rigid T -> mvec (lin T) u = u -> mvec (lin T) u = u /\ mvec (lin (iso_inv T)) u = u).
    { intros T RT E. split; [ exact E | ]. rewrite <- E at 1. rewrite <- mvec_mmul.
      pose proof (f_equal lin (iso_inv_l T RT)) as Q. cbn [iso_mul lin iso_id] in Q. rewrite Q. apply mvec_I. }
    destruct i as [|[|i]]; [ | | destruct i ]; cbn [nth]; apply D; try exact rigid_id; try apply mvec_I.
    - apply aa_matrix_rot, U.
    - apply axis_kept, U. }
  intros A HA. apply in_wrist_motions in HA as (c & i & j & _ & _ & _ & ->). cbn [iso_mul lin]. rewrite mvec_mmul.
  rewrite (proj1 (K j)). apply (proj2 (K i)).
Qed.
Lemma split_case : exists u solve cov p r C0 Z0,
  let n := List.length (sp_base_to_camera_guess p) in
  let k c := nth c (sp_intr p) intr0 in
  let wrist c i := nth i (nth c (sp_wrist_poses p) []) iso_id in
  let images c := List.length (nth c (sp_wrist_poses p) []) in
  let image c i := nth i (nth c (sp_image_observations p) []) [] in
  let seen C Z c i := iso_mul (iso_inv (C c)) (iso_mul (wrist c i) Z) in
  let found c := nth c (sr_base_to_camera r) iso_id in
  honest_blocks solve /\ optimizeStatic u solve cov p = Ok r /\ static_sizes p /\ plain_wrists p /\
  (forall c, (c < n)%nat -> rigid (C0 c)) /\ rigid Z0 /\
  (forall T, In T (sr_base_to_camera r) -> rigid T) /\ rigid (sr_wrist_to_target r) /\
  (forall c i, (c < n)%nat -> (i < images c)%nat ->
     perfect_image (k c) (seen C0 Z0 c i) (image c i) /\
     all_in_front (seen found (sr_wrist_to_target r) c i) (image c i)) /\
  (forall c i, (c < n)%nat -> (i < images c)%nat -> usable (k c) (seen C0 Z0 c i) (image c i)) /\
  n = 2%nat /\ (forall c, (c < n)%nat -> (0 < images c)%nat) /\
  tell_all (wrist_motions n images wrist) /\
  (forall c, (c < n)%nat -> leave_a_direction (wrist_motions 1 (fun _ => images c) (fun _ => wrist c))) /\
  sr_final_cost_per_obs r = 0.
Proof.
  assert (Sz : static_sizes split_sp).
  { repeat split. intros c Hc. cbn in Hc. destruct c as [|[|c]]; [ reflexivity | reflexivity | lia ]. }
  assert (PW : plain_wrists split_sp).
  { intros c W HW. destruct c as [|[|c]]; cbn [split_sp split_wrists sp_wrist_poses nth] in HW; try (destruct c; contradiction);
      apply ex_mounts_plain; cbn [ex_mounts In] in *; tauto. }
  assert (PG : guesses_plain_static split_sp) by (split; [ apply id_plain | intros T [<-|[<-|[]]]; apply ex_camera_plain ]).
  assert (AU : all_cameras_used split_sp).
  { intros c Hc. cbn in Hc. exists 0%nat. destruct c as [|[|c]]; [ | | lia ]; eexists; apply in_static_views;
      (split; [ cbn; lia | split; [ cbn; lia | left; reflexivity ] ]). }
  destruct (static_succeeds split_sp (fun _ _ => 0) sc_still ex_cov_oracle Sz AU) as [r E]; try reflexivity.
  { cbn; lia. } { apply ex_oracle_sym. }
  destruct (static_unmoved split_sp (fun _ _ => 0) sc_still ex_cov_oracle r Sz PG sc_still_still E) as [Ez Ec].
  cbn [split_sp sp_wrist_to_target_guess sp_base_to_camera_guess] in Ez, Ec.
  pose (C0 := fun _ : nat => ex_camera).
  exists (fun _ _ => 0), sc_still, ex_cov_oracle, split_sp, r, C0, iso_id. cbv zeta.
  assert (H1 : forall c, (c < List.length (sp_base_to_camera_guess split_sp))%nat -> rigid (C0 c)) by (intros; apply rigid_trans).
  assert (H2 : forall T, In T (sr_base_to_camera r) -> rigid T) by (rewrite Ec; intros T [<-|[<-|[]]]; apply rigid_trans).
  assert (H3 : rigid (sr_wrist_to_target r)) by (rewrite Ez; apply rigid_id).
  assert (NC : forall c, (c < 2)%nat -> nth c (sr_base_to_camera r) iso_id = ex_camera /\ nth c (sp_intr split_sp) intr0 = ex_k).
  { intros c Hc. rewrite Ec. destruct c as [|[|c]]; [ split; reflexivity | split; reflexivity | lia ]. }
  assert (H4 : forall c i, (c < List.length (sp_base_to_camera_guess split_sp))%nat -> (i < List.length (nth c (sp_wrist_poses split_sp) []))%nat ->
     perfect_image (nth c (sp_intr split_sp) intr0) (iso_mul (iso_inv (C0 c)) (iso_mul (nth i (nth c (sp_wrist_poses split_sp) []) iso_id) iso_id)) (nth i (nth c (sp_image_observations split_sp) []) []) /\
     all_in_front (iso_mul (iso_inv (nth c (sr_base_to_camera r) iso_id)) (iso_mul (nth i (nth c (sp_wrist_poses split_sp) []) iso_id) (sr_wrist_to_target r))) (nth i (nth c (sp_image_observations split_sp) []) [])).
  { intros c i Hc Hi. change (c < 2)%nat in Hc. destruct (NC c Hc) as [-> ->]. rewrite Ez.
    change (sp_wrist_poses split_sp) with split_wrists in *. change (sp_image_observations split_sp) with (map (map ex_picture) split_wrists).
    rewrite split_pictures by assumption. pose proof (split_in c i Hc Hi) as I.
    split; [ apply (ex_picture_perfect _ I) | apply (ex_picture_front _ I) ]. }
  assert (H5 : forall c i, (c < List.length (sp_base_to_camera_guess split_sp))%nat -> (i < List.length (nth c (sp_wrist_poses split_sp) []))%nat ->
     usable (nth c (sp_intr split_sp) intr0) (iso_mul (iso_inv (C0 c)) (iso_mul (nth i (nth c (sp_wrist_poses split_sp) []) iso_id) iso_id)) (nth i (nth c (sp_image_observations split_sp) []) [])).
  { intros c i Hc Hi. change (c < 2)%nat in Hc. destruct (NC c Hc) as [_ ->].
    change (sp_wrist_poses split_sp) with split_wrists in *. change (sp_image_observations split_sp) with (map (map ex_picture) split_wrists).
    rewrite split_pictures by assumption. apply (ex_picture_usable _ (split_in c i Hc Hi)). }
  assert (H6 : forall c, (c < List.length (sp_base_to_camera_guess split_sp))%nat -> (0 < List.length (nth c (sp_wrist_poses split_sp) []))%nat).
  { intros c Hc. change (c < 2)%nat in Hc. destruct c as [|[|c]]; [ cbn; lia | cbn; lia | lia ]. }
  split; [ apply sc_still_honest | split; [ exact E | split; [ exact Sz | split; [ exact PW | split; [ exact H1 | split; [ apply rigid_id | split; [ exact H2 | split; [ exact H3 | split; [ exact H4 | split; [ exact H5 | split; [ reflexivity | split; [ exact H6 | split; [ exact split_tells | split ] ] ] ] ] ] ] ] ] ] ] ] ].
  - intros c Hc. change (c < 2)%nat in Hc. destruct c as [|[|c]]; [ | | lia ].
    + apply (one_camera_leaves unitX). unfold dot, unitX. cbn [vx vy vz]. ring.
    + apply (one_camera_leaves unitY). unfold dot, unitY. cbn [vx vy vz]. ring.
  - apply (static_told (fun _ _ => 0) sc_still ex_cov_oracle split_sp r C0 iso_id sc_still_honest E Sz PW H1 rigid_id H2 H3 H4 H5 (Nat.lt_0_succ 1) H6 split_tells).
    split; [ exact Ec | exact Ez ].
Qed.
Lemma told_images_case : exists u solve cov p r X0 Z0, honest solve /\ optimize2D3D u solve cov p = Ok r /\
  let seen X Z o := target_in_camera X (to_camera_mount o) (to_target_mount o) Z in
  plain_obs (h2_observations p) /\ fx (h2_intr p) <> 0 /\ fy (h2_intr p) <> 0 /\
  rigid X0 /\ rigid Z0 /\ rigid (he_camera_mount_to_camera r) /\ rigid (he_target_mount_to_target r) /\
  (forall o, In o (h2_observations p) ->
     four_flat_points (map in_target (correspondence_set o)) /\
     ~ edge_on (seen X0 Z0 o) /\
     perfect_image (h2_intr p) (seen X0 Z0 o) (correspondence_set o) /\
     all_in_front (seen (he_camera_mount_to_camera r) (he_target_mount_to_target r) o) (correspondence_set o)) /\
  h2_observations p <> [] /\ tell_all (motions_of (map mounts (h2_observations p))).
Proof.
  destruct ex_he_unique2 as (u & solve & cov & p & r & X0 & Z0 & A1 & A2 & A3 & A4 & A5 & A6 & A7 & A8 & A9 & A10 & A11).
  exists u, solve, cov, p, r, X0, Z0. cbv zeta in *. do 10 (split; [ assumption | ]). split.
  - intros Q. destruct (two_axes_nonempty _ A11) as [A HA]. rewrite Q in HA. exact HA.
  - apply two_axes_tell; [ | exact A11 ]. apply motions_rigid, mounts_all_rigid, plain_obs_rigid, A3.
Qed.
Lemma told_points_case : exists u solve cov p r X0 Z0, honest solve /\ optimize3D3D u solve cov p = Ok r /\
  let seen X Z o := target_in_camera X (to_camera_mount o) (to_target_mount o) Z in
  plain_obs (h3_observations p) /\
  rigid X0 /\ rigid Z0 /\ rigid (he_camera_mount_to_camera r) /\ rigid (he_target_mount_to_target r) /\
  (forall o, In o (h3_observations p) ->
     not_on_a_line (map in_target (correspondence_set o)) /\
     perfect_points (seen X0 Z0 o) (correspondence_set o)) /\
  h3_observations p <> [] /\ tell_all (motions_of (map mounts (h3_observations p))).
Proof.
  destruct ex_he_unique3 as (u & solve & cov & p & r & X0 & Z0 & A1 & A2 & A3 & A4 & A5 & A6 & A7 & A8 & A9).
  exists u, solve, cov, p, r, X0, Z0. cbv zeta in *. do 8 (split; [ assumption | ]). split.
  - intros Q. destruct (two_axes_nonempty _ A9) as [A HA]. rewrite Q in HA. exact HA.
  - apply two_axes_tell; [ | exact A9 ]. apply motions_rigid, mounts_all_rigid, plain_obs_rigid, A3.
Qed.
