(** Calibrations done twice, for C110. *)
From Coq Require Import Reals Lra Arith Lia String List.
From Verif.Base Require Import Geom Outcome.
From Verif.Model Require Import Pose Covariance Solver HandEye Pnp BlockSolver CircleFit MultiCamera.
From Verif.Spec Require Import CovarianceSpec Frames PinHole OracleSpec PnpSpec MultiSpec UniqueSpec SameDataSpec ToolsAgreeSpec RestartSpec.
From Verif.Proofs Require Import GeomLemmas CovarianceProofs HandEyeProofs PnpProofs CircleFitProofs MultiCameraProofs UniqueProofs UniqueMulti ProjectionProofs
  UniqueExamples UniqueMultiExamples SameDataProofs SameDataExample ToolsAgreeProofs ToolsAgreeExample RigChoicesExample RestartProofs.
Import ListNotations.
Local Open Scope R_scope.

Lemma sc_stay_start {X} : honest_start (@sc_stay X).
Proof. intros blocks x0. reflexivity. Qed.
Lemma sc_stay_improving {X} : improving (@sc_stay X).
Proof. intros blocks x0. cbn. apply Rle_refl. Qed.
Lemma sc_still_start : honest_start_blocks sc_still.
Proof. intros blocks x0. reflexivity. Qed.
Lemma sc_still_improving : improving_blocks sc_still.
Proof. intros blocks x0. cbn. apply Rle_refl. Qed.
(** A solver that goes somewhere and says so. *)
Definition sc_move {X} (y : X) : solver X := fun blocks x0 =>
  (y, Summary true (half_squares (flat_map (fun f => f x0) blocks)) (half_squares (flat_map (fun f => f y) blocks))).
Lemma sc_move_honest {X} (y : X) : honest (sc_move y).
Proof. intros blocks x0. reflexivity. Qed.
Lemma sc_move_start {X} (y : X) : honest_start (sc_move y).
Proof. intros blocks x0. reflexivity. Qed.

(** ** Hand-eye calibrations *)
Lemma again_images : exists u solve cov p r r',
  honest solve /\ honest_start solve /\ improving solve /\
  optimize2D3D u solve cov p = Ok r /\ optimize2D3D u solve cov (he2_again p r) = Ok r' /\ plain_obs (h2_observations p) /\
  plain_pose (h2_camera_guess p) /\ plain_pose (h2_target_guess p) /\
  plain_pose (he_camera_mount_to_camera r) /\ plain_pose (he_target_mount_to_target r) /\
  in_view (sightings (h2_observations p)) (he_camera_mount_to_camera r) (he_target_mount_to_target r).
Proof.
  destruct (ex_he2_ok (fun _ _ => 0) sc_stay) as [r E].
  assert (G1 : plain_pose (h2_camera_guess ex_he2)) by apply plain_id_tr.
  assert (G2 : plain_pose (h2_target_guess ex_he2)) by apply (plain_id_tr vzero).
  destruct (unmoved2 _ _ _ _ _ sc_stay_stays E G1 G2) as [E1 E2].
  assert (A : he2_again ex_he2 r = ex_he2) by (unfold he2_again; rewrite E1, E2; reflexivity).
  exists (fun _ _ => 0), sc_stay, ex_cov_oracle, ex_he2, r, r. rewrite A, E1, E2.
  split; [ apply sc_stay_honest | split; [ apply sc_stay_start | split; [ apply sc_stay_improving | split; [ exact E | split; [ exact E | split; [ apply ex_he2_plain | ] ] ] ] ] ].
  split; [ exact G1 | split; [ exact G2 | split; [ exact G1 | split; [ exact G2 | ] ] ] ]. apply ex_best.
Qed.
Lemma again_points : exists u solve cov p r r',
  honest solve /\ honest_start solve /\ improving solve /\
  optimize3D3D u solve cov p = Ok r /\ optimize3D3D u solve cov (he3_again p r) = Ok r' /\ plain_obs (h3_observations p) /\
  plain_pose (h3_camera_guess p) /\ plain_pose (h3_target_guess p) /\
  plain_pose (he_camera_mount_to_camera r) /\ plain_pose (he_target_mount_to_target r).
Proof.
  destruct (ex_he3_ok (fun _ _ => 0) sc_stay) as [r E].
  assert (G1 : plain_pose (h3_camera_guess ex_he3)) by apply plain_id_tr.
  assert (G2 : plain_pose (h3_target_guess ex_he3)) by apply (plain_id_tr vzero).
  destruct (unmoved3 _ _ _ _ _ sc_stay_stays E G1 G2) as [E1 E2].
  assert (A : he3_again ex_he3 r = ex_he3) by (unfold he3_again; rewrite E1, E2; reflexivity).
  exists (fun _ _ => 0), sc_stay, ex_cov_oracle, ex_he3, r, r. rewrite A, E1, E2.
  split; [ apply sc_stay_honest | split; [ apply sc_stay_start | split; [ apply sc_stay_improving | split; [ exact E | split; [ exact E | split; [ apply ex_he3_plain | ] ] ] ] ] ].
  split; [ exact G1 | split; [ exact G2 | split; [ exact G1 | exact G2 ] ] ].
Qed.

(** ** Poses. The first run moves from another guess to the pose, the second stays there. *)
Definition further : iso := iso_trans (V3 0 0 9).
Lemma again_picture : exists u solve solve' cov p r r',
  honest solve /\ honest_start solve /\ honest_start solve' /\ improving solve' /\
  optimizePnP u solve cov p = Ok r /\ optimizePnP u solve' cov (pnp_again p r) = Ok r' /\
  rigid (pnp_guess p) /\ all_in_front (pnp_guess p) (pnp_correspondences p) /\
  all_in_front (pnp_camera_to_target r) (pnp_correspondences p) /\ pnp_guess p <> pnp_camera_to_target r.
Proof.
  destruct (ex_pnp_at_ok further (fun _ _ => 0) (sc_move (pnp_start ex_ahead))) as [r E].
  assert (Er : pnp_camera_to_target r = ex_ahead).
  { rewrite optimizePnP_unfold in E. apply pnp_finish_fields in E as (x & s & H1 & _ & H3 & _). injection H1 as <- <-.
    rewrite H3. apply pnp_start_stored, ex_ahead_rigid. }
  assert (A : pnp_again (ex_pnp_at further) r = ex_pnp_at ex_ahead) by (unfold pnp_again; rewrite Er; reflexivity).
  destruct (ex_pnp_at_ok ex_ahead (fun _ _ => 0) sc_stay) as [r' E'].
  exists (fun _ _ => 0), (sc_move (pnp_start ex_ahead)), sc_stay, ex_cov_oracle, (ex_pnp_at further), r, r'. rewrite A, Er.
  split; [ apply sc_move_honest | split; [ apply sc_move_start | split; [ apply sc_stay_start | split; [ apply sc_stay_improving | ] ] ] ].
  split; [ exact E | split; [ exact E' | split; [ apply rigid_trans | split; [ | split ] ] ] ].
  - intros c Hc. apply in_map_iff in Hc as (v & <- & Hv). pose proof (ex_square_z v Hv) as Z. unfold in_front.
    cbn. rewrite Z. lra.
  - intros c Hc. apply in_map_iff in Hc as (v & <- & Hv). apply ex_ahead_front, Hv.
  - intros Q. apply (f_equal (fun T => vz (tr T))) in Q. cbn in Q. lra.
Qed.
Lemma again_cloud : exists u solve solve' cov p r r',
  honest solve /\ honest_start solve /\ honest_start solve' /\ improving solve' /\
  optimizePnP3D u solve cov p = Ok r /\ optimizePnP3D u solve' cov (pnp3_again p r) = Ok r' /\
  rigid (pnp3_guess p) /\ pnp3_guess p <> pnp_camera_to_target r.
Proof.
  destruct (ex_pnp3_at_ok further (fun _ _ => 0) (sc_move (pnp_start ex_ahead))) as [r E].
  assert (Er : pnp_camera_to_target r = ex_ahead).
  { rewrite optimizePnP3D_unfold in E. apply pnp_finish_fields in E as (x & s & H1 & _ & H3 & _). injection H1 as <- <-.
    rewrite H3. apply pnp_start_stored, ex_ahead_rigid. }
  assert (A : pnp3_again (ex_pnp3_at further) r = ex_pnp3_at ex_ahead) by (unfold pnp3_again; rewrite Er; reflexivity).
  destruct (ex_pnp3_at_ok ex_ahead (fun _ _ => 0) sc_stay) as [r' E'].
  exists (fun _ _ => 0), (sc_move (pnp_start ex_ahead)), sc_stay, ex_cov_oracle, (ex_pnp3_at further), r, r'. rewrite A, Er.
  split; [ apply sc_move_honest | split; [ apply sc_move_start | split; [ apply sc_stay_start | split; [ apply sc_stay_improving | ] ] ] ].
  split; [ exact E | split; [ exact E' | split; [ apply rigid_trans | ] ] ].
  intros Q. apply (f_equal (fun T => vz (tr T))) in Q. cbn in Q. lra.
Qed.

(** ** Several cameras *)
Lemma shots_in_view (vs : list view) k (T : poses) :
  (forall c i x, In (c, i, x) vs -> rigid (T c i) /\ perfect_image (k c) (T c i) [x]) -> rig_in_view vs T.
Proof. intros P c i x Hv. destruct (P c i x Hv) as [R1 R2]. split; [ exact R1 | ]. apply front_pos, (R2 x). left. reflexivity. Qed.
Lemma again_static : exists u solve cov p r r',
  honest_blocks solve /\ honest_start_blocks solve /\ improving_blocks solve /\
  optimizeStatic u solve cov p = Ok r /\ optimizeStatic u solve cov (static_again p r) = Ok r' /\
  static_sizes p /\ plain_wrists p /\ guesses_plain_static p /\ rig_in_view (static_views p) (static_guessed p) /\
  (forall T, In T (sr_base_to_camera r) -> plain_pose T) /\ plain_pose (sr_wrist_to_target r) /\
  rig_in_view (static_views p) (static_poses p r) /\ (List.length (static_views p) > 20)%nat.
Proof.
  assert (Sz : static_sizes rc_sp).
  { split; [ reflexivity | split; [ reflexivity | split; [ reflexivity | ] ] ]. intros c Hc. change (c < 2)%nat in Hc.
    destruct c as [|[|c]]; [ | | lia ]; reflexivity. }
  assert (PW : plain_wrists rc_sp).
  { intros c W HW. destruct c as [|[|[|c]]]; cbn [rc_sp sp_wrist_poses nth] in HW; try contradiction; apply ex_mounts_plain, HW. }
  assert (PG : guesses_plain_static rc_sp) by (split; [ apply plain_iso_id | apply rc_cameras_plain ]).
  destruct (static_run rc_sp Sz) as (r & E & Ez & Ec); try reflexivity; try exact PG.
  { intros c Hc. change (c < 2)%nat in Hc. exists 0%nat. destruct c as [|[|c]]; [ | | lia ];
      (eexists; apply in_static_views; split; [ exact Hc | split; [ cbn; lia | left; reflexivity ] ]). }
  { cbn; lia. }
  assert (A : static_again rc_sp r = rc_sp) by (unfold static_again; rewrite Ec, Ez; reflexivity).
  assert (V : rig_in_view (static_views rc_sp) (static_guessed rc_sp)).
  { apply (shots_in_view _ (camera_of (sp_intr rc_sp))). intros c i x Hv. apply in_static_views in Hv as (Hc & Hi & Hx). change (c < 2)%nat in Hc.
    assert (L : List.length (nth c (sp_wrist_poses rc_sp) []) = 3%nat) by (destruct c as [|[|c]]; [ | | lia ]; reflexivity). rewrite L in Hi.
    unfold static_guessed. cbn [rc_sp sp_base_to_camera_guess sp_wrist_to_target_guess sp_intr].
    rewrite rc_nth_camera by exact Hc. unfold static_wrist.
    replace (nth c (sp_wrist_poses rc_sp) []) with ex_mounts by (destruct c as [|[|c]]; [ | | lia ]; reflexivity).
    apply (rc_seen c i x Hc Hi Hx). }
  exists (fun _ _ => 0), sc_still, ex_cov_oracle, rc_sp, r, r. rewrite A.
  split; [ apply sc_still_honest | split; [ apply sc_still_start | split; [ apply sc_still_improving | split; [ exact E | split; [ exact E | ] ] ] ] ].
  split; [ exact Sz | split; [ exact PW | split; [ exact PG | split; [ exact V | ] ] ] ].
  unfold static_poses. rewrite Ec, Ez. split; [ exact (proj2 PG) | split; [ exact (proj1 PG) | split; [ exact V | ] ] ]. cbn. lia.
Qed.
Lemma again_wrist : exists solve p r r',
  honest_blocks solve /\ honest_start_blocks solve /\ improving_blocks solve /\
  optimizeWrist solve p = Ok r /\ optimizeWrist solve (wrist_again p r) = Ok r' /\
  wrist_sizes p /\ (forall T, In T (wp_wrist_poses p) -> plain_pose T) /\
  (forall T, In T (wp_base_to_camera_guess p) -> plain_pose T) /\ plain_pose (wp_wrist_to_target_guess p) /\
  rig_in_view (wrist_views p) (wrist_guessed p) /\
  (forall T, In T (wr_base_to_camera r) -> plain_pose T) /\ plain_pose (wr_wrist_to_target r) /\
  rig_in_view (wrist_views p) (wrist_poses p r) /\ (List.length (wrist_views p) > 20)%nat.
Proof.
  assert (Sz : wrist_sizes rc_wp).
  { split; [ reflexivity | split; [ reflexivity | ] ]. intros c Hc. change (c < 2)%nat in Hc. destruct c as [|[|c]]; [ | | lia ]; reflexivity. }
  destruct (wrist_run rc_wp Sz ex_mounts_plain rc_cameras_plain plain_iso_id) as (r & E & Ec & Ez).
  assert (A : wrist_again rc_wp r = rc_wp) by (unfold wrist_again; rewrite Ec, Ez; reflexivity).
  assert (V : rig_in_view (wrist_views rc_wp) (wrist_guessed rc_wp)).
  { apply (shots_in_view _ (camera_of (wp_intr rc_wp))). intros c i x Hv. apply in_wrist_views in Hv as (Hc & Hi & Hx).
    change (c < 2)%nat in Hc. change (i < 3)%nat in Hi.
    unfold wrist_guessed. cbn [rc_wp wp_base_to_camera_guess wp_wrist_to_target_guess wp_wrist_poses wp_intr].
    rewrite rc_nth_camera by exact Hc. apply (rc_seen c i x Hc Hi Hx). }
  exists sc_still, rc_wp, r, r. rewrite A.
  split; [ apply sc_still_honest | split; [ apply sc_still_start | split; [ apply sc_still_improving | split; [ exact E | split; [ exact E | ] ] ] ] ].
  split; [ exact Sz | split; [ apply ex_mounts_plain | split; [ apply rc_cameras_plain | split; [ apply plain_iso_id | split; [ exact V | ] ] ] ] ].
  unfold wrist_poses. rewrite Ec, Ez. split; [ apply rc_cameras_plain | split; [ apply plain_iso_id | split; [ exact V | ] ] ]. cbn. lia.
Qed.
Lemma again_only : exists solve p r r',
  honest_blocks solve /\ leaves_others solve /\ honest_start_blocks solve /\ improving_blocks solve /\
  optimizeOnly solve p = Ok r /\ optimizeOnly solve (only_again p r) = Ok r' /\ only_sizes p /\ op_fix_first_camera p = true /\
  (forall T, In T (op_base_to_camera_guess p) -> plain_pose T) /\ (forall T, In T (op_base_to_target_guess p) -> plain_pose T) /\
  rig_in_view (only_views p) (only_guessed p) /\
  (forall T, In T (or_base_to_camera r) -> plain_pose T) /\ (forall T, In T (or_base_to_target r) -> plain_pose T) /\
  rig_in_view (only_views p) (only_poses r) /\ (List.length (only_views p) > 20)%nat.
Proof.
  assert (Sz : only_sizes rc_op).
  { split; [ reflexivity | split; [ reflexivity | ] ]. intros c Hc. change (c < 2)%nat in Hc. destruct c as [|[|c]]; [ | | lia ]; reflexivity. }
  destruct (only_returns rc_op sc_still Sz) as (r & E & _).
  destruct (only_unmoved rc_op sc_still r Sz sc_still_still) as [Ec Et]; try exact E; try discriminate.
  { apply rc_cameras_plain. } { apply ex_mounts_plain. }
  assert (A : only_again rc_op r = rc_op) by (unfold only_again; rewrite Ec, Et; reflexivity).
  assert (V : rig_in_view (only_views rc_op) (only_guessed rc_op)).
  { apply (shots_in_view _ (camera_of (op_intr rc_op))). intros c i x Hv. apply in_only_views in Hv as (Hc & Hi & Hx).
    change (c < 2)%nat in Hc. change (i < 3)%nat in Hi.
    unfold only_guessed. cbn [rc_op op_base_to_camera_guess op_base_to_target_guess op_intr].
    rewrite rc_nth_camera by exact Hc. rewrite <- (iso_mul_id_r (nth i ex_mounts iso_id)). apply (rc_seen c i x Hc Hi Hx). }
  exists sc_still, rc_op, r, r. rewrite A.
  split; [ apply sc_still_honest | split; [ apply sc_still_leaves | split; [ apply sc_still_start | split; [ apply sc_still_improving | split; [ exact E | split; [ exact E | ] ] ] ] ] ].
  split; [ exact Sz | split; [ reflexivity | split; [ apply rc_cameras_plain | split; [ apply ex_mounts_plain | split; [ exact V | ] ] ] ] ].
  unfold only_poses. rewrite Ec, Et. split; [ apply rc_cameras_plain | split; [ apply ex_mounts_plain | split; [ exact V | ] ] ]. cbn. lia.
Qed.
Lemma again_mpnp : exists solve p r r',
  honest_blocks solve /\ honest_start_blocks solve /\ improving_blocks solve /\
  optimizeMpnp solve p = Ok r /\ optimizeMpnp solve (mpnp_again p r) = Ok r' /\ mpnp_sizes p /\
  (forall T, In T (mp_base_to_camera p) -> plain_pose T) /\ plain_pose (mp_base_to_target_guess p) /\
  rig_in_view (single_views p) (mpnp_guessed p) /\ plain_pose (mr_base_to_target r) /\
  rig_in_view (single_views p) (mpnp_poses p r) /\ (List.length (single_views p) > 7)%nat.
Proof.
  assert (Sz : mpnp_sizes rc_mp) by (split; reflexivity).
  destruct (mpnp_run rc_mp Sz rc_cameras_plain plain_iso_id) as (r & E & Er).
  assert (A : mpnp_again rc_mp r = rc_mp) by (unfold mpnp_again; rewrite Er; reflexivity).
  assert (V : rig_in_view (single_views rc_mp) (mpnp_guessed rc_mp)).
  { apply (shots_in_view _ (camera_of (mp_intr rc_mp))). intros c i x Hv. apply in_map_iff in Hv as ([c' x'] & [= <- <- <-] & Hv). apply in_flat_map in Hv as (c & Hc & Hv).
    apply in_seq in Hc. change (0 <= c < 2)%nat in Hc. apply in_map_iff in Hv as (x1 & [= <- <-] & Hx).
    unfold mpnp_guessed. cbn [rc_mp mp_base_to_camera mp_base_to_target_guess mp_intr]. rewrite rc_nth_camera by lia.
    replace (iso_mul (iso_inv (rc_camera c)) iso_id) with (rc_view c iso_id) by (unfold rc_view; rewrite iso_mul_id_l; reflexivity).
    destruct (rc_seen c 0 x1) as [R1 R2]; [ lia | lia | | split; [ exact R1 | exact R2 ] ].
    destruct c as [|[|c]]; [ | | lia ]; exact Hx. }
  exists sc_still, rc_mp, r, r. rewrite A.
  split; [ apply sc_still_honest | split; [ apply sc_still_start | split; [ apply sc_still_improving | split; [ exact E | split; [ exact E | ] ] ] ] ].
  split; [ exact Sz | split; [ apply rc_cameras_plain | split; [ apply plain_iso_id | split; [ exact V | ] ] ] ].
  unfold mpnp_poses. rewrite Er. split; [ apply plain_iso_id | split; [ exact V | ] ]. cbn. lia.
Qed.

(** ** Circle fit. The first run moves from another circle to one that is better but not best. *)
Definition off_circle : circle_problem := CirProb [V2 4 0; V2 0 4; V2 (-4) 0] 1 0 9.
Definition near_circle : circle_params := CirP 0 0 (1 / 2).
Lemma again_circle : exists u solve solve' cov p r r',
  honest solve /\ honest_start solve /\ honest_start solve' /\ improving solve' /\
  optimizeCircle u solve cov p = Ok r /\ optimizeCircle u solve' cov (circle_again p r) = Ok r' /\
  0 <= cf_radius_initial p /\ cf_radius_initial p <> cf_radius r /\ 0 < cf_final_cost_per_obs r.
Proof.
  destruct (circle_succeeds (fun _ _ => 0) (sc_move near_circle) ex_cov_oracle off_circle) as [r E];
    try reflexivity; [ apply ex_oracle_lists | apply ex_oracle_sym | cbn; lra | discriminate | ].
  destruct (circle_fields _ _ _ _ _ E) as (_ & x & s & Es & _ & Hx & Hy & Hr & _). injection Es as <- _. cbn in Hx, Hy, Hr.
  destruct (circle_succeeds (fun _ _ => 0) sc_stay ex_cov_oracle (circle_again off_circle r)) as [r' E'];
    try reflexivity; [ apply ex_oracle_lists | apply ex_oracle_sym | cbn; rewrite Hr; lra | discriminate | ].
  exists (fun _ _ => 0), (sc_move near_circle), sc_stay, ex_cov_oracle, off_circle, r, r'.
  split; [ apply sc_move_honest | split; [ apply sc_move_start | split; [ apply sc_stay_start | split; [ apply sc_stay_improving | ] ] ] ].
  split; [ exact E | split; [ exact E' | split; [ cbn; lra | split; [ cbn; rewrite Hr; lra | ] ] ] ].
  rewrite (circle_final _ _ _ _ _ (sc_move_honest _) E), Hx, Hy, Hr. unfold circle_error, half_squares. cbn. lra.
Qed.
