(** Proofs about the initial errors that are reported. *)
From Coq Require Import Reals Arith List Lra Lia.
From Verif.Base Require Import Geom Outcome.
From Verif.Model Require Import Pose Covariance Solver HandEye Pnp BlockSolver CircleFit MultiCamera.
From Verif.Spec Require Import Frames PinHole PnpSpec MultiSpec UniqueSpec SameDataSpec ToolsAgreeSpec RestartSpec.
From Verif.Proofs Require Import GeomLemmas PoseProofs HandEyeProofs PnpProofs CircleFitProofs MultiCameraProofs UniqueProofs UniqueMulti SameDataProofs ToolsAgreeProofs.
Import ListNotations.
Local Open Scope R_scope.

(** ** Hand-eye calibration *)
Lemma he_eval2 k os pc pt X : plain_obs os -> poseCalToEigen pc = iso_inv X -> in_view (sightings os) X (poseCalToEigen pt) ->
  half_squares (flat_map (fun f => f (pc, pt)) (map (blk2 k) (all_pairs os))) = image_error k (sightings os) X (poseCalToEigen pt).
Proof.
  intros PO Ex (RX & RZ & V). unfold image_error. rewrite sightings_pairs, !flat_map_map. f_equal.
  apply flat_map_same. intros [o c] Hin. pose proof Hin as Hin'. apply in_all_pairs in Hin as [Io Ic]. unfold blk2, seen_at. cbn [fst snd camera_mount target_mount point measured].
  destruct (PO o Io) as [P1 P2].
  assert (Vz : 0 < vz (iso_app (target_in_camera X (to_camera_mount o) (to_target_mount o) (poseCalToEigen pt)) (in_target c))).
  { apply (V (Sighting (to_camera_mount o) (to_target_mount o) (in_target c) (in_image c))). rewrite sightings_pairs.
    apply (in_map (fun oc => Sighting (to_camera_mount (fst oc)) (to_target_mount (fst oc)) (in_target (snd oc)) (in_image (snd oc))) _ (o, c)), Hin'. }
  rewrite (cost2D3D_physical _ _ _ _ _ X) by assumption. rewrite arr_pinhole by lra. reflexivity.
Qed.
Lemma he_eval3 os pc pt X : plain_obs os -> rigid X -> poseCalToEigen pc = iso_inv X ->
  half_squares (flat_map (fun f => f (pc, pt)) (map blk3 (all_pairs os))) = space_error (sightings os) X (poseCalToEigen pt).
Proof.
  intros PO RX Ex. unfold space_error. rewrite sightings_pairs, !flat_map_map. f_equal.
  apply flat_map_same. intros [o c] Hin. apply in_all_pairs in Hin as [Io Ic]. unfold blk3, seen_at. cbn [fst snd camera_mount target_mount point measured].
  destruct (PO o Io) as [P1 P2]. rewrite (cost3D3D_physical _ _ _ _ X) by assumption. reflexivity.
Qed.
Lemma he_initial2 u solve cov p r : honest_start solve -> optimize2D3D u solve cov p = Ok r -> plain_obs (h2_observations p) ->
  plain_pose (h2_camera_guess p) -> plain_pose (h2_target_guess p) ->
  he_initial_cost_per_obs r =
  image_error (h2_intr p) (sightings (h2_observations p)) (h2_camera_guess p) (h2_target_guess p) /
  INR (2 * List.length (sightings (h2_observations p))).
Proof.
  intros Ho E PO PC PT. pose proof E as E0. rewrite optimize2D3D_unfold in E. destruct (forallb _ _) eqn:Fb; [ | discriminate ].
  destruct (he_finish_fields _ _ _ _ _ _ _ E) as (xf & s & Es & _ & Ht & Hm & Hi & _).
  rewrite (num_residuals_const _ 2) in Hi by (intros [? ?]; reflexivity). rewrite Hi.
  specialize (Ho (map (blk2 (h2_intr p)) (all_pairs (h2_observations p)))
    (poseEigenToCal (iso_inv (h2_camera_guess p)), poseEigenToCal (h2_target_guess p))). rewrite Es in Ho. cbn [snd] in Ho. rewrite Ho.
  rewrite (he_eval2 (h2_intr p) (h2_observations p) _ _ (h2_camera_guess p)); [ | exact PO | apply plain_stored, plain_inv, PC | ].
  - rewrite plain_stored by exact PT. rewrite sightings_pairs, map_length. reflexivity.
  - rewrite plain_stored by exact PT. split; [ apply plain_rigid, PC | split; [ apply plain_rigid, PT | ] ].
    intros sg Hsg. rewrite sightings_pairs in Hsg. apply in_map_iff in Hsg as ([o c] & <- & Hin). cbn [fst snd].
    rewrite forallb_forall in Fb. pose proof (Fb (o, c) Hin) as W. apply in_all_pairs in Hin as [Io Ic]. destruct (PO o Io) as [P1 P2].
    apply vis2_physical in W; assumption.
Qed.
Lemma he_initial3 u solve cov p r : honest_start solve -> optimize3D3D u solve cov p = Ok r -> plain_obs (h3_observations p) ->
  plain_pose (h3_camera_guess p) -> plain_pose (h3_target_guess p) ->
  he_initial_cost_per_obs r =
  space_error (sightings (h3_observations p)) (h3_camera_guess p) (h3_target_guess p) /
  INR (3 * List.length (sightings (h3_observations p))).
Proof.
  intros Ho E PO PC PT. rewrite optimize3D3D_unfold in E.
  destruct (he_finish_fields _ _ _ _ _ _ _ E) as (xf & s & Es & _ & Ht & Hm & Hi & _).
  rewrite (num_residuals_const _ 3) in Hi by (intros [? ?]; reflexivity). rewrite Hi.
  specialize (Ho (map blk3 (all_pairs (h3_observations p)))
    (poseEigenToCal (iso_inv (h3_camera_guess p)), poseEigenToCal (h3_target_guess p))). rewrite Es in Ho. cbn [snd] in Ho. rewrite Ho.
  rewrite (he_eval3 (h3_observations p) _ _ (h3_camera_guess p)); [ | exact PO | apply plain_rigid, PC | apply plain_stored, plain_inv, PC ].
  rewrite plain_stored by exact PT. rewrite sightings_pairs, map_length. reflexivity.
Qed.
Lemma per_le n a b : a <= b -> a / INR n <= b / INR n.
Proof. apply per_obs_le. Qed.
Lemma he_improved2 u solve cov p r : improving solve -> optimize2D3D u solve cov p = Ok r -> he_final_cost_per_obs r <= he_initial_cost_per_obs r.
Proof.
  intros I E. rewrite optimize2D3D_unfold in E. destruct (forallb _ _); [ | discriminate ].
  destruct (he_finish_fields _ _ _ _ _ _ _ E) as (xf & s & Es & _ & _ & _ & -> & ->). apply per_le.
  match type of Es with solve ?b ?x = _ => specialize (I b x) end. rewrite Es in I. exact I.
Qed.
Lemma he_improved3 u solve cov p r : improving solve -> optimize3D3D u solve cov p = Ok r -> he_final_cost_per_obs r <= he_initial_cost_per_obs r.
Proof.
  intros I E. rewrite optimize3D3D_unfold in E.
  destruct (he_finish_fields _ _ _ _ _ _ _ E) as (xf & s & Es & _ & _ & _ & -> & ->). apply per_le.
  match type of Es with solve ?b ?x = _ => specialize (I b x) end. rewrite Es in I. exact I.
Qed.
Lemma he_again2 u solve cov p r u' solve' cov' r' : honest solve -> honest_start solve' ->
  optimize2D3D u solve cov p = Ok r -> optimize2D3D u' solve' cov' (he2_again p r) = Ok r' -> plain_obs (h2_observations p) ->
  plain_pose (he_camera_mount_to_camera r) -> plain_pose (he_target_mount_to_target r) ->
  in_view (sightings (h2_observations p)) (he_camera_mount_to_camera r) (he_target_mount_to_target r) ->
  he_initial_cost_per_obs r' = he_final_cost_per_obs r /\
  (improving solve' -> he_final_cost_per_obs r' <= he_final_cost_per_obs r).
Proof.
  intros Ho Hs E E' PO PX PZ V.
  assert (Q : he_initial_cost_per_obs r' = he_final_cost_per_obs r).
  { rewrite (he_error2 _ _ _ _ _ Ho E PO V). apply (he_initial2 _ _ _ _ _ Hs E'); assumption. }
  split; [ exact Q | ]. intros I. rewrite <- Q. apply (he_improved2 _ _ _ _ _ I E').
Qed.
Lemma he_again3 u solve cov p r u' solve' cov' r' : honest solve -> honest_start solve' ->
  optimize3D3D u solve cov p = Ok r -> optimize3D3D u' solve' cov' (he3_again p r) = Ok r' -> plain_obs (h3_observations p) ->
  plain_pose (he_camera_mount_to_camera r) -> plain_pose (he_target_mount_to_target r) ->
  he_initial_cost_per_obs r' = he_final_cost_per_obs r /\
  (improving solve' -> he_final_cost_per_obs r' <= he_final_cost_per_obs r).
Proof.
  intros Ho Hs E E' PO PX PZ.
  assert (Q : he_initial_cost_per_obs r' = he_final_cost_per_obs r).
  { rewrite (he_error3 _ _ _ _ _ Ho E PO (plain_rigid _ PX)). apply (he_initial3 _ _ _ _ _ Hs E'); assumption. }
  split; [ exact Q | ]. intros I. rewrite <- Q. apply (he_improved3 _ _ _ _ _ I E').
Qed.

(** ** Pose estimation *)
Lemma pnp_initial2 u solve cov p r : honest_start solve -> optimizePnP u solve cov p = Ok r -> rigid (pnp_guess p) ->
  all_in_front (pnp_guess p) (pnp_correspondences p) ->
  pnp_initial_cost_per_obs r = pose_error (pnp_intr p) (pnp_correspondences p) (pnp_guess p) / INR (2 * List.length (pnp_correspondences p)).
Proof.
  intros Ho E RG AF. rewrite optimizePnP_unfold in E. destruct (pnp_finish_fields _ _ _ _ _ _ _ E) as (x & s & Es & _ & Ht & Hi & _).
  rewrite (num_residuals_const _ 2) in Hi by reflexivity. rewrite Hi. f_equal.
  specialize (Ho (map (fun c => pnp_cost (pnp_intr p) (in_target c) (in_image c)) (pnp_correspondences p)) (pnp_start (pnp_guess p))).
  rewrite Es in Ho. cbn [snd] in Ho. rewrite Ho. unfold pose_error. rewrite flat_map_map. f_equal. apply flat_map_same. intros c Hc.
  rewrite <- (pnp_start_stored (pnp_guess p) RG) at 2. apply pnp_cost_pinhole. rewrite (pnp_start_stored _ RG). apply AF, Hc.
Qed.
Lemma pnp_initial3 u solve cov p r : honest_start solve -> optimizePnP3D u solve cov p = Ok r -> rigid (pnp3_guess p) ->
  pnp_initial_cost_per_obs r = pose_error3 (pnp3_correspondences p) (pnp3_guess p) / INR (3 * List.length (pnp3_correspondences p)).
Proof.
  intros Ho E RG. rewrite optimizePnP3D_unfold in E. destruct (pnp_finish_fields _ _ _ _ _ _ _ E) as (x & s & Es & _ & Ht & Hi & _).
  rewrite (num_residuals_const _ 3) in Hi by reflexivity. rewrite Hi. f_equal.
  specialize (Ho (map (fun c => pnp_cost3D (in_target c) (in_image c)) (pnp3_correspondences p)) (pnp_start (pnp3_guess p))).
  rewrite Es in Ho. cbn [snd] in Ho. rewrite Ho. unfold pose_error3. rewrite flat_map_map. f_equal. apply flat_map_same. intros c Hc.
  rewrite <- (pnp_start_stored (pnp3_guess p) RG) at 2. reflexivity.
Qed.
Lemma pnp_again2 u solve cov p r u' solve' cov' r' : honest solve -> honest_start solve' ->
  optimizePnP u solve cov p = Ok r -> optimizePnP u' solve' cov' (pnp_again p r) = Ok r' ->
  all_in_front (pnp_camera_to_target r) (pnp_correspondences p) ->
  pnp_initial_cost_per_obs r' = pnp_final_cost_per_obs r /\
  (improving solve' -> pnp_final_cost_per_obs r' <= pnp_final_cost_per_obs r).
Proof.
  intros Ho Hs E E' AF.
  assert (RT : rigid (pnp_camera_to_target r)) by (rewrite optimizePnP_unfold in E; apply (pnp_finish_rigid _ _ _ _ _ _ _ E)).
  assert (Q : pnp_initial_cost_per_obs r' = pnp_final_cost_per_obs r).
  { rewrite (pnp_error2 _ _ _ _ _ Ho E AF). apply (pnp_initial2 _ _ _ _ _ Hs E'); assumption. }
  split; [ exact Q | ]. intros I. rewrite <- Q. rewrite optimizePnP_unfold in E'.
  destruct (pnp_finish_fields _ _ _ _ _ _ _ E') as (xf & s & Es & _ & _ & -> & ->). apply per_le.
  match type of Es with solve' ?b ?x = _ => specialize (I b x) end. rewrite Es in I. exact I.
Qed.
Lemma pnp_again3 u solve cov p r u' solve' cov' r' : honest solve -> honest_start solve' ->
  optimizePnP3D u solve cov p = Ok r -> optimizePnP3D u' solve' cov' (pnp3_again p r) = Ok r' ->
  pnp_initial_cost_per_obs r' = pnp_final_cost_per_obs r /\
  (improving solve' -> pnp_final_cost_per_obs r' <= pnp_final_cost_per_obs r).
Proof.
  intros Ho Hs E E'.
  assert (RT : rigid (pnp_camera_to_target r)) by (rewrite optimizePnP3D_unfold in E; apply (pnp_finish_rigid _ _ _ _ _ _ _ E)).
  assert (Q : pnp_initial_cost_per_obs r' = pnp_final_cost_per_obs r).
  { rewrite (pnp_error3 _ _ _ _ _ Ho E). apply (pnp_initial3 _ _ _ _ _ Hs E'); assumption. }
  split; [ exact Q | ]. intros I. rewrite <- Q. rewrite optimizePnP3D_unfold in E'.
  destruct (pnp_finish_fields _ _ _ _ _ _ _ E') as (xf & s & Es & _ & _ & -> & ->). apply per_le.
  match type of Es with solve' ?b ?x = _ => specialize (I b x) end. rewrite Es in I. exact I.
Qed.

(** ** Several cameras *)
Lemma start_rig (solve : block_solver) blocks m0 m s (err : view -> list R) k vs T : honest_start_blocks solve ->
  solve blocks m0 = (m, s) -> map (fun b => rb_eval b m0) blocks = map err vs ->
  (forall c i x, In (c, i, x) vs -> err (c, i, x) = seen_error (k c) (T c i) x) -> rig_in_view vs T ->
  initial_cost s = rig_error k vs T.
Proof.
  intros H E M S V. specialize (H blocks m0). rewrite E in H. cbn [snd] in H. rewrite H.
  rewrite flat_map_concat_map, M, <- flat_map_concat_map. unfold rig_error. f_equal. apply flat_map_same.
  intros [[c i] x] Hv. rewrite (S c i x Hv). destruct (V c i x Hv) as [_ F]. unfold seen_error, pixel_error.
  rewrite arr_pinhole by lra. reflexivity.
Qed.
Lemma better_blocks (solve : block_solver) blocks m0 m s n : improving_blocks solve -> solve blocks m0 = (m, s) ->
  final_cost s / INR n <= initial_cost s / INR n.
Proof. intros I E. apply per_le. specialize (I blocks m0). rewrite E in I. exact I. Qed.

Lemma static_initial u solve cov p r : honest_start_blocks solve -> optimizeStatic u solve cov p = Ok r ->
  static_sizes p -> plain_wrists p -> guesses_plain_static p -> rig_in_view (static_views p) (static_guessed p) ->
  sr_initial_cost_per_obs r = rig_error (camera_of (sp_intr p)) (static_views p) (static_guessed p) /
                              INR (2 * List.length (static_views p)).
Proof.
  intros Ho E Sz PW (PT & PC) V. set (n := List.length (sp_base_to_camera_guess p)).
  destruct (static_right p Sz PW) as (blocks & Ev & Res).
  destruct (Res u solve cov r E) as (m & s & Es & _ & _ & _ & _ & Hi & _). fold n in Ev.
  assert (ST : forall c, (c < n)%nat -> poseCalToEigen (read_pose (static_start p) c) = iso_inv (nth c (sp_base_to_camera_guess p) iso_id)).
  { intros c Hc. pose proof (nth_error_nth' (sp_base_to_camera_guess p) iso_id Hc) as G. rewrite (static_start_camera p c _ G). apply plain_stored, plain_inv, PC, nth_In, Hc. }
  assert (RM : forall c, (c < n)%nat -> rigid (poseCalToEigen (read_pose (static_start p) c))).
  { intros c Hc. rewrite (ST c Hc). apply rigid_inv, plain_rigid, PC, nth_In, Hc. }
  rewrite Hi. f_equal. apply (start_rig _ _ _ _ _ _ _ _ _ Ho Es (Ev _ RM)); [ | exact V ].
  intros c i x Hv. apply in_static_views in Hv as (Hc & _). unfold static_error, static_guessed, static_wrist, camera_of.
  rewrite (ST c Hc). rewrite (iso_inv_inv (nth c (sp_base_to_camera_guess p) iso_id)) by (apply plain_rigid, PC, nth_In, Hc).
  pose proof (static_start_wrist p) as W. unfold static_wrist_key in W. fold n in W. rewrite W, plain_stored by exact PT. reflexivity.
Qed.
Lemma static_restart u solve cov p r u' solve' cov' r' : honest_blocks solve -> honest_start_blocks solve' ->
  optimizeStatic u solve cov p = Ok r -> optimizeStatic u' solve' cov' (static_again p r) = Ok r' ->
  static_sizes p -> plain_wrists p ->
  (forall T, In T (sr_base_to_camera r) -> plain_pose T) -> plain_pose (sr_wrist_to_target r) ->
  rig_in_view (static_views p) (static_poses p r) ->
  sr_initial_cost_per_obs r' = sr_final_cost_per_obs r /\
  (improving_blocks solve' -> sr_final_cost_per_obs r' <= sr_final_cost_per_obs r).
Proof.
  intros Ho Hs E E' Sz PW PC PZ V.
  assert (Hl : List.length (sr_base_to_camera r) = List.length (sp_base_to_camera_guess p)).
  { destruct (static_right p Sz PW) as (blocks & _ & Res). destruct (Res u solve cov r E) as (m & s & _ & _ & _ & Hl & _). exact Hl. }
  assert (Sz' : static_sizes (static_again p r)) by (unfold static_sizes, static_again; cbn [sp_intr sp_wrist_poses sp_image_observations sp_base_to_camera_guess]; rewrite Hl; exact Sz).
  assert (EV : static_views (static_again p r) = static_views p).
  { unfold static_views, static_again. cbn [sp_image_observations sp_wrist_poses sp_base_to_camera_guess]. rewrite Hl. reflexivity. }
  assert (Q : sr_initial_cost_per_obs r' = sr_final_cost_per_obs r).
  { rewrite (static_reported _ _ _ _ _ Ho E Sz PW (fun T H => plain_rigid T (PC T H)) V).
    rewrite (static_initial _ _ _ _ _ Hs E' Sz' PW (conj PZ PC)); rewrite EV; [ reflexivity | exact V ]. }
  split; [ exact Q | ]. intros I. rewrite <- Q. destruct (static_right _ Sz' PW) as (blocks & _ & Res).
  destruct (Res u' solve' cov' r' E') as (m & s & Es & _ & _ & _ & _ & -> & ->). apply (better_blocks _ _ _ _ _ _ I Es).
Qed.

Lemma wrist_initial solve p r : honest_start_blocks solve -> optimizeWrist solve p = Ok r ->
  wrist_sizes p -> (forall T, In T (wp_wrist_poses p) -> plain_pose T) ->
  (forall T, In T (wp_base_to_camera_guess p) -> plain_pose T) -> plain_pose (wp_wrist_to_target_guess p) ->
  rig_in_view (wrist_views p) (wrist_guessed p) ->
  wr_initial_cost_per_obs r = rig_error (camera_of (wp_intr p)) (wrist_views p) (wrist_guessed p) /
                              INR (2 * List.length (wrist_views p)).
Proof.
  intros Ho E Sz PW PC PZ V. destruct (wrist_right p Sz PW PC) as (blocks & Ev & Res).
  destruct (Res solve) as (m & s & r' & Es & Er & _ & _ & _ & Hi & _). rewrite Er in E. injection E as ->.
  specialize (Ev (wrist_start p)). cbv zeta in Ev. rewrite wrist_start_correction in Ev. specialize (Ev rigid_id).
  rewrite Hi. f_equal. apply (start_rig _ _ _ _ _ _ _ _ _ Ho Es Ev); [ | exact V ].
  intros c i x Hv. unfold wrist_error, wrist_guessed, camera_of. rewrite wrist_start_target, plain_stored by exact PZ.
  rewrite iso_inv_id, iso_mul_id_l. reflexivity.
Qed.
Lemma wrist_restart solve p r solve' r' : honest_blocks solve -> honest_start_blocks solve' ->
  optimizeWrist solve p = Ok r -> optimizeWrist solve' (wrist_again p r) = Ok r' ->
  wrist_sizes p -> (forall T, In T (wp_wrist_poses p) -> plain_pose T) ->
  (forall T, In T (wp_base_to_camera_guess p) -> plain_pose T) ->
  (forall T, In T (wr_base_to_camera r) -> plain_pose T) -> plain_pose (wr_wrist_to_target r) ->
  rig_in_view (wrist_views p) (wrist_poses p r) ->
  wr_initial_cost_per_obs r' = wr_final_cost_per_obs r /\
  (improving_blocks solve' -> wr_final_cost_per_obs r' <= wr_final_cost_per_obs r).
Proof.
  intros Ho Hs E E' Sz PW PG PC PZ V.
  assert (Hl : List.length (wr_base_to_camera r) = List.length (wp_base_to_camera_guess p)).
  { destruct (wrist_right p Sz PW PG) as (blocks & _ & Res). destruct (Res solve) as (m & s & r0 & _ & Er & _ & _ & Hc & _).
    rewrite Er in E. injection E as ->. rewrite Hc, map_length. reflexivity. }
  assert (Sz' : wrist_sizes (wrist_again p r)) by (unfold wrist_sizes, wrist_again; cbn [wp_intr wp_wrist_poses wp_image_observations wp_base_to_camera_guess]; rewrite Hl; exact Sz).
  assert (EV : wrist_views (wrist_again p r) = wrist_views p).
  { unfold wrist_views, wrist_again. cbn [wp_image_observations wp_wrist_poses wp_base_to_camera_guess]. rewrite Hl. reflexivity. }
  assert (Q : wr_initial_cost_per_obs r' = wr_final_cost_per_obs r).
  { rewrite (proj1 (wrist_reported _ _ _ Ho E Sz PW PG (fun T H => plain_rigid T (PC T H)) V)).
    rewrite (wrist_initial _ _ _ Hs E' Sz' PW PC PZ); rewrite EV; [ reflexivity | exact V ]. }
  split; [ exact Q | ]. intros I. rewrite <- Q. destruct (wrist_right _ Sz' PW PC) as (blocks & _ & Res).
  destruct (Res solve') as (m & s & r0 & Es & Er & _ & _ & _ & Hi & Hf). rewrite Er in E'. injection E' as ->. rewrite Hi, Hf. apply (better_blocks _ _ _ _ _ _ I Es).
Qed.

Lemma only_initial solve p r : honest_start_blocks solve -> optimizeOnly solve p = Ok r -> only_sizes p ->
  (forall T, In T (op_base_to_camera_guess p) -> plain_pose T) -> (forall T, In T (op_base_to_target_guess p) -> plain_pose T) ->
  rig_in_view (only_views p) (only_guessed p) ->
  or_initial_cost_per_obs r = rig_error (camera_of (op_intr p)) (only_views p) (only_guessed p) /
                              INR (2 * List.length (only_views p)).
Proof.
  intros Ho E Sz PC PT V. set (n := List.length (op_base_to_camera_guess p)).
  destruct (only_right p Sz (fun _ T H => PC T (nth_error_In _ _ H))) as (blocks & Ev & Res).
  destruct (Res solve) as (m & s & r' & Es & Er & _ & _ & _ & Hi & _). rewrite Er in E. injection E as ->. fold n in Ev.
  assert (ST : op_base_to_target_guess p <> [] -> forall c, (c < n)%nat ->
    poseCalToEigen (read_pose (only_start p) c) = iso_inv (nth c (op_base_to_camera_guess p) iso_id)).
  { intros N c Hc. pose proof (nth_error_nth' (op_base_to_camera_guess p) iso_id Hc) as G. rewrite (only_start_camera p c _ N G). apply plain_stored, plain_inv, PC, nth_In, Hc. }
  assert (RM : forall c, (c < n)%nat -> rigid (poseCalToEigen (read_pose (only_start p) c))).
  { intros c Hc. assert (D : op_base_to_target_guess p = [] \/ op_base_to_target_guess p <> []) by (destruct (op_base_to_target_guess p); [ left; reflexivity | right; discriminate ]).
    destruct D as [N|N].
    - rewrite (only_start_zero p c _ N (nth_error_nth' (op_base_to_camera_guess p) iso_id Hc)). apply cal_to_eigen_rigid. left. reflexivity.
    - rewrite (ST N c Hc). apply rigid_inv, plain_rigid, PC, nth_In, Hc. }
  rewrite Hi. f_equal. apply (start_rig _ _ _ _ _ _ _ _ _ Ho Es (Ev _ RM)); [ | exact V ].
  intros c i x Hv. apply in_only_views in Hv as (Hc & Hi' & _).
  assert (N : op_base_to_target_guess p <> []) by (intros Q; rewrite Q in Hi'; cbn in Hi'; lia).
  unfold only_error, only_guessed, camera_of.
  pose proof (only_start_target p i _ (nth_error_nth' (op_base_to_target_guess p) iso_id Hi')) as W. unfold only_target_key in W. fold n in W. rewrite W.
  rewrite plain_stored by (apply PT, nth_In, Hi'). f_equal. f_equal. f_equal.
  destruct (andb _ _); [ reflexivity | ]. rewrite (ST N c Hc). apply iso_inv_inv, plain_rigid, PC, nth_In, Hc.
Qed.
Lemma only_restart solve p r solve' r' : honest_blocks solve -> leaves_others solve -> honest_start_blocks solve' ->
  optimizeOnly solve p = Ok r -> optimizeOnly solve' (only_again p r) = Ok r' -> only_sizes p ->
  (op_fix_first_camera p = true -> forall T, nth_error (op_base_to_camera_guess p) 0 = Some T -> plain_pose T) ->
  (forall T, In T (or_base_to_camera r) -> plain_pose T) -> (forall T, In T (or_base_to_target r) -> plain_pose T) ->
  rig_in_view (only_views p) (only_poses r) ->
  or_initial_cost_per_obs r' = or_final_cost_per_obs r /\
  (improving_blocks solve' -> or_final_cost_per_obs r' <= or_final_cost_per_obs r).
Proof.
  intros Ho Lo Hs E E' Sz PF PC PT V.
  assert (Hl : List.length (or_base_to_camera r) = List.length (op_base_to_camera_guess p) /\
               List.length (or_base_to_target r) = List.length (op_base_to_target_guess p)).
  { destruct (only_right p Sz PF) as (blocks & _ & Res). destruct (Res solve) as (m & s & r0 & _ & Er & _ & Ht & Hc & _).
    rewrite Er in E. injection E as ->. rewrite Hc, Ht, !map_length, !seq_length. split; reflexivity. }
  destruct Hl as [Hl Hl'].
  assert (Sz' : only_sizes (only_again p r)) by (unfold only_sizes, only_again; cbn [op_intr op_image_observations op_base_to_camera_guess op_base_to_target_guess]; rewrite Hl, Hl'; exact Sz).
  assert (EV : only_views (only_again p r) = only_views p).
  { unfold only_views, only_again. cbn [op_image_observations op_base_to_camera_guess op_base_to_target_guess]. rewrite Hl, Hl'. reflexivity. }
  assert (Q : or_initial_cost_per_obs r' = or_final_cost_per_obs r).
  { rewrite (only_reported _ _ _ Ho Lo E Sz PF (fun T H => plain_rigid T (PC T H)) V).
    rewrite (only_initial _ _ _ Hs E' Sz' PC PT); rewrite EV; [ reflexivity | exact V ]. }
  split; [ exact Q | ]. intros I. rewrite <- Q.
  destruct (only_right _ Sz' (fun _ T H => PC T (nth_error_In _ _ H))) as (blocks & _ & Res).
  destruct (Res solve') as (m & s & r0 & Es & Er & _ & _ & _ & Hi & Hf). rewrite Er in E'. injection E' as ->. rewrite Hi, Hf. apply (better_blocks _ _ _ _ _ _ I Es).
Qed.

Lemma mpnp_initial solve p r : honest_start_blocks solve -> optimizeMpnp solve p = Ok r -> mpnp_sizes p ->
  (forall T, In T (mp_base_to_camera p) -> plain_pose T) -> plain_pose (mp_base_to_target_guess p) ->
  rig_in_view (single_views p) (mpnp_guessed p) ->
  mr_initial_cost_per_obs r = rig_error (camera_of (mp_intr p)) (single_views p) (mpnp_guessed p) /
                              INR (2 * List.length (single_views p)).
Proof.
  intros Ho E Sz PC PT V. destruct (mpnp_right p Sz PC) as (blocks & Ev & Res).
  destruct (Res solve) as (m0 & m & s & r' & G & Es & Er & _ & _ & Hi & _). rewrite Er in E. injection E as ->. specialize (Ev m0).
  rewrite G, plain_stored in Ev by exact PT.
  assert (Ev' : map (fun b => rb_eval b m0) blocks =
     map (fun v => let '(c, i, x) := v in mpnp_error p (mp_base_to_target_guess p) (c, x)) (single_views p)).
  { rewrite Ev. unfold single_views. rewrite map_map. apply map_ext. intros [c x]. reflexivity. }
  rewrite Hi. unfold single_views at 2. rewrite map_length. f_equal.
  apply (start_rig _ _ _ _ _ _ _ _ _ Ho Es Ev'); [ | exact V ]. intros c i x _. reflexivity.
Qed.
Lemma mpnp_restart solve p r solve' r' : honest_blocks solve -> honest_start_blocks solve' ->
  optimizeMpnp solve p = Ok r -> optimizeMpnp solve' (mpnp_again p r) = Ok r' -> mpnp_sizes p ->
  (forall T, In T (mp_base_to_camera p) -> plain_pose T) -> plain_pose (mr_base_to_target r) ->
  rig_in_view (single_views p) (mpnp_poses p r) ->
  mr_initial_cost_per_obs r' = mr_final_cost_per_obs r /\
  (improving_blocks solve' -> mr_final_cost_per_obs r' <= mr_final_cost_per_obs r).
Proof.
  intros Ho Hs E E' Sz PC PT V.
  assert (Q : mr_initial_cost_per_obs r' = mr_final_cost_per_obs r).
  { rewrite (mpnp_reported _ _ _ Ho E Sz PC V). apply (mpnp_initial _ _ _ Hs E' Sz PC PT V). }
  split; [ exact Q | ]. intros I. rewrite <- Q. destruct (mpnp_right (mpnp_again p r) Sz PC) as (blocks & _ & Res).
  destruct (Res solve') as (m0 & m & s & r0 & _ & Es & Er & _ & _ & Hi & Hf). rewrite Er in E'. injection E' as ->. rewrite Hi, Hf. apply (better_blocks _ _ _ _ _ _ I Es).
Qed.

(** ** Circles *)
Lemma circle_eval blocks points x : List.length blocks = List.length points ->
  (forall k o, nth_error points k = Some o ->
     exists f : residual circle_params, nth_error blocks k = Some f /\
     forall x, let radius := cp_rsqrt x * cp_rsqrt x in
       f x = [radius ^ 2 - ((px o - cp_x x) ^ 2 + (py o - cp_y x) ^ 2)]) ->
  half_squares (flat_map (fun f => f x) blocks) = circle_error points (cp_x x) (cp_y x) (cp_rsqrt x * cp_rsqrt x).
Proof.
  intros L H. unfold circle_error. f_equal. revert points L H. induction blocks as [|f blocks IH]; intros [|o points] L H; try discriminate; [ reflexivity | ].
  cbn [flat_map map]. destruct (H 0%nat o eq_refl) as (f' & Ef & E). injection Ef as <-. rewrite E. cbn [app]. f_equal.
  apply IH; [ cbn in L; lia | ]. intros k o' Ho. apply (H (S k) o' Ho).
Qed.
Lemma circle_initial u solve cov p r : honest_start solve -> optimizeCircle u solve cov p = Ok r ->
  0 <= cf_radius_initial p ->
  cf_initial_cost_per_obs r =
  circle_error (cf_observations p) (cf_x_center_initial p) (cf_y_center_initial p) (cf_radius_initial p) / INR (List.length (cf_observations p)).
Proof.
  intros Ho E HR. destruct (circle_residuals u cov p) as (blocks & L & Ev & Res). destruct (Res solve r E) as (x & s & Es & _ & _ & _ & _ & Hi & _).
  rewrite Hi. f_equal. specialize (Ho blocks (CirP (cf_x_center_initial p) (cf_y_center_initial p) (sqrt (cf_radius_initial p)))).
  rewrite Es in Ho. cbn [snd] in Ho. rewrite Ho, (circle_eval _ _ _ L Ev). cbn [cp_x cp_y cp_rsqrt]. rewrite sqrt_sqrt by exact HR. reflexivity.
Qed.
Lemma circle_final u solve cov p r : honest solve -> optimizeCircle u solve cov p = Ok r ->
  cf_final_cost_per_obs r =
  circle_error (cf_observations p) (cf_x_center r) (cf_y_center r) (cf_radius r) / INR (List.length (cf_observations p)).
Proof.
  intros Ho E. destruct (circle_residuals u cov p) as (blocks & L & Ev & Res). destruct (Res solve r E) as (x & s & Es & _ & Hx & Hy & Hr & _ & Hf).
  rewrite Hf. f_equal. specialize (Ho blocks (CirP (cf_x_center_initial p) (cf_y_center_initial p) (sqrt (cf_radius_initial p)))).
  rewrite Es in Ho. rewrite Ho, (circle_eval _ _ _ L Ev), Hx, Hy, Hr. reflexivity.
Qed.
Lemma circle_restart u solve cov p r u' solve' cov' r' : honest solve -> honest_start solve' ->
  optimizeCircle u solve cov p = Ok r -> optimizeCircle u' solve' cov' (circle_again p r) = Ok r' ->
  cf_initial_cost_per_obs r' = cf_final_cost_per_obs r /\
  (improving solve' -> cf_final_cost_per_obs r' <= cf_final_cost_per_obs r).
Proof.
  intros Ho Hs E E'.
  assert (Q : cf_initial_cost_per_obs r' = cf_final_cost_per_obs r).
  { rewrite (circle_final _ _ _ _ _ Ho E). apply (circle_initial _ _ _ _ _ Hs E'), (circle_nonneg _ _ _ _ _ E). }
  split; [ exact Q | ]. intros I. rewrite <- Q. destruct (circle_residuals u' cov' (circle_again p r)) as (blocks & _ & _ & Res).
  destruct (Res solve' r' E') as (x & s & Es & _ & _ & _ & _ & -> & ->). apply per_le. specialize (I blocks (CirP (cf_x_center_initial (circle_again p r)) (cf_y_center_initial (circle_again p r)) (sqrt (cf_radius_initial (circle_again p r))))).
  rewrite Es in I. exact I.
Qed.
