(** Concrete data for C114: a grid with one row. *)
From Coq Require Import Reals Lra Psatz Arith Lia String List.
From Verif.Base Require Import Geom Outcome.
From Verif.Model Require Import Pose Covariance Solver HandEye Pnp MultiCamera Intrinsic Targets.
From Verif.Spec Require Import Frames PinHole PnpSpec UniqueSpec MultiSpec SameDataSpec DeterminedSpec ToolsAgreeSpec LineTargetSpec.
From Verif.Spec Require IntrinsicSpec LensChoicesSpec.
From Verif.Proofs Require Import GeomLemmas HandEyeProofs PnpProofs UniqueLemmas UniqueProofs SameDataProofs LineTargetProofs.
From Verif.Proofs Require SameDataExample IntrinsicProofs.
From Verif.Proofs Require Import UniqueExamples.
Import ListNotations.
Local Open Scope R_scope.

Definition ln_grid : circle_grid := CG 1 2 1.
Lemma ln_points : createPoints ln_grid = [V3 0 0 0; V3 1 0 0].
Proof. unfold createPoints, ln_grid. cbn. repeat f_equal; ring. Qed.
Lemma ln_line : all_on_line vzero unitX (createPoints ln_grid).
Proof.
  rewrite ln_points. intros x [<-|[<-|[]]]; [ exists 0 | exists 1 ]; unfold vadd, vscale, vzero, unitX; cbn [vx vy vz]; f_equal; ring.
Qed.
Lemma ln_unit : dot unitX unitX = 1.
Proof. unfold dot, unitX; cbn; ring. Qed.
Lemma ln_square v : In v (createPoints ln_grid) -> In v ex_square.
Proof. rewrite ln_points. intros [<-|[<-|[]]]; cbn; auto. Qed.
Definition ln_flip : iso := turn_about_line vzero unitX PI.
Lemma ln_flip_plain : plain_pose ln_flip.
Proof.
  split; [ apply turn_rigid, ln_unit | right ]. exists PI, unitX. pose proof PI_RGT_0. pose proof PI2_1. pose proof DBL_EPS_small.
  split; [ apply ln_unit | split; [ reflexivity | ] ]. split; [ lra | nra ].
Qed.
Lemma ln_flips T : rigid T -> iso_mul T ln_flip <> T.
Proof. apply half_turn_moves, ln_unit. Qed.

(** ** Pose of one target *)
Definition ln_picture (T : iso) : list (correspondence vec2) := map (fun v => Corr (pinhole ex_k (iso_app T v)) v) (createPoints ln_grid).
Definition ln_cloud (T : iso) : list (correspondence vec3) := map (fun v => Corr (iso_app T v) v) (createPoints ln_grid).
Lemma ln_picture_targets T : map in_target (ln_picture T) = createPoints ln_grid.
Proof. unfold ln_picture. rewrite map_map. apply map_id. Qed.
Lemma ln_cloud_targets T : map in_target (ln_cloud T) = createPoints ln_grid.
Proof. unfold ln_cloud. rewrite map_map. apply map_id. Qed.
Lemma ln_perfect T : (forall v, In v ex_square -> in_front (iso_app T v)) -> perfect_image ex_k T (ln_picture T).
Proof. intros F c Hc. apply in_map_iff in Hc as (v & <- & Hv). cbn [in_target in_image]. split; [ apply F, ln_square, Hv | reflexivity ]. Qed.
Lemma ln_perfect3 T : perfect_points T (ln_cloud T).
Proof. intros c Hc. apply in_map_iff in Hc as (v & <- & Hv). reflexivity. Qed.
Lemma ln_some T : ln_picture T <> [].
Proof. unfold ln_picture. rewrite ln_points. discriminate. Qed.
Lemma ln_some3 T : ln_cloud T <> [].
Proof. unfold ln_cloud. rewrite ln_points. discriminate. Qed.

(** Both poses are found, without any error. *)
Lemma ln_pnp2 : exists u solve cov p r p' r' T,
  honest solve /\ optimizePnP u solve cov p = Ok r /\ optimizePnP u solve cov p' = Ok r' /\
  all_in_front (pnp_camera_to_target r) (pnp_correspondences p) /\
  pnp_intr p' = pnp_intr p /\ pnp_correspondences p' = pnp_correspondences p /\
  map in_target (pnp_correspondences p) = createPoints (CG 1 2 1) /\
  all_on_line vzero unitX (map in_target (pnp_correspondences p)) /\
  rigid T /\ ~ edge_on T /\ fx (pnp_intr p) <> 0 /\ fy (pnp_intr p) <> 0 /\ perfect_image (pnp_intr p) T (pnp_correspondences p) /\
  pnp_camera_to_target r = T /\ pnp_final_cost_per_obs r = 0 /\
  pnp_camera_to_target r' = iso_mul T (turn_about_line vzero unitX PI) /\ pnp_final_cost_per_obs r' = 0 /\
  pnp_camera_to_target r' <> T.
Proof.
  set (at_ := fun G => PnP2 ex_k (ln_picture ex_ahead) G "camera_to_target"%string).
  assert (OK : forall G, exists r, optimizePnP (fun _ _ => 0) sc_stay ex_cov_oracle (at_ G) = Ok r).
  { intros G. apply pnp_succeeds2; try reflexivity; [ apply ex_oracle_sym | apply ln_some ]. }
  destruct (OK ex_ahead) as [r E]. destruct (OK (iso_mul ex_ahead ln_flip)) as [r' E'].
  exists (fun _ _ => 0), sc_stay, ex_cov_oracle, (at_ ex_ahead), r, (at_ (iso_mul ex_ahead ln_flip)), r', ex_ahead.
  assert (RF : rigid (iso_mul ex_ahead ln_flip)) by (apply rigid_mul; [ apply ex_ahead_rigid | apply turn_rigid, ln_unit ]).
  assert (Er : pnp_camera_to_target r = ex_ahead) by (apply (pnp_unmoved2 _ _ _ _ _ sc_stay_stays E), ex_ahead_rigid).
  assert (Er' : pnp_camera_to_target r' = iso_mul ex_ahead ln_flip) by (apply (pnp_unmoved2 _ _ _ _ _ sc_stay_stays E'), RF).
  assert (PI' : perfect_image ex_k ex_ahead (ln_picture ex_ahead)) by apply ln_perfect, ex_ahead_front.
  assert (AF : all_in_front (pnp_camera_to_target r) (pnp_correspondences (at_ ex_ahead))).
  { rewrite Er. intros c Hc. apply PI', Hc. }
  assert (AL : all_on_line vzero unitX (map in_target (pnp_correspondences (at_ ex_ahead)))).
  { cbn [at_ pnp_correspondences]. rewrite ln_picture_targets. apply ln_line. }
  assert (Z : pnp_final_cost_per_obs r = 0).
  { rewrite (pnp_error2 _ _ _ _ _ sc_stay_honest E AF), Er. cbn [at_ pnp_intr pnp_correspondences].
    rewrite (perfect_error2 _ _ _ PI'). unfold Rdiv. ring. }
  split; [ apply sc_stay_honest | split; [ exact E | split; [ exact E' | split; [ exact AF | ] ] ] ].
  split; [ reflexivity | split; [ reflexivity | split; [ apply ln_picture_targets | split; [ exact AL | ] ] ] ].
  split; [ apply ex_ahead_rigid | split; [ apply ex_ahead_not_edge_on | split; [ cbn; lra | split; [ cbn; lra | ] ] ] ].
  split; [ exact PI' | split; [ exact Er | split; [ exact Z | split; [ exact Er' | split ] ] ] ].
  - rewrite <- Z. apply (line_pnp2 vzero unitX PI ln_unit _ _ _ _ _ _ _ _ _ _ sc_stay_honest E AF AL sc_stay_honest E'); try reflexivity.
    rewrite Er. exact Er'.
  - rewrite Er'. apply ln_flips, ex_ahead_rigid.
Qed.
Lemma ln_pnp3 : exists u solve cov p r p' r' T,
  honest solve /\ optimizePnP3D u solve cov p = Ok r /\ optimizePnP3D u solve cov p' = Ok r' /\
  pnp3_correspondences p' = pnp3_correspondences p /\
  all_on_line vzero unitX (map in_target (pnp3_correspondences p)) /\
  rigid T /\ perfect_points T (pnp3_correspondences p) /\
  pnp_camera_to_target r = T /\ pnp_final_cost_per_obs r = 0 /\
  pnp_camera_to_target r' = iso_mul T (turn_about_line vzero unitX PI) /\ pnp_final_cost_per_obs r' = 0 /\
  pnp_camera_to_target r' <> T.
Proof.
  set (at_ := fun G => PnP3 (ln_cloud ex_ahead) G "camera_to_target"%string).
  assert (OK : forall G, exists r, optimizePnP3D (fun _ _ => 0) sc_stay ex_cov_oracle (at_ G) = Ok r).
  { intros G. apply pnp_succeeds3; try reflexivity; [ apply ex_oracle_sym | apply ln_some3 ]. }
  destruct (OK ex_ahead) as [r E]. destruct (OK (iso_mul ex_ahead ln_flip)) as [r' E'].
  exists (fun _ _ => 0), sc_stay, ex_cov_oracle, (at_ ex_ahead), r, (at_ (iso_mul ex_ahead ln_flip)), r', ex_ahead.
  assert (RF : rigid (iso_mul ex_ahead ln_flip)) by (apply rigid_mul; [ apply ex_ahead_rigid | apply turn_rigid, ln_unit ]).
  assert (Er : pnp_camera_to_target r = ex_ahead) by (apply (pnp_unmoved3 _ _ _ _ _ sc_stay_stays E), ex_ahead_rigid).
  assert (Er' : pnp_camera_to_target r' = iso_mul ex_ahead ln_flip) by (apply (pnp_unmoved3 _ _ _ _ _ sc_stay_stays E'), RF).
  assert (AL : all_on_line vzero unitX (map in_target (pnp3_correspondences (at_ ex_ahead)))).
  { cbn [at_ pnp3_correspondences]. rewrite ln_cloud_targets. apply ln_line. }
  assert (Z : pnp_final_cost_per_obs r = 0).
  { rewrite (pnp_error3 _ _ _ _ _ sc_stay_honest E), Er. cbn [at_ pnp3_correspondences].
    rewrite (perfect_error3 _ _ (ln_perfect3 ex_ahead)). unfold Rdiv. ring. }
  split; [ apply sc_stay_honest | split; [ exact E | split; [ exact E' | split; [ reflexivity | split; [ exact AL | ] ] ] ] ].
  split; [ apply ex_ahead_rigid | split; [ apply ln_perfect3 | split; [ exact Er | split; [ exact Z | split; [ exact Er' | split ] ] ] ] ].
  - rewrite <- Z. apply (line_pnp3 vzero unitX PI ln_unit _ _ _ _ _ _ _ _ _ _ sc_stay_honest E AL sc_stay_honest E'); try reflexivity.
    rewrite Er. exact Er'.
  - rewrite Er'. apply ln_flips, ex_ahead_rigid.
Qed.

(** ** Hand-eye calibration, with motions about two axes *)
Definition ln_obs2 (W : iso) : observation vec2 := Obs (ln_picture (target_in_camera ex_camera iso_id W iso_id)) iso_id W.
Definition ln_he2 (Z : iso) : he_problem2D3D := HEP2 (map ln_obs2 ex_mounts) ex_k Z ex_camera default_he_labels.
Definition ln_obs3 (W : iso) : observation vec3 := Obs (ln_cloud (target_in_camera ex_camera iso_id W iso_id)) iso_id W.
Definition ln_he3 (Z : iso) : he_problem3D3D := HEP3 (map ln_obs3 ex_mounts) Z ex_camera default_he_labels.
Lemma ln_plain2 Z : plain_obs (h2_observations (ln_he2 Z)).
Proof. intros o Ho. apply in_map_iff in Ho as (W & <- & HW). split; [ apply (plain_id_tr vzero) | apply ex_mounts_plain, HW ]. Qed.
Lemma ln_plain3 Z : plain_obs (h3_observations (ln_he3 Z)).
Proof. intros o Ho. apply in_map_iff in Ho as (W & <- & HW). split; [ apply (plain_id_tr vzero) | apply ex_mounts_plain, HW ]. Qed.
Lemma ln_sighting2 Z s : In s (sightings (h2_observations (ln_he2 Z))) -> exists W v, In W ex_mounts /\ In v (createPoints ln_grid) /\
  s = Sighting iso_id W v (pinhole ex_k (iso_app (target_in_camera ex_camera iso_id W iso_id) v)).
Proof.
  intros H. apply in_flat_map in H as (o & Ho & Hs). apply in_map_iff in Ho as (W & <- & HW).
  apply in_map_iff in Hs as (c & <- & Hc). apply in_map_iff in Hc as (v & <- & Hv). exists W, v. auto.
Qed.
Lemma ln_sighting3 Z s : In s (sightings (h3_observations (ln_he3 Z))) -> exists W v, In W ex_mounts /\ In v (createPoints ln_grid) /\
  s = Sighting iso_id W v (iso_app (target_in_camera ex_camera iso_id W iso_id) v).
Proof.
  intros H. apply in_flat_map in H as (o & Ho & Hs). apply in_map_iff in Ho as (W & <- & HW).
  apply in_map_iff in Hs as (c & <- & Hc). apply in_map_iff in Hc as (v & <- & Hv). exists W, v. auto.
Qed.
Lemma ln_on2 Z : all_on_line vzero unitX (map point (sightings (h2_observations (ln_he2 Z)))).
Proof. intros x Hx. apply in_map_iff in Hx as (s & <- & Hs). apply ln_sighting2 in Hs as (W & v & _ & Hv & ->). apply ln_line, Hv. Qed.
Lemma ln_on3 Z : all_on_line vzero unitX (map point (sightings (h3_observations (ln_he3 Z)))).
Proof. intros x Hx. apply in_map_iff in Hx as (s & <- & Hs). apply ln_sighting3 in Hs as (W & v & _ & Hv & ->). apply ln_line, Hv. Qed.
Lemma ln_view2 Z : in_view (sightings (h2_observations (ln_he2 Z))) ex_camera iso_id.
Proof.
  split; [ apply rigid_trans | split; [ apply rigid_id | ] ]. intros s Hs. apply ln_sighting2 in Hs as (W & v & HW & Hv & ->).
  apply front_pos. exact (ex_mounts_front W v HW (ln_square v Hv)).
Qed.
Lemma ln_zero2 Z : image_error ex_k (sightings (h2_observations (ln_he2 Z))) ex_camera iso_id = 0.
Proof.
  apply half_squares_all_zero. intros e He. apply in_flat_map in He as (s & Hs & He). apply ln_sighting2 in Hs as (W & v & _ & _ & ->).
  cbn [measured] in He. unfold seen_at in He. cbn [camera_mount target_mount point In] in He. destruct He as [<-|[<-|[]]]; lra.
Qed.
Lemma ln_zero3 Z : space_error (sightings (h3_observations (ln_he3 Z))) ex_camera iso_id = 0.
Proof.
  apply half_squares_all_zero. intros e He. apply in_flat_map in He as (s & Hs & He). apply ln_sighting3 in Hs as (W & v & _ & _ & ->).
  cbn [measured] in He. unfold seen_at in He. cbn [camera_mount target_mount point In] in He. destruct He as [<-|[<-|[<-|[]]]]; lra.
Qed.
Lemma ln_he2_ok Z : plain_pose Z -> in_view (sightings (h2_observations (ln_he2 Z))) ex_camera Z ->
  exists r, optimize2D3D (fun _ _ => 0) sc_stay ex_cov_oracle (ln_he2 Z) = Ok r.
Proof.
  intros PZ (_ & _ & V). apply accept2; try reflexivity.
  - apply ex_oracle_lists.
  - apply ex_oracle_sym.
  - apply plain_id_tr.
  - exact PZ.
  - apply ln_plain2.
  - unfold all_pairs, ln_he2, ln_obs2, ln_picture. rewrite ln_points. discriminate.
  - intros o c Ho Hc. apply (V (Sighting (to_camera_mount o) (to_target_mount o) (in_target c) (in_image c))).
    apply in_flat_map. exists o. split; [ exact Ho | ].
    exact (in_map (fun c => Sighting (to_camera_mount o) (to_target_mount o) (in_target c) (in_image c)) _ _ Hc).
Qed.
Lemma ln_case2 : exists u solve cov p r p' r',
  honest solve /\ optimize2D3D u solve cov p = Ok r /\ optimize2D3D u solve cov p' = Ok r' /\ plain_obs (h2_observations p) /\
  h2_intr p' = h2_intr p /\ h2_observations p' = h2_observations p /\
  all_on_line vzero unitX (map point (sightings (h2_observations p))) /\
  two_axes (motions_of (map mounts (h2_observations p))) /\
  best_for_images (h2_intr p) (sightings (h2_observations p)) (he_camera_mount_to_camera r) (he_target_mount_to_target r) /\
  he_camera_mount_to_camera r' = he_camera_mount_to_camera r /\
  he_target_mount_to_target r' = iso_mul (he_target_mount_to_target r) (turn_about_line vzero unitX PI) /\
  he_target_mount_to_target r' <> he_target_mount_to_target r /\
  he_final_cost_per_obs r = 0 /\ he_final_cost_per_obs r' = 0.
Proof.
  assert (PF : plain_pose (iso_mul iso_id ln_flip)) by (rewrite iso_mul_id_l; apply ln_flip_plain).
  destruct (ln_he2_ok iso_id (plain_id_tr vzero) (ln_view2 _)) as [r E].
  destruct (ln_he2_ok _ PF) as [r' E'].
  { apply (line_in_view vzero unitX PI ln_unit); [ apply ln_on2 | exact (ln_view2 iso_id) ]. }
  exists (fun _ _ => 0), sc_stay, ex_cov_oracle, (ln_he2 iso_id), r, (ln_he2 (iso_mul iso_id ln_flip)), r'.
  destruct (unmoved2 _ _ _ _ _ sc_stay_stays E) as [E1 E2]; [ apply plain_id_tr | apply (plain_id_tr vzero) | ].
  destruct (unmoved2 _ _ _ _ _ sc_stay_stays E') as [E1' E2']; [ apply plain_id_tr | exact PF | ].
  cbn [ln_he2 h2_camera_guess h2_target_guess] in E1, E2, E1', E2'.
  assert (V : in_view (sightings (h2_observations (ln_he2 iso_id))) (he_camera_mount_to_camera r) (he_target_mount_to_target r)).
  { rewrite E1, E2. apply ln_view2. }
  assert (Z : he_final_cost_per_obs r = 0).
  { rewrite (he_error2 _ _ _ _ _ sc_stay_honest E (ln_plain2 _) V), E1, E2.
    change (h2_intr (ln_he2 iso_id)) with ex_k. rewrite ln_zero2. unfold Rdiv. ring. }
  split; [ apply sc_stay_honest | split; [ exact E | split; [ exact E' | split; [ apply ln_plain2 | ] ] ] ].
  split; [ reflexivity | split; [ reflexivity | split; [ apply ln_on2 | split ] ] ].
  { replace (map mounts (h2_observations (ln_he2 iso_id))) with ex_mounts; [ apply ex_two_axes; cbn; auto | ].
    cbn [ln_he2 h2_observations]. rewrite map_map. rewrite <- (map_id ex_mounts) at 1. apply map_ext. intros W.
    unfold mounts. cbn [to_camera_mount to_target_mount ln_obs2]. rewrite iso_inv_id, iso_mul_id_l. reflexivity. }
  split; [ | split; [ congruence | split; [ rewrite E2, E2'; reflexivity | split; [ | split; [ exact Z | ] ] ] ] ].
  - split; [ exact V | ]. intros X' Z' V'. rewrite E1, E2. change (h2_intr (ln_he2 iso_id)) with ex_k. rewrite ln_zero2. apply SameDataExample.half_squares_pos.
  - rewrite E2, E2'. apply ln_flips, rigid_id.
  - rewrite <- Z. apply (line_he2 vzero unitX PI ln_unit _ _ _ _ _ _ _ _ _ _ sc_stay_honest E (ln_plain2 _) V (ln_on2 _) sc_stay_honest E');
      try reflexivity; [ congruence | rewrite E2, E2'; reflexivity ].
Qed.
Lemma ln_case3 : exists u solve cov p r p' r',
  honest solve /\ optimize3D3D u solve cov p = Ok r /\ optimize3D3D u solve cov p' = Ok r' /\ plain_obs (h3_observations p) /\
  h3_observations p' = h3_observations p /\
  all_on_line vzero unitX (map point (sightings (h3_observations p))) /\
  best_in_space (sightings (h3_observations p)) (he_camera_mount_to_camera r) (he_target_mount_to_target r) /\
  he_camera_mount_to_camera r' = he_camera_mount_to_camera r /\
  he_target_mount_to_target r' = iso_mul (he_target_mount_to_target r) (turn_about_line vzero unitX PI) /\
  he_target_mount_to_target r' <> he_target_mount_to_target r /\
  he_final_cost_per_obs r = 0 /\ he_final_cost_per_obs r' = 0.
Proof.
  assert (PF : plain_pose (iso_mul iso_id ln_flip)) by (rewrite iso_mul_id_l; apply ln_flip_plain).
  assert (OK : forall Z, exists r, optimize3D3D (fun _ _ => 0) sc_stay ex_cov_oracle (ln_he3 Z) = Ok r).
  { intros Z. apply accept3; try reflexivity; [ apply ex_oracle_lists | apply ex_oracle_sym | ].
    unfold all_pairs, ln_he3, ln_obs3, ln_cloud. rewrite ln_points. discriminate. }
  destruct (OK iso_id) as [r E]. destruct (OK (iso_mul iso_id ln_flip)) as [r' E'].
  exists (fun _ _ => 0), sc_stay, ex_cov_oracle, (ln_he3 iso_id), r, (ln_he3 (iso_mul iso_id ln_flip)), r'.
  destruct (unmoved3 _ _ _ _ _ sc_stay_stays E) as [E1 E2]; [ apply plain_id_tr | apply (plain_id_tr vzero) | ].
  destruct (unmoved3 _ _ _ _ _ sc_stay_stays E') as [E1' E2']; [ apply plain_id_tr | exact PF | ].
  cbn [ln_he3 h3_camera_guess h3_target_guess] in E1, E2, E1', E2'.
  assert (V : rigid (he_camera_mount_to_camera r)) by (rewrite E1; apply rigid_trans).
  assert (Z : he_final_cost_per_obs r = 0).
  { rewrite (he_error3 _ _ _ _ _ sc_stay_honest E (ln_plain3 _) V), E1, E2, ln_zero3. unfold Rdiv. ring. }
  split; [ apply sc_stay_honest | split; [ exact E | split; [ exact E' | split; [ apply ln_plain3 | ] ] ] ].
  split; [ reflexivity | split; [ apply ln_on3 | ] ].
  split; [ | split; [ congruence | split; [ rewrite E2, E2'; reflexivity | split; [ | split; [ exact Z | ] ] ] ] ].
  - split; [ exact V | split; [ rewrite E2; apply rigid_id | ] ]. intros X' Z' RX' RZ'. rewrite E1, E2, ln_zero3. apply SameDataExample.half_squares_pos.
  - rewrite E2, E2'. apply ln_flips, rigid_id.
  - rewrite <- Z. apply (line_he3 vzero unitX PI ln_unit _ _ _ _ _ _ _ _ _ _ sc_stay_honest E (ln_plain3 _) V (ln_on3 _) sc_stay_honest E');
      try reflexivity; [ congruence | rewrite E2, E2'; reflexivity ].
Qed.

(** ** Several cameras, and a camera with a lens *)
Definition ln_views : list view := map (fun x => (0%nat, 0%nat, x)) (ln_picture ex_ahead).
Lemma ln_rig : let T : poses := fun _ _ => ex_ahead in let k := fun _ : nat => ex_k in
  all_on_line vzero unitX (map (fun v => in_target (snd v)) ln_views) /\
  best_of (cameras_and_targets 1) k ln_views T /\ best_of (cameras_and_wrist 1 (fun _ _ => iso_id)) k ln_views T /\
  best_of (rig_and_wrist 1 (fun _ => iso_id) (fun _ => iso_id)) k ln_views T /\ best_of (known_cameras 1 (fun _ => iso_id)) k ln_views T.
Proof.
  cbv zeta. assert (PI' : perfect_image ex_k ex_ahead (ln_picture ex_ahead)) by apply ln_perfect, ex_ahead_front.
  assert (V : rig_in_view ln_views (fun _ _ => ex_ahead)).
  { intros c i x Hv. apply in_map_iff in Hv as (y & Q & Hy). injection Q as _ _ <-. split; [ apply ex_ahead_rigid | apply front_pos, PI', Hy ]. }
  assert (Z : rig_error (fun _ => ex_k) ln_views (fun _ _ => ex_ahead) = 0).
  { apply half_squares_all_zero. intros e He. apply in_flat_map in He as ([[c i] x] & Hv & He).
    apply in_map_iff in Hv as (y & Q & Hy). injection Q as _ _ <-. unfold pixel_error in He. rewrite (proj2 (PI' y Hy)) in He.
    cbn [In] in He. destruct He as [<-|[<-|[]]]; lra. }
  assert (B : forall family : poses -> Prop, family (fun _ _ => ex_ahead) -> best_of family (fun _ => ex_k) ln_views (fun _ _ => ex_ahead)).
  { intros family F. split; [ exact F | split; [ exact V | ] ]. intros T' _ _. rewrite Z. apply SameDataExample.half_squares_pos. }
  split.
  { intros x Hx. apply in_map_iff in Hx as ([[c i] y] & <- & Hv). apply in_map_iff in Hv as (z & Q & Hz). injection Q as _ _ <-. cbn [snd].
    apply ln_line. rewrite <- (ln_picture_targets ex_ahead). apply in_map, Hz. }
  split; [ | split; [ | split ] ]; apply B.
  - exists (fun _ => iso_id), (fun _ => ex_ahead). split; [ intros; apply rigid_id | split; [ intros; apply ex_ahead_rigid | ] ].
    intros. rewrite iso_inv_id, iso_mul_id_l. reflexivity.
  - exists (fun _ => iso_id), ex_ahead. split; [ intros; apply rigid_id | split; [ apply ex_ahead_rigid | ] ].
    intros. rewrite iso_inv_id, !iso_mul_id_l. reflexivity.
  - exists iso_id, ex_ahead. split; [ apply rigid_id | split; [ apply ex_ahead_rigid | ] ].
    intros. rewrite iso_mul_id_l, iso_inv_id, !iso_mul_id_l. reflexivity.
  - exists ex_ahead. split; [ apply ex_ahead_rigid | ]. intros. rewrite iso_inv_id, iso_mul_id_l. reflexivity.
Qed.
Lemma ln_lens : exists p k d T, (forall i, (i < List.length (ip_image_observations p))%nat ->
    all_on_line vzero unitX (map in_target (LensChoicesSpec.picture p i))) /\
  List.length (ip_image_observations p) = 1%nat /\ LensChoicesSpec.best_lens p k d T.
Proof.
  exists (IP [ln_picture ex_ahead] ex_k "camera_to_target"%string), ex_k, IntrinsicSpec.no_distortion, (fun _ => ex_ahead).
  assert (PI' : perfect_image ex_k ex_ahead (ln_picture ex_ahead)) by apply ln_perfect, ex_ahead_front.
  split; [ | split; [ reflexivity | split ] ].
  - cbn [ip_image_observations List.length]. intros i Hi. replace i with 0%nat by lia. unfold LensChoicesSpec.picture.
    cbn [ip_image_observations nth]. rewrite ln_picture_targets. apply ln_line.
  - cbn [ip_image_observations List.length]. intros i Hi. cbn [ip_image_observations List.length] in Hi. replace i with 0%nat by lia. unfold LensChoicesSpec.picture.
    cbn [ip_image_observations nth]. split; [ apply ex_ahead_rigid | ]. intros c Hc. apply front_pos, PI', Hc.
  - intros k' d' T' V'. apply Rle_trans with 0; [ right | apply SameDataExample.half_squares_pos ].
    apply half_squares_all_zero. intros e He. cbn [ip_image_observations List.length seq flat_map] in He. rewrite app_nil_r in He.
    unfold LensChoicesSpec.picture in He. cbn [ip_image_observations nth] in He. apply in_flat_map in He as (c & Hc & He).
    unfold IntrinsicSpec.lens_error in He. rewrite IntrinsicProofs.lens_none, (proj2 (PI' c Hc)) in He.
    cbn [In] in He. destruct He as [<-|[<-|[]]]; lra.
Qed.
(** A full grid: the pose is determined. *)
Lemma ln_full : full_grid (CG 2 2 1) /\ exists k cs T, map in_target cs = createPoints (CG 2 2 1) /\ rigid T /\ ~ edge_on T /\
  fx k <> 0 /\ fy k <> 0 /\ perfect_image k T cs.
Proof.
  split; [ split; [ cbn; lia | split; [ cbn; lia | cbn; lra ] ] | ].
  assert (P : forall v, In v (createPoints (CG 2 2 1)) -> In v ex_square).
  { unfold createPoints. cbn. intros v [<-|[<-|[<-|[<-|[]]]]]; [ right; right; left | right; right; right; left | left | right; left ]; f_equal; lra. }
  exists ex_k, (map (fun v => Corr (pinhole ex_k (iso_app ex_ahead v)) v) (createPoints (CG 2 2 1))), ex_ahead.
  split; [ rewrite map_map; apply map_id | split; [ apply ex_ahead_rigid | split; [ apply ex_ahead_not_edge_on | ] ] ].
  split; [ cbn; lra | split; [ cbn; lra | ] ]. intros c Hc. apply in_map_iff in Hc as (v & <- & Hv). cbn [in_target in_image].
  split; [ apply ex_ahead_front, P, Hv | reflexivity ].
Qed.
