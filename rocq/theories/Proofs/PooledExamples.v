(** Concrete data for C120: perfect pictures of two sessions, two wrist poses in the first and one in the second. *)
From Coq Require Import Reals Arith String List Permutation Lra Lia.
From Verif.Base Require Import Geom Outcome.
From Verif.Model Require Import Pose Covariance Solver HandEye Pnp BlockSolver MultiCamera.
From Verif.Spec Require Import CovarianceSpec Frames PinHole OracleSpec PnpSpec MultiSpec UniqueSpec SameDataSpec ToolsAgreeSpec PooledSpec.
From Verif.Proofs Require Import GeomLemmas CovarianceProofs HandEyeProofs PnpProofs MultiCameraProofs UniqueProofs UniqueMulti ProjectionProofs
  UniqueExamples UniqueMultiExamples SameDataProofs SameDataExample ToolsAgreeProofs ToolsAgreeExample RigChoicesProofs RigChoicesExample PooledProofs.
Import ListNotations.
Local Open Scope R_scope.

Definition day1 : list iso := [iso_id; ex_turn unitX].
Definition day2 : list iso := [ex_turn unitY].
Definition known (Ws : list iso) : Prop := Ws <> [] /\ forall W, In W Ws -> In W ex_mounts.
Lemma known1 : known day1.
Proof. split; [ discriminate | ]. intros W [<-|[<-|[]]]; unfold ex_mounts; cbn; tauto. Qed.
Lemma known2 : known day2.
Proof. split; [ discriminate | ]. intros W [<-|[]]; unfold ex_mounts; cbn; tauto. Qed.
Lemma known_both a b : known a -> known b -> known (a ++ b).
Proof. intros [N Ha] [_ Hb]. split; [ destruct a; [ contradiction | discriminate ] | ]. intros W HW. apply in_app_or in HW as [HW|HW]; auto. Qed.

(** ** Hand-eye *)
Lemma sightings_app {I} (a b : list (observation I)) : sightings (a ++ b) = sightings a ++ sightings b.
Proof. unfold sightings. apply flat_map_app. Qed.
Lemma pl_plain2 Ws : known Ws -> plain_obs (map ex_obs2_at Ws).
Proof. intros [_ H] o Ho. apply in_map_iff in Ho as (W & <- & HW). apply ex_he2_plain, in_map, H, HW. Qed.
Lemma pl_plain3 Ws : known Ws -> plain_obs (map ex_obs3_at Ws).
Proof. intros [_ H] o Ho. apply in_map_iff in Ho as (W & <- & HW). apply ex_he3_plain, in_map, H, HW. Qed.
Lemma pl_images Ws : known Ws -> exists r, calibrated ex_k (map ex_obs2_at Ws) r /\
  he_camera_mount_to_camera r = ex_camera /\ he_target_mount_to_target r = iso_id.
Proof.
  intros K. pose proof K as [N H].
  assert (Sub : forall s, In s (sightings (map ex_obs2_at Ws)) -> In s (sightings (h2_observations ex_he2))).
  { intros s Hs. apply in_flat_map in Hs as (o & Ho & Hs). apply in_flat_map. exists o. split; [ | exact Hs ].
    apply in_map_iff in Ho as (W & <- & HW). apply in_map, H, HW. }
  destruct ex_best as [(RX & RZ & V) B].
  set (p := HEP2 (map ex_obs2_at Ws) ex_k iso_id ex_camera default_he_labels).
  assert (exists r, optimize2D3D (fun _ _ => 0) sc_stay ex_cov_oracle p = Ok r) as [r E].
  { apply accept2; try reflexivity.
    - apply ex_oracle_lists.
    - apply ex_oracle_sym.
    - apply plain_id_tr.
    - apply (plain_id_tr vzero).
    - apply pl_plain2, K.
    - cbn [p h2_observations]. destruct Ws as [|W Ws]; [ contradiction | discriminate ].
    - intros o c Io Ic. apply (V (Sighting (to_camera_mount o) (to_target_mount o) (in_target c) (in_image c))), Sub.
      apply in_flat_map. exists o. split; [ exact Io | ]. apply in_map_iff. exists c. auto. }
  destruct (unmoved2 _ _ _ _ _ sc_stay_stays E) as [E1 E2]; [ apply plain_id_tr | apply (plain_id_tr vzero) | ].
  cbn [p h2_camera_guess h2_target_guess h3_camera_guess h3_target_guess] in E1, E2.
  exists r. split; [ | split; [ exact E1 | exact E2 ] ]. exists (fun _ _ => 0), sc_stay, ex_cov_oracle, p. rewrite E1, E2.
  split; [ apply sc_stay_honest | split; [ exact E | split; [ reflexivity | split; [ reflexivity | ] ] ] ].
  split; [ split; [ exact RX | split; [ exact RZ | intros s Hs; apply V, Sub, Hs ] ] | ].
  intros X' Z' _. replace (image_error _ _ _ _) with 0; [ apply half_squares_pos | ].
  symmetry. apply half_squares_zero. intros e He. apply in_flat_map in He as (s & Is & He).
  apply in_flat_map in Is as (o & Io & Is). apply in_map_iff in Is as (c & <- & Ic).
  apply in_map_iff in Io as (W & <- & HW). apply in_map_iff in Ic as (v & <- & Hv).
  cbn [In] in He. unfold seen_at in He. cbn [camera_mount target_mount point measured in_target in_image ex_obs2_at to_camera_mount to_target_mount] in He.
  destruct He as [<-|[<-|[]]]; ring.
Qed.
Lemma pl_points Ws : known Ws -> exists r, calibrated3 (map ex_obs3_at Ws) r /\
  he_camera_mount_to_camera r = ex_camera /\ he_target_mount_to_target r = iso_id.
Proof.
  intros K. pose proof K as [N H]. set (p := HEP3 (map ex_obs3_at Ws) iso_id ex_camera default_he_labels).
  assert (exists r, optimize3D3D (fun _ _ => 0) sc_stay ex_cov_oracle p = Ok r) as [r E].
  { apply accept3; try reflexivity; [ apply ex_oracle_lists | apply ex_oracle_sym | ].
    cbn [p h3_observations]. destruct Ws as [|W Ws]; [ contradiction | discriminate ]. }
  destruct (unmoved3 _ _ _ _ _ sc_stay_stays E) as [E1 E2]; [ apply plain_id_tr | apply (plain_id_tr vzero) | ].
  cbn [p h2_camera_guess h2_target_guess h3_camera_guess h3_target_guess] in E1, E2.
  exists r. split; [ | split; [ exact E1 | exact E2 ] ]. exists (fun _ _ => 0), sc_stay, ex_cov_oracle, p. rewrite E1, E2.
  split; [ apply sc_stay_honest | split; [ exact E | split; [ reflexivity | ] ] ].
  split; [ apply rigid_trans | split; [ apply rigid_id | ] ].
  intros X' Z' _ _. replace (space_error _ _ _) with 0; [ apply half_squares_pos | ].
  symmetry. apply half_squares_zero. intros e He. apply in_flat_map in He as (s & Is & He).
  apply in_flat_map in Is as (o & Io & Is). apply in_map_iff in Is as (c & <- & Ic).
  apply in_map_iff in Io as (W & <- & HW). apply in_map_iff in Ic as (v & <- & Hv).
  cbn [In] in He. unfold seen_at in He. cbn [camera_mount target_mount point measured in_target in_image ex_obs3_at to_camera_mount to_target_mount] in He.
  destruct He as [<-|[<-|[<-|[]]]]; ring.
Qed.
Lemma ex_pool_images : exists k os os1 os2 r r1 r2, plain_obs os /\ plain_obs os1 /\ plain_obs os2 /\
  calibrated k os r /\ calibrated k os1 r1 /\ calibrated k os2 r2 /\ pooled (sightings os) (sightings os1) (sightings os2) /\
  he_camera_mount_to_camera r1 = he_camera_mount_to_camera r2 /\ he_target_mount_to_target r1 = he_target_mount_to_target r2 /\
  List.length (sightings os1) = 8%nat /\ List.length (sightings os2) = 4%nat.
Proof.
  destruct (pl_images _ known1) as (r1 & C1 & X1 & Z1). destruct (pl_images _ known2) as (r2 & C2 & X2 & Z2).
  destruct (pl_images _ (known_both _ _ known1 known2)) as (r & C & _).
  exists ex_k, (map ex_obs2_at (day1 ++ day2)), (map ex_obs2_at day1), (map ex_obs2_at day2), r, r1, r2.
  split; [ apply pl_plain2, known_both; [ apply known1 | apply known2 ] | split; [ apply pl_plain2, known1 | split; [ apply pl_plain2, known2 | ] ] ].
  split; [ exact C | split; [ exact C1 | split; [ exact C2 | ] ] ]. rewrite X1, X2, Z1, Z2.
  split; [ rewrite map_app, sightings_app; apply Permutation_refl | ]. repeat split; reflexivity.
Qed.
Lemma ex_pool_points : exists os os1 os2 r r1 r2, plain_obs os /\ plain_obs os1 /\ plain_obs os2 /\
  calibrated3 os r /\ calibrated3 os1 r1 /\ calibrated3 os2 r2 /\ pooled (sightings os) (sightings os1) (sightings os2) /\
  he_camera_mount_to_camera r1 = he_camera_mount_to_camera r2 /\ he_target_mount_to_target r1 = he_target_mount_to_target r2 /\
  List.length (sightings os1) = 8%nat /\ List.length (sightings os2) = 4%nat.
Proof.
  destruct (pl_points _ known1) as (r1 & C1 & X1 & Z1). destruct (pl_points _ known2) as (r2 & C2 & X2 & Z2).
  destruct (pl_points _ (known_both _ _ known1 known2)) as (r & C & _).
  exists (map ex_obs3_at (day1 ++ day2)), (map ex_obs3_at day1), (map ex_obs3_at day2), r, r1, r2.
  split; [ apply pl_plain3, known_both; [ apply known1 | apply known2 ] | split; [ apply pl_plain3, known1 | split; [ apply pl_plain3, known2 | ] ] ].
  split; [ exact C | split; [ exact C1 | split; [ exact C2 | ] ] ]. rewrite X1, X2, Z1, Z2.
  split; [ rewrite map_app, sightings_app; apply Permutation_refl | ]. repeat split; reflexivity.
Qed.
Lemma ex_twice_images : exists k os os1 r r1, plain_obs os /\ plain_obs os1 /\ calibrated k os r /\ calibrated k os1 r1 /\
  sightings os1 <> [] /\ pooled (sightings os) (sightings os1) (sightings os1).
Proof.
  destruct (pl_images _ known1) as (r1 & C1 & _). destruct (pl_images _ (known_both _ _ known1 known1)) as (r & C & _).
  exists ex_k, (map ex_obs2_at (day1 ++ day1)), (map ex_obs2_at day1), r, r1.
  split; [ apply pl_plain2, known_both; apply known1 | split; [ apply pl_plain2, known1 | split; [ exact C | split; [ exact C1 | split; [ discriminate | ] ] ] ] ].
  rewrite map_app, sightings_app. apply Permutation_refl.
Qed.
Lemma ex_twice_points : exists os os1 r r1, plain_obs os /\ plain_obs os1 /\ calibrated3 os r /\ calibrated3 os1 r1 /\
  sightings os1 <> [] /\ pooled (sightings os) (sightings os1) (sightings os1).
Proof.
  destruct (pl_points _ known1) as (r1 & C1 & _). destruct (pl_points _ (known_both _ _ known1 known1)) as (r & C & _).
  exists (map ex_obs3_at (day1 ++ day1)), (map ex_obs3_at day1), r, r1.
  split; [ apply pl_plain3, known_both; apply known1 | split; [ apply pl_plain3, known1 | split; [ exact C | split; [ exact C1 | split; [ discriminate | ] ] ] ] ].
  rewrite map_app, sightings_app. apply Permutation_refl.
Qed.

(** ** One picture *)
Definition part2 (cs : list (correspondence vec2)) : Prop := cs <> [] /\ forall c, In c cs -> In c (ex_image2 ex_k ex_ahead).
Definition part3 (cs : list (correspondence vec3)) : Prop := cs <> [] /\ forall c, In c cs -> In c (ex_image3 ex_ahead).
Lemma first_some {A} n (l : list A) x : In x (firstn n l) -> In x l.
Proof. intros H. rewrite <- (firstn_skipn n l). apply in_or_app. left. exact H. Qed.
Lemma last_some {A} n (l : list A) x : In x (skipn n l) -> In x l.
Proof. intros H. rewrite <- (firstn_skipn n l). apply in_or_app. right. exact H. Qed.
Lemma pl_picture cs : part2 cs -> exists r, estimated ex_k cs r /\ pnp_camera_to_target r = ex_ahead.
Proof.
  intros [N H]. set (p := PnP2 ex_k cs ex_ahead "camera_to_target").
  assert (exists r, optimizePnP (fun _ _ => 0) sc_stay ex_cov_oracle p = Ok r) as [r E].
  { apply pnp_succeeds2; try reflexivity; [ apply ex_oracle_sym | exact N ]. }
  pose proof (pnp_unmoved2 _ _ _ _ _ sc_stay_stays E ex_ahead_rigid) as Er. cbn [p pnp_guess] in Er.
  exists r. split; [ | exact Er ]. exists (fun _ _ => 0), sc_stay, ex_cov_oracle, p. rewrite Er.
  assert (P : perfect_image ex_k ex_ahead cs).
  { intros c Hc. apply (ex_image2_perfect ex_k ex_ahead ex_ahead_front c), H, Hc. }
  split; [ apply sc_stay_honest | split; [ exact E | split; [ reflexivity | split; [ reflexivity | split; [ intros c Hc; apply (P c Hc) | ] ] ] ] ].
  split; [ apply ex_ahead_rigid | split ].
  - intros c Hc. apply front_pos, (P c Hc).
  - intros T' _ _. replace (pose_error ex_k cs ex_ahead) with 0; [ apply half_squares_pos | ].
    symmetry. apply half_squares_zero. intros e He. apply in_flat_map in He as (c & Hc & He). apply (perfect_pixels _ _ _ P c e Hc He).
Qed.
Lemma pl_cloud cs : part3 cs -> exists r, estimated3 cs r /\ pnp_camera_to_target r = ex_ahead.
Proof.
  intros [N H]. set (p := PnP3 cs ex_ahead "camera_to_target").
  assert (exists r, optimizePnP3D (fun _ _ => 0) sc_stay ex_cov_oracle p = Ok r) as [r E].
  { apply pnp_succeeds3; try reflexivity; [ apply ex_oracle_sym | exact N ]. }
  pose proof (pnp_unmoved3 _ _ _ _ _ sc_stay_stays E ex_ahead_rigid) as Er. cbn [p pnp3_guess] in Er.
  exists r. split; [ | exact Er ]. exists (fun _ _ => 0), sc_stay, ex_cov_oracle, p. rewrite Er.
  split; [ apply sc_stay_honest | split; [ exact E | split; [ reflexivity | ] ] ].
  split; [ apply ex_ahead_rigid | ]. intros T' _. replace (pose_error3 cs ex_ahead) with 0; [ apply half_squares_pos | ].
  symmetry. apply half_squares_zero. intros e He. apply in_flat_map in He as (c & Hc & He). apply H, in_map_iff in Hc as (v & <- & Hv).
  unfold point_error in He; cbn [In in_target in_image] in He. destruct He as [<-|[<-|[<-|[]]]]; unfold vsub; cbn [vx vy vz]; ring.
Qed.
Lemma ex_pool_picture : exists k cs cs1 cs2 r r1 r2, estimated k cs r /\ estimated k cs1 r1 /\ estimated k cs2 r2 /\ pooled cs cs1 cs2 /\
  pnp_camera_to_target r1 = pnp_camera_to_target r2 /\ List.length cs1 = 3%nat /\ List.length cs2 = 1%nat.
Proof.
  destruct (pl_picture (firstn 3 (ex_image2 ex_k ex_ahead))) as (r1 & C1 & E1); [ split; [ discriminate | intros c; apply first_some ] | ].
  destruct (pl_picture (skipn 3 (ex_image2 ex_k ex_ahead))) as (r2 & C2 & E2); [ split; [ discriminate | intros c; apply last_some ] | ].
  destruct (pl_picture (ex_image2 ex_k ex_ahead)) as (r & C & _); [ split; [ discriminate | auto ] | ].
  exists ex_k, (ex_image2 ex_k ex_ahead), (firstn 3 (ex_image2 ex_k ex_ahead)), (skipn 3 (ex_image2 ex_k ex_ahead)), r, r1, r2. rewrite E1, E2.
  split; [ exact C | split; [ exact C1 | split; [ exact C2 | split; [ | repeat split; reflexivity ] ] ] ].
  unfold pooled. rewrite firstn_skipn. apply Permutation_refl.
Qed.
Lemma ex_pool_cloud : exists cs cs1 cs2 r r1 r2, estimated3 cs r /\ estimated3 cs1 r1 /\ estimated3 cs2 r2 /\ pooled cs cs1 cs2 /\
  pnp_camera_to_target r1 = pnp_camera_to_target r2 /\ List.length cs1 = 3%nat /\ List.length cs2 = 1%nat.
Proof.
  destruct (pl_cloud (firstn 3 (ex_image3 ex_ahead))) as (r1 & C1 & E1); [ split; [ discriminate | intros c; apply first_some ] | ].
  destruct (pl_cloud (skipn 3 (ex_image3 ex_ahead))) as (r2 & C2 & E2); [ split; [ discriminate | intros c; apply last_some ] | ].
  destruct (pl_cloud (ex_image3 ex_ahead)) as (r & C & _); [ split; [ discriminate | auto ] | ].
  exists (ex_image3 ex_ahead), (firstn 3 (ex_image3 ex_ahead)), (skipn 3 (ex_image3 ex_ahead)), r, r1, r2. rewrite E1, E2.
  split; [ exact C | split; [ exact C1 | split; [ exact C2 | split; [ | repeat split; reflexivity ] ] ] ].
  unfold pooled. rewrite firstn_skipn. apply Permutation_refl.
Qed.
Lemma ex_twice_picture : exists k cs cs1 r r1, estimated k cs r /\ estimated k cs1 r1 /\ cs1 <> [] /\ pooled cs cs1 cs1.
Proof.
  set (cs := ex_image2 ex_k ex_ahead). destruct (pl_picture cs) as (r1 & C1 & _); [ split; [ discriminate | auto ] | ].
  destruct (pl_picture (cs ++ cs)) as (r & C & _); [ split; [ discriminate | intros c Hc; apply in_app_or in Hc; tauto ] | ].
  exists ex_k, (cs ++ cs), cs, r, r1. split; [ exact C | split; [ exact C1 | split; [ discriminate | apply Permutation_refl ] ] ].
Qed.
Lemma ex_twice_cloud : exists cs cs1 r r1, estimated3 cs r /\ estimated3 cs1 r1 /\ cs1 <> [] /\ pooled cs cs1 cs1.
Proof.
  set (cs := ex_image3 ex_ahead). destruct (pl_cloud cs) as (r1 & C1 & _); [ split; [ discriminate | auto ] | ].
  destruct (pl_cloud (cs ++ cs)) as (r & C & _); [ split; [ discriminate | intros c Hc; apply in_app_or in Hc; tauto ] | ].
  exists (cs ++ cs), cs, r, r1. split; [ exact C | split; [ exact C1 | split; [ discriminate | apply Permutation_refl ] ] ].
Qed.

(** ** Two cameras *)
Definition pl_images_of (Ws : list iso) : list (list (list (correspondence vec2))) := map (fun c => map (rc_shot c) Ws) [0; 1]%nat.
Lemma pl_length Ws c : (c < 2)%nat -> List.length (nth c (pl_images_of Ws) []) = List.length Ws.
Proof. intros Hc. destruct c as [|[|c]]; [ | | lia ]; apply map_length. Qed.
Lemma pl_seen Ws c i x : known Ws -> (c < 2)%nat -> (i < List.length Ws)%nat -> In x (nth i (nth c (pl_images_of Ws) []) []) ->
  rigid (rc_view c (nth i Ws iso_id)) /\ perfect_image (camera_of [ex_k; ex_k] c) (rc_view c (nth i Ws iso_id)) [x].
Proof.
  intros [_ H] Hc Hi Hx. assert (E : nth i (nth c (pl_images_of Ws) []) [] = rc_shot c (nth i Ws iso_id)).
  { replace (nth c (pl_images_of Ws) []) with (map (rc_shot c) Ws) by (destruct c as [|[|c]]; [ | | lia ]; reflexivity).
    rewrite (nth_indep _ _ (rc_shot c iso_id)) by (rewrite map_length; exact Hi). apply map_nth. }
  rewrite E in Hx. assert (I : In (nth i Ws iso_id) ex_mounts) by (apply H, nth_In; exact Hi).
  split; [ apply rc_view_rigid, I | ]. intros y [<-|[]].
  assert (K : camera_of [ex_k; ex_k] c = ex_k) by (destruct c as [|[|c]]; [ | | lia ]; reflexivity). rewrite K. apply (rc_perfect c _ I), Hx.
Qed.
Lemma pl_pool a b c : (c < 2)%nat -> nth c (pl_images_of (a ++ b)) [] = nth c (pl_images_of a) [] ++ nth c (pl_images_of b) [].
Proof. intros Hc. destruct c as [|[|c]]; [ | | lia ]; apply map_app. Qed.
Lemma two_lists {A} (l : list A) c : (c < 2)%nat -> nth c [l; l] [] = l.
Proof. intros Hc. destruct c as [|[|c]]; [ | | lia ]; reflexivity. Qed.
Lemma pl_wrists_plain Ws W : known Ws -> In W Ws -> plain_pose W.
Proof. intros [_ H] HW. apply ex_mounts_plain, H, HW. Qed.

Definition pl_sp (Ws : list iso) : static_problem :=
  SP [ex_k; ex_k] [Ws; Ws] (pl_images_of Ws) iso_id [rc_camera 0; rc_camera 1] "wrist_to_target" "base_to_camera".
Lemma pl_static Ws : known Ws -> exists r, static_best (pl_sp Ws) r /\ sr_base_to_camera r = [rc_camera 0; rc_camera 1] /\ sr_wrist_to_target r = iso_id.
Proof.
  intros K. pose proof K as [N H].
  assert (Sz : static_sizes (pl_sp Ws)).
  { split; [ reflexivity | split; [ reflexivity | split; [ reflexivity | ] ] ]. intros c Hc. change (c < 2)%nat in Hc.
    cbn [pl_sp sp_image_observations sp_wrist_poses]. rewrite two_lists by exact Hc. apply pl_length, Hc. }
  destruct (static_run (pl_sp Ws) Sz) as (r & E & Ez & Ec).
  { intros c Hc. change (c < 2)%nat in Hc. exists 0%nat. destruct Ws as [|W Ws]; [ contradiction | ]. destruct c as [|[|c]]; [ | | lia ];
      (eexists; apply in_static_views; split; [ exact Hc | split; [ cbn; lia | left; reflexivity ] ]). }
  { split; [ apply plain_iso_id | apply rc_cameras_plain ]. } { cbn; lia. }
  cbn [pl_sp sp_wrist_to_target_guess sp_base_to_camera_guess] in Ez, Ec.
  assert (RC : forall T, In T (sr_base_to_camera r) -> rigid T) by (rewrite Ec; intros T HT; apply plain_rigid, rc_cameras_plain, HT).
  assert (RZ : rigid (sr_wrist_to_target r)) by (rewrite Ez; apply rigid_id).
  exists r. split; [ | split; [ exact Ec | exact Ez ] ]. exists (fun _ _ => 0), sc_still, ex_cov_oracle.
  split; [ apply sc_still_honest | split; [ exact E | split; [ exact Sz | ] ] ]. split.
  { intros c W HW. apply (pl_wrists_plain Ws W K). destruct c as [|[|[|c]]]; cbn [pl_sp sp_wrist_poses nth] in HW; try contradiction; exact HW. }
  split; [ exact RC | split; [ exact RZ | ] ]. apply perfect_best.
  - exists (fun c => nth c (sr_base_to_camera r) iso_id), (sr_wrist_to_target r). split; [ apply nth_rigid', RC | split; [ exact RZ | reflexivity ] ].
  - intros c i x Hv. apply in_static_views in Hv as (Hc & Hi & Hx). change (c < 2)%nat in Hc.
    cbn [pl_sp sp_wrist_poses sp_image_observations] in Hi, Hx. rewrite two_lists in Hi by exact Hc.
    unfold static_poses, static_wrist. rewrite Ec, Ez. cbn [pl_sp sp_wrist_poses sp_intr]. rewrite rc_nth_camera, two_lists by exact Hc.
    apply (pl_seen Ws c i x K Hc Hi Hx).
Qed.
Lemma pl_pooled_static a b : pooled_static (pl_sp (a ++ b)) (pl_sp a) (pl_sp b).
Proof.
  split; [ reflexivity | split; [ reflexivity | split; [ reflexivity | split; [ reflexivity | ] ] ] ]. intros c Hc. change (c < 2)%nat in Hc.
  cbn [pl_sp sp_wrist_poses sp_image_observations]. rewrite !two_lists by exact Hc. split; [ reflexivity | apply pl_pool, Hc ].
Qed.
Lemma ex_pool_static : exists p p1 p2 r r1 r2, static_best p r /\ static_best p1 r1 /\ static_best p2 r2 /\ pooled_static p p1 p2 /\
  sr_base_to_camera r1 = sr_base_to_camera r2 /\ sr_wrist_to_target r1 = sr_wrist_to_target r2 /\
  List.length (static_views p1) = 16%nat /\ List.length (static_views p2) = 8%nat.
Proof.
  destruct (pl_static _ known1) as (r1 & C1 & X1 & Z1). destruct (pl_static _ known2) as (r2 & C2 & X2 & Z2).
  destruct (pl_static _ (known_both _ _ known1 known2)) as (r & C & _).
  exists (pl_sp (day1 ++ day2)), (pl_sp day1), (pl_sp day2), r, r1, r2. rewrite X1, X2, Z1, Z2.
  split; [ exact C | split; [ exact C1 | split; [ exact C2 | split; [ apply pl_pooled_static | repeat split; reflexivity ] ] ] ].
Qed.
Lemma ex_twice_static : exists p p1 r r1, static_best p r /\ static_best p1 r1 /\ pooled_static p p1 p1 /\ static_views p1 <> [].
Proof.
  destruct (pl_static _ known1) as (r1 & C1 & _). destruct (pl_static _ (known_both _ _ known1 known1)) as (r & C & _).
  exists (pl_sp (day1 ++ day1)), (pl_sp day1), r, r1. split; [ exact C | split; [ exact C1 | split; [ apply pl_pooled_static | discriminate ] ] ].
Qed.

Definition pl_wp (Ws : list iso) : wrist_problem := WP [ex_k; ex_k] Ws (pl_images_of Ws) iso_id [rc_camera 0; rc_camera 1].
Lemma pl_wrist Ws : known Ws -> exists r, wrist_best (pl_wp Ws) r /\ wr_base_to_camera r = [rc_camera 0; rc_camera 1] /\ wr_wrist_to_target r = iso_id.
Proof.
  intros K.
  assert (Sz : wrist_sizes (pl_wp Ws)).
  { split; [ reflexivity | split; [ reflexivity | ] ]. intros c Hc. change (c < 2)%nat in Hc. apply pl_length, Hc. }
  destruct (wrist_run (pl_wp Ws) Sz (fun W => pl_wrists_plain Ws W K) rc_cameras_plain plain_iso_id) as (r & E & Ec & Ez).
  cbn [pl_wp wp_base_to_camera_guess wp_wrist_to_target_guess] in Ec, Ez.
  assert (RC : forall T, In T (wr_base_to_camera r) -> rigid T) by (rewrite Ec; intros T HT; apply plain_rigid, rc_cameras_plain, HT).
  assert (RZ : rigid (wr_wrist_to_target r)) by (rewrite Ez; apply rigid_id).
  exists r. split; [ | split; [ exact Ec | exact Ez ] ]. exists sc_still.
  split; [ apply sc_still_honest | split; [ exact E | split; [ exact Sz | split; [ intros W; apply pl_wrists_plain, K | split; [ apply rc_cameras_plain | ] ] ] ] ].
  split; [ exact RC | split; [ exact RZ | ] ]. apply perfect_best.
  - exists iso_id, (wr_wrist_to_target r). split; [ apply rigid_id | split; [ exact RZ | ] ].
    intros c i Hc. unfold wrist_poses. rewrite Ec, iso_mul_id_l. reflexivity.
  - intros c i x Hv. apply in_wrist_views in Hv as (Hc & Hi & Hx). change (c < 2)%nat in Hc. cbn [pl_wp wp_wrist_poses] in Hi.
    unfold wrist_poses. rewrite Ec, Ez, rc_nth_camera by exact Hc. apply (pl_seen Ws c i x K Hc Hi Hx).
Qed.
Lemma pl_pooled_wrist a b : pooled_wrist (pl_wp (a ++ b)) (pl_wp a) (pl_wp b).
Proof.
  split; [ reflexivity | split; [ reflexivity | split; [ reflexivity | split; [ reflexivity | split; [ reflexivity | ] ] ] ] ].
  intros c Hc. change (c < 2)%nat in Hc. apply pl_pool, Hc.
Qed.
Lemma ex_pool_wrist : exists p p1 p2 r r1 r2, wrist_best p r /\ wrist_best p1 r1 /\ wrist_best p2 r2 /\ pooled_wrist p p1 p2 /\
  wr_base_to_camera r1 = wr_base_to_camera r2 /\ wr_wrist_to_target r1 = wr_wrist_to_target r2 /\
  List.length (wrist_views p1) = 16%nat /\ List.length (wrist_views p2) = 8%nat.
Proof.
  destruct (pl_wrist _ known1) as (r1 & C1 & X1 & Z1). destruct (pl_wrist _ known2) as (r2 & C2 & X2 & Z2).
  destruct (pl_wrist _ (known_both _ _ known1 known2)) as (r & C & _).
  exists (pl_wp (day1 ++ day2)), (pl_wp day1), (pl_wp day2), r, r1, r2. rewrite X1, X2, Z1, Z2.
  split; [ exact C | split; [ exact C1 | split; [ exact C2 | split; [ apply pl_pooled_wrist | repeat split; reflexivity ] ] ] ].
Qed.
Lemma ex_twice_wrist : exists p p1 r r1, wrist_best p r /\ wrist_best p1 r1 /\ pooled_wrist p p1 p1 /\ wrist_views p1 <> [].
Proof.
  destruct (pl_wrist _ known1) as (r1 & C1 & _). destruct (pl_wrist _ (known_both _ _ known1 known1)) as (r & C & _).
  exists (pl_wp (day1 ++ day1)), (pl_wp day1), r, r1. split; [ exact C | split; [ exact C1 | split; [ apply pl_pooled_wrist | discriminate ] ] ].
Qed.

Definition pl_op (Ws : list iso) : only_problem := OP true [ex_k; ex_k] (pl_images_of Ws) Ws [rc_camera 0; rc_camera 1].
Lemma pl_only Ws : known Ws -> exists r, only_best (pl_op Ws) r /\ or_base_to_camera r = [rc_camera 0; rc_camera 1].
Proof.
  intros K.
  assert (Sz : only_sizes (pl_op Ws)).
  { split; [ reflexivity | split; [ reflexivity | ] ]. intros c Hc. change (c < 2)%nat in Hc. apply pl_length, Hc. }
  destruct (only_returns (pl_op Ws) sc_still Sz) as (r & E & _).
  destruct (only_unmoved (pl_op Ws) sc_still r Sz sc_still_still) as [Ec Et]; try exact E; try discriminate.
  { exact (proj1 K). } { apply rc_cameras_plain. } { intros W; apply pl_wrists_plain, K. }
  cbn [pl_op op_base_to_camera_guess op_base_to_target_guess] in Ec, Et.
  assert (RC : forall T, In T (or_base_to_camera r) -> rigid T) by (rewrite Ec; intros T HT; apply plain_rigid, rc_cameras_plain, HT).
  assert (RT : forall T, In T (or_base_to_target r) -> rigid T) by (rewrite Et; intros T HT; apply plain_rigid, (pl_wrists_plain Ws T K), HT).
  exists r. split; [ | exact Ec ]. exists sc_still.
  split; [ apply sc_still_honest | split; [ apply sc_still_leaves | split; [ exact E | split; [ exact Sz | split; [ intros _ T HT; apply rc_cameras_plain, (nth_error_In _ _ HT) | ] ] ] ] ].
  split; [ exact RC | split; [ exact RT | ] ]. apply perfect_best.
  - exists (fun c => nth c (or_base_to_camera r) iso_id), (fun i => nth i (or_base_to_target r) iso_id).
    split; [ apply nth_rigid', RC | split; [ apply nth_rigid', RT | reflexivity ] ].
  - intros c i x Hv. apply in_only_views in Hv as (Hc & Hi & Hx). change (c < 2)%nat in Hc. cbn [pl_op op_base_to_target_guess] in Hi.
    unfold only_poses. rewrite Ec, Et, rc_nth_camera by exact Hc. rewrite <- (iso_mul_id_r (nth i Ws iso_id)). apply (pl_seen Ws c i x K Hc Hi Hx).
Qed.
Lemma pl_pooled_only a b : pooled_only (pl_op (a ++ b)) (pl_op a) (pl_op b).
Proof.
  split; [ reflexivity | split; [ reflexivity | split; [ reflexivity | split; [ reflexivity | split; [ apply app_length | ] ] ] ] ].
  intros c Hc. change (c < 2)%nat in Hc. apply pl_pool, Hc.
Qed.
Lemma ex_pool_only : exists p p1 p2 r r1 r2, only_best p r /\ only_best p1 r1 /\ only_best p2 r2 /\ pooled_only p p1 p2 /\
  or_base_to_camera r1 = or_base_to_camera r2 /\ List.length (only_views p1) = 16%nat /\ List.length (only_views p2) = 8%nat.
Proof.
  destruct (pl_only _ known1) as (r1 & C1 & X1). destruct (pl_only _ known2) as (r2 & C2 & X2).
  destruct (pl_only _ (known_both _ _ known1 known2)) as (r & C & _).
  exists (pl_op (day1 ++ day2)), (pl_op day1), (pl_op day2), r, r1, r2. rewrite X1, X2.
  split; [ exact C | split; [ exact C1 | split; [ exact C2 | split; [ apply pl_pooled_only | repeat split; reflexivity ] ] ] ].
Qed.
Lemma ex_twice_only : exists p p1 r r1, only_best p r /\ only_best p1 r1 /\ pooled_only p p1 p1 /\ only_views p1 <> [].
Proof.
  destruct (pl_only _ known1) as (r1 & C1 & _). destruct (pl_only _ (known_both _ _ known1 known1)) as (r & C & _).
  exists (pl_op (day1 ++ day1)), (pl_op day1), r, r1. split; [ exact C | split; [ exact C1 | split; [ apply pl_pooled_only | discriminate ] ] ].
Qed.

Definition pl_mp (f : list (correspondence vec2) -> list (correspondence vec2)) : mpnp_problem :=
  MP [ex_k; ex_k] [rc_camera 0; rc_camera 1] [f (rc_shot 0 iso_id); f (rc_shot 1 iso_id)] iso_id.
Lemma pl_mpnp f : (forall l x, In x (f l) -> In x l) -> exists r, mpnp_best (pl_mp f) r /\ mr_base_to_target r = iso_id.
Proof.
  intros Hf. assert (Sz : mpnp_sizes (pl_mp f)) by (split; reflexivity).
  destruct (mpnp_run (pl_mp f) Sz rc_cameras_plain plain_iso_id) as (r & E & Er). cbn [pl_mp mp_base_to_target_guess] in Er.
  assert (RT : rigid (mr_base_to_target r)) by (rewrite Er; apply rigid_id).
  exists r. split; [ | exact Er ]. exists sc_still.
  split; [ apply sc_still_honest | split; [ exact E | split; [ exact Sz | split; [ apply rc_cameras_plain | split; [ exact RT | ] ] ] ] ].
  apply perfect_best.
  - exists (mr_base_to_target r). split; [ exact RT | reflexivity ].
  - intros c i x Hv. apply in_map_iff in Hv as ([c' x'] & [= <- <- <-] & Hv). apply in_flat_map in Hv as (c & Hc & Hv).
    apply in_seq in Hc. change (0 <= c < 2)%nat in Hc. apply in_map_iff in Hv as (x1 & [= <- <-] & Hx).
    unfold mpnp_poses. rewrite Er. cbn [pl_mp mp_base_to_camera mp_intr]. rewrite rc_nth_camera by lia.
    replace (iso_mul (iso_inv (rc_camera c)) iso_id) with (rc_view c iso_id) by (unfold rc_view; rewrite iso_mul_id_l; reflexivity).
    destruct (rc_seen c 0 x1) as [R1 R2]; [ lia | lia | | split; [ exact R1 | exact R2 ] ].
    destruct c as [|[|c]]; [ | | lia ]; apply Hf; exact Hx.
Qed.
Lemma ex_pool_mpnp : exists p p1 p2 r r1 r2, mpnp_best p r /\ mpnp_best p1 r1 /\ mpnp_best p2 r2 /\ pooled_mpnp p p1 p2 /\
  mr_base_to_target r1 = mr_base_to_target r2 /\ List.length (single_views p1) = 6%nat /\ List.length (single_views p2) = 2%nat.
Proof.
  destruct (pl_mpnp (firstn 3)) as (r1 & C1 & X1); [ intros l x; apply first_some | ].
  destruct (pl_mpnp (skipn 3)) as (r2 & C2 & X2); [ intros l x; apply last_some | ].
  destruct (pl_mpnp (fun l => l)) as (r & C & _); [ auto | ].
  exists (pl_mp (fun l => l)), (pl_mp (firstn 3)), (pl_mp (skipn 3)), r, r1, r2. rewrite X1, X2.
  split; [ exact C | split; [ exact C1 | split; [ exact C2 | split; [ | repeat split; reflexivity ] ] ] ].
  split; [ reflexivity | split; [ reflexivity | split; [ reflexivity | split; [ reflexivity | ] ] ] ].
  intros c Hc. change (c < 2)%nat in Hc. unfold pooled. destruct c as [|[|c]]; [ | | lia ]; cbn [pl_mp mp_image_observations nth]; rewrite firstn_skipn; apply Permutation_refl.
Qed.
Lemma ex_twice_mpnp : exists p p1 r r1, mpnp_best p r /\ mpnp_best p1 r1 /\ pooled_mpnp p p1 p1 /\ single_views p1 <> [].
Proof.
  destruct (pl_mpnp (fun l => l)) as (r1 & C1 & _); [ auto | ].
  destruct (pl_mpnp (fun l => l ++ l)) as (r & C & _); [ intros l x Hx; apply in_app_or in Hx; tauto | ].
  exists (pl_mp (fun l => l ++ l)), (pl_mp (fun l => l)), r, r1. split; [ exact C | split; [ exact C1 | split; [ | discriminate ] ] ].
  split; [ reflexivity | split; [ reflexivity | split; [ reflexivity | split; [ reflexivity | ] ] ] ].
  intros c Hc. change (c < 2)%nat in Hc. unfold pooled. destruct c as [|[|c]]; [ | | lia ]; apply Permutation_refl.
Qed.
