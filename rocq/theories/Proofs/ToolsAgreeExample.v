(** Concrete data for C103. *)
From Coq Require Import Reals String List Permutation Lra Lia.
From Verif.Base Require Import Geom Outcome.
From Verif.Model Require Import Pose Covariance Solver HandEye Pnp BlockSolver MultiCamera.
From Verif.Spec Require Import Frames PinHole OracleSpec PnpSpec MultiSpec UniqueSpec SameDataSpec ToolsAgreeSpec.
From Verif.Proofs Require Import GeomLemmas CovarianceProofs HandEyeProofs PnpProofs MultiCameraProofs UniqueProofs UniqueMulti ProjectionProofs
  UniqueExamples UniqueMultiExamples SameDataProofs SameDataExample ToolsAgreeProofs.
Import ListNotations.
Local Open Scope R_scope.

(** The cameras-only problem on the data of [ex_sp] and [ex_wp]. *)
Definition ex_op' : only_problem := OP false [ex_k] [map ex_picture ex_mounts] ex_mounts [ex_camera].

Lemma ex_view_rigid W : In W ex_mounts -> rigid (ex_view W).
Proof.
  intros H. apply rigid_mul; [ apply rigid_inv, rigid_trans | apply rigid_mul; [ apply plain_rigid, ex_mounts_plain, H | apply rigid_id ] ].
Qed.
Lemma perfect_pixels k T cs : perfect_image k T cs -> forall x e, In x cs -> In e (pixel_error k T x) -> e = 0.
Proof.
  intros P x e Hx He. unfold pixel_error in He. rewrite (proj2 (P x Hx)) in He. cbn [In] in He. destruct He as [<-|[<-|[]]]; ring.
Qed.
Lemma perfect_best (F : poses -> Prop) k vs (T : poses) : F T ->
  (forall c i x, In (c, i, x) vs -> rigid (T c i) /\ perfect_image (k c) (T c i) [x]) -> best_of F k vs T.
Proof.
  intros HF P. split; [ exact HF | split ].
  - intros c i x Hv. destruct (P c i x Hv) as [R1 R2]. split; [ exact R1 | ]. apply front_pos, (R2 x). left. reflexivity.
  - intros T' _ _. replace (rig_error k vs T) with 0; [ apply half_squares_pos | ]. symmetry. apply half_squares_zero.
    intros e He. apply in_flat_map in He as ([[c i] x] & Hv & He). destruct (P c i x Hv) as [_ R2].
    apply (perfect_pixels _ _ _ R2 x e); [ left; reflexivity | exact He ].
Qed.
Lemma ex_images c i x : (c < 1)%nat -> (i < 3)%nat -> In x (nth i (nth c [map ex_picture ex_mounts] []) []) ->
  rigid (ex_view (nth i ex_mounts iso_id)) /\ perfect_image ex_k (ex_view (nth i ex_mounts iso_id)) [x].
Proof.
  intros Hc Hi Hx. replace c with 0%nat in Hx by lia. cbn [nth] in Hx. fold (nth i (map ex_picture ex_mounts) []) in Hx.
  rewrite nth_pictures in Hx by exact Hi. split; [ apply ex_view_rigid, in_mounts, Hi | ].
  intros y [<-|[]]. apply (ex_picture_perfect _ (in_mounts i Hi)), Hx.
Qed.

Lemma ex_static : exists u solve cov r,
  honest_blocks solve /\ optimizeStatic u solve cov ex_sp = Ok r /\ static_sizes ex_sp /\ plain_wrists ex_sp /\
  (forall T, In T (sr_base_to_camera r) -> rigid T) /\ rigid (sr_wrist_to_target r) /\
  best_of (cameras_and_wrist (List.length (sp_base_to_camera_guess ex_sp)) (static_wrist ex_sp)) (camera_of (sp_intr ex_sp))
          (static_views ex_sp) (static_poses ex_sp r).
Proof.
  assert (Sz : static_sizes ex_sp).
  { repeat split. cbn [ex_sp sp_base_to_camera_guess]. intros c Hc. cbn in Hc. assert (c = 0%nat) by lia. subst c. reflexivity. }
  assert (PW : plain_wrists ex_sp).
  { intros c W HW. destruct c as [|[|c]]; cbn [ex_sp sp_wrist_poses nth] in HW; try contradiction. apply ex_mounts_plain, HW. }
  assert (PG : guesses_plain_static ex_sp) by (split; [ apply id_plain | intros T [<-|[]]; apply ex_camera_plain ]).
  assert (AU : all_cameras_used ex_sp).
  { intros c Hc. cbn in Hc. assert (c = 0%nat) by lia. subst c. exists 0%nat. eexists. apply in_static_views.
    split; [ cbn; lia | split; [ cbn; lia | ] ]. left. reflexivity. }
  destruct (static_succeeds ex_sp (fun _ _ => 0) sc_still ex_cov_oracle Sz AU) as [r E]; try reflexivity.
  { cbn; lia. } { apply ex_oracle_sym. }
  destruct (static_unmoved ex_sp (fun _ _ => 0) sc_still ex_cov_oracle r Sz PG sc_still_still E) as [Ez Ec].
  cbn [ex_sp sp_wrist_to_target_guess sp_base_to_camera_guess] in Ez, Ec.
  assert (RC : forall T, In T (sr_base_to_camera r) -> rigid T) by (rewrite Ec; intros T [<-|[]]; apply rigid_trans).
  assert (RZ : rigid (sr_wrist_to_target r)) by (rewrite Ez; apply rigid_id).
  exists (fun _ _ => 0), sc_still, ex_cov_oracle, r.
  split; [ apply sc_still_honest | split; [ exact E | split; [ exact Sz | split; [ exact PW | split; [ exact RC | split; [ exact RZ | ] ] ] ] ] ].
  apply perfect_best.
  - exists (fun c => nth c (sr_base_to_camera r) iso_id), (sr_wrist_to_target r).
    split; [ apply nth_rigid', RC | split; [ exact RZ | reflexivity ] ].
  - intros c i x Hv. apply in_static_views in Hv as (Hc & Hi & Hx). cbn in Hc. assert (c = 0%nat) by lia. subst c.
    unfold static_poses. rewrite Ec, Ez. apply (ex_images 0 i x); [ lia | exact Hi | exact Hx ].
Qed.
Lemma ex_wrist : exists solve r,
  honest_blocks solve /\ optimizeWrist solve ex_wp = Ok r /\ wrist_sizes ex_wp /\
  (forall T, In T (wp_wrist_poses ex_wp) -> plain_pose T) /\ (forall T, In T (wp_base_to_camera_guess ex_wp) -> plain_pose T) /\
  (forall T, In T (wr_base_to_camera r) -> rigid T) /\ rigid (wr_wrist_to_target r) /\
  rig_in_view (wrist_views ex_wp) (wrist_poses ex_wp r).
Proof.
  assert (Sz : wrist_sizes ex_wp).
  { repeat split. cbn [ex_wp wp_base_to_camera_guess]. intros c Hc. cbn in Hc. assert (c = 0%nat) by lia. subst c. reflexivity. }
  assert (PW : forall T, In T (wp_wrist_poses ex_wp) -> plain_pose T) by (intros T HT; apply ex_mounts_plain, HT).
  assert (PC : forall T, In T (wp_base_to_camera_guess ex_wp) -> plain_pose T) by (intros T [<-|[]]; apply ex_camera_plain).
  destruct (wrist_right ex_wp Sz PW PC) as (blocks & _ & Res). destruct (Res sc_still) as (_ & _ & r & _ & E & _).
  destruct (wrist_unmoved ex_wp sc_still r sc_still_still id_plain E) as [Ec Ez]. cbn [ex_wp wp_base_to_camera_guess wp_wrist_to_target_guess] in Ec, Ez.
  exists sc_still, r. split; [ apply sc_still_honest | split; [ exact E | split; [ exact Sz | split; [ exact PW | split; [ exact PC | ] ] ] ] ].
  split; [ rewrite Ec; intros T [<-|[]]; apply rigid_trans | split; [ rewrite Ez; apply rigid_id | ] ].
  intros c i x Hv. apply in_views in Hv as [Ho Hx]. unfold camera_major in Ho. apply in_flat_map in Ho as (c' & Hc & Hi).
  apply in_map_iff in Hi as (i' & [= <- <-] & Hi). apply in_seq in Hc. apply in_seq in Hi. cbn in Hc, Hi.
  assert (c' = 0%nat) by lia. subst c'. unfold wrist_poses. rewrite Ec, Ez.
  destruct (ex_images 0 i' x) as [R1 R2]; [ lia | lia | exact Hx | ]. split; [ exact R1 | apply front_pos, (R2 x); left; reflexivity ].
Qed.
Lemma ex_only : exists solve r,
  honest_blocks solve /\ leaves_others solve /\ optimizeOnly solve ex_op' = Ok r /\ only_sizes ex_op' /\
  (op_fix_first_camera ex_op' = true -> forall T, nth_error (op_base_to_camera_guess ex_op') 0 = Some T -> plain_pose T) /\
  (forall T, In T (or_base_to_camera r) -> rigid T) /\
  best_of (cameras_and_targets (List.length (op_base_to_camera_guess ex_op'))) (camera_of (op_intr ex_op')) (only_views ex_op') (only_poses r).
Proof.
  assert (Sz : only_sizes ex_op').
  { repeat split. cbn [ex_op' op_base_to_camera_guess]. intros c Hc. cbn in Hc. assert (c = 0)%nat as -> by lia; reflexivity. }
  destruct (only_returns ex_op' sc_still Sz) as (r & E & _).
  destruct (only_unmoved ex_op' sc_still r Sz sc_still_still) as [Ec Et]; try exact E; try discriminate.
  { intros T [<-|[]]; apply ex_camera_plain. } { intros T HT. apply ex_mounts_plain, HT. }
  cbn [ex_op' op_base_to_camera_guess op_base_to_target_guess] in Ec, Et.
  assert (RC : forall T, In T (or_base_to_camera r) -> rigid T) by (rewrite Ec; intros T [<-|[]]; apply rigid_trans).
  assert (RT : forall T, In T (or_base_to_target r) -> rigid T) by (rewrite Et; intros T HT; apply plain_rigid, ex_mounts_plain, HT).
  exists sc_still, r. split; [ apply sc_still_honest | split; [ apply sc_still_leaves | split; [ exact E | split; [ exact Sz | split; [ discriminate | split; [ exact RC | ] ] ] ] ] ].
  apply perfect_best.
  - exists (fun c => nth c (or_base_to_camera r) iso_id), (fun i => nth i (or_base_to_target r) iso_id).
    split; [ apply nth_rigid', RC | split; [ apply nth_rigid', RT | reflexivity ] ].
  - intros c i x Hv. apply in_views in Hv as [Ho Hx]. unfold image_major in Ho. apply in_flat_map in Ho as (i' & Hi & Hc).
    apply in_map_iff in Hc as (c' & [= <- <-] & Hc). apply in_seq in Hc. apply in_seq in Hi. cbn in Hc, Hi.
    assert (c' = 0%nat) by lia. subst c'. unfold only_poses. rewrite Ec, Et.
    rewrite <- (iso_mul_id_r (nth i' ex_mounts iso_id)). apply (ex_images 0 i' x); [ lia | lia | exact Hx ].
Qed.
Lemma ex_static_data : static_observations ex_sp 0 = h2_observations ex_he2.
Proof.
  unfold static_observations, images_of, static_wrist. cbn [ex_sp ex_he2 sp_wrist_poses sp_image_observations h2_observations nth List.length ex_mounts seq map].
  unfold ex_obs2_at, ex_picture. rewrite !ex_view_eq. reflexivity.
Qed.
Lemma ex_calibrated : exists hr, calibrated (camera_of (sp_intr ex_sp) 0) (static_observations ex_sp 0) hr.
Proof.
  destruct (ex_he2_ok (fun _ _ => 0) sc_stay) as [r E]. exists r. rewrite ex_static_data.
  exists (fun _ _ => 0), sc_stay, ex_cov_oracle, ex_he2.
  destruct (unmoved2 _ _ _ _ _ sc_stay_stays E) as [-> ->]; [ apply plain_id_tr | apply (plain_id_tr vzero) | ].
  split; [ apply sc_stay_honest | split; [ exact E | split; [ reflexivity | split; [ reflexivity | apply ex_best ] ] ] ].
Qed.
Definition ex_pnp_of (W : iso) : pnp_problem := PnP2 ex_k (ex_picture W) (ex_view W) "camera_to_target".
Lemma ex_estimated W : In W ex_mounts -> exists rp, estimated ex_k (ex_picture W) rp.
Proof.
  intros HW. pose proof (ex_view_rigid W HW) as RV.
  assert (exists r, optimizePnP (fun _ _ => 0) sc_stay ex_cov_oracle (ex_pnp_of W) = Ok r) as [r E].
  { apply pnp_succeeds2; try reflexivity; [ apply ex_oracle_sym | discriminate ]. }
  pose proof (pnp_unmoved2 _ _ _ _ _ sc_stay_stays E RV) as Er. cbn [ex_pnp_of pnp_guess] in Er.
  exists r, (fun _ _ => 0), sc_stay, ex_cov_oracle, (ex_pnp_of W). rewrite Er.
  split; [ apply sc_stay_honest | split; [ exact E | split; [ reflexivity | split; [ reflexivity | split; [ apply UniqueMultiExamples.ex_picture_front, HW | ] ] ] ] ].
  split; [ exact RV | split ].
  - intros c Hc. apply front_pos, (UniqueMultiExamples.ex_picture_front W HW c Hc).
  - intros T' _ _. replace (pose_error ex_k (ex_picture W) (ex_view W)) with 0; [ apply half_squares_pos | ].
    symmetry. apply half_squares_zero. intros e He. apply in_flat_map in He as (c & Hc & He).
    apply (perfect_pixels _ _ _ (ex_picture_perfect W HW) c e Hc He).
Qed.
Lemma ex_all_estimated : exists rp : nat -> pnp_result, forall i, (i < 3)%nat ->
  estimated ex_k (nth i (map ex_picture ex_mounts) []) (rp i).
Proof.
  destruct (ex_estimated _ (in_mounts 0 ltac:(lia))) as [r0 H0]. destruct (ex_estimated _ (in_mounts 1 ltac:(lia))) as [r1 H1].
  destruct (ex_estimated _ (in_mounts 2 ltac:(lia))) as [r2 H2].
  exists (fun i => match i with 0%nat => r0 | 1%nat => r1 | _ => r2 end). intros i Hi. rewrite nth_pictures by exact Hi.
  destruct i as [|[|[|i]]]; [ exact H0 | exact H1 | exact H2 | lia ].
Qed.

Lemma ex_static_wrist : exists u solve cov p r solve' q r' hr,
  honest_blocks solve /\ honest_blocks solve' /\
  optimizeStatic u solve cov p = Ok r /\ optimizeWrist solve' q = Ok r' /\
  static_sizes p /\ plain_wrists p /\ wrist_sizes q /\
  (forall T, In T (wp_wrist_poses q) -> plain_pose T) /\ (forall T, In T (wp_base_to_camera_guess q) -> plain_pose T) /\
  static_of_wrist p q /\
  (forall T, In T (sr_base_to_camera r) -> rigid T) /\ rigid (sr_wrist_to_target r) /\
  (forall T, In T (wr_base_to_camera r') -> rigid T) /\ rigid (wr_wrist_to_target r') /\
  rig_in_view (wrist_views q) (wrist_poses q r') /\
  best_of (cameras_and_wrist (List.length (sp_base_to_camera_guess p)) (static_wrist p)) (camera_of (sp_intr p))
          (static_views p) (static_poses p r) /\
  List.length (sp_base_to_camera_guess p) = 1%nat /\
  calibrated (camera_of (sp_intr p) 0) (static_observations p 0) hr.
Proof.
  destruct ex_static as (u & solve & cov & r & A1 & A2 & A3 & A4 & A5 & A6 & A7).
  destruct ex_wrist as (solve' & r' & B1 & B2 & B3 & B4 & B5 & B6 & B7 & B8). destruct ex_calibrated as [hr D].
  exists u, solve, cov, ex_sp, r, solve', ex_wp, r', hr.
  split; [ exact A1 | split; [ exact B1 | split; [ exact A2 | split; [ exact B2 | split; [ exact A3 | split; [ exact A4 | split; [ exact B3 | split; [ exact B4 | split; [ exact B5 | ] ] ] ] ] ] ] ] ].
  split; [ | split; [ exact A5 | split; [ exact A6 | split; [ exact B6 | split; [ exact B7 | split; [ exact B8 | split; [ exact A7 | split; [ reflexivity | exact D ] ] ] ] ] ] ] ].
  split; [ reflexivity | split; [ reflexivity | split; [ reflexivity | ] ] ]. intros c Hc. cbn in Hc. assert (c = 0%nat) as -> by lia. reflexivity.
Qed.
Lemma ex_only_wrist : exists solve p r solve' q r',
  honest_blocks solve /\ leaves_others solve /\ honest_blocks solve' /\
  optimizeOnly solve p = Ok r /\ optimizeWrist solve' q = Ok r' /\
  only_sizes p /\ wrist_sizes q /\
  (op_fix_first_camera p = true -> forall T, nth_error (op_base_to_camera_guess p) 0 = Some T -> plain_pose T) /\
  (forall T, In T (wp_wrist_poses q) -> plain_pose T) /\ (forall T, In T (wp_base_to_camera_guess q) -> plain_pose T) /\
  only_of_wrist p q /\
  (forall T, In T (or_base_to_camera r) -> rigid T) /\
  (forall T, In T (wr_base_to_camera r') -> rigid T) /\ rigid (wr_wrist_to_target r') /\
  rig_in_view (wrist_views q) (wrist_poses q r') /\
  best_of (cameras_and_targets (List.length (op_base_to_camera_guess p))) (camera_of (op_intr p)) (only_views p) (only_poses r).
Proof.
  destruct ex_only as (solve & r & A1 & A2 & A3 & A4 & A5 & A6 & A7).
  destruct ex_wrist as (solve' & r' & B1 & B2 & B3 & B4 & B5 & B6 & B7 & B8).
  exists solve, ex_op', r, solve', ex_wp, r'.
  split; [ exact A1 | split; [ exact A2 | split; [ exact B1 | split; [ exact A3 | split; [ exact B2 | split; [ exact A4 | split; [ exact B3 | split; [ exact A5 | split; [ exact B4 | split; [ exact B5 | ] ] ] ] ] ] ] ] ] ].
  split; [ | split; [ exact A6 | split; [ exact B6 | split; [ exact B7 | split; [ exact B8 | exact A7 ] ] ] ] ].
  split; [ reflexivity | split; [ reflexivity | split; reflexivity ] ].
Qed.
Lemma ex_pictures : exists u solve cov p r rp,
  honest_blocks solve /\ optimizeStatic u solve cov p = Ok r /\ static_sizes p /\ plain_wrists p /\
  (forall T, In T (sr_base_to_camera r) -> rigid T) /\
  rig_in_view (static_views p) (static_poses p r) /\
  (forall c i, (c < List.length (sp_base_to_camera_guess p))%nat -> (i < List.length (nth c (sp_wrist_poses p) []))%nat ->
     estimated (camera_of (sp_intr p) c) (images_of (sp_image_observations p) c i) (rp c i)).
Proof.
  destruct ex_static as (u & solve & cov & r & A1 & A2 & A3 & A4 & A5 & A6 & A7). destruct ex_all_estimated as [rp P].
  exists u, solve, cov, ex_sp, r, (fun _ => rp).
  split; [ exact A1 | split; [ exact A2 | split; [ exact A3 | split; [ exact A4 | split; [ exact A5 | split; [ apply A7 | ] ] ] ] ] ].
  intros c i Hc Hi. cbn in Hc. assert (c = 0%nat) by lia. subst c. apply (P i Hi).
Qed.
Lemma ex_pictures_hand_eye : exists u solve cov p r rs,
  honest solve /\ optimize2D3D u solve cov p = Ok r /\ plain_obs (h2_observations p) /\
  in_view (sightings (h2_observations p)) (he_camera_mount_to_camera r) (he_target_mount_to_target r) /\
  (2 <= List.length (h2_observations p))%nat /\
  Forall2 (fun o => estimated (h2_intr p) (correspondence_set o)) (h2_observations p) rs.
Proof.
  destruct (ex_he2_ok (fun _ _ => 0) sc_stay) as [r E]. destruct ex_all_estimated as [rp P].
  exists (fun _ _ => 0), sc_stay, ex_cov_oracle, ex_he2, r, [rp 0%nat; rp 1%nat; rp 2%nat].
  destruct (unmoved2 _ _ _ _ _ sc_stay_stays E) as [-> ->]; [ apply plain_id_tr | apply (plain_id_tr vzero) | ].
  split; [ apply sc_stay_honest | split; [ exact E | split; [ apply ex_he2_plain | split; [ apply ex_best | split; [ cbn; lia | ] ] ] ] ].
  cbn [ex_he2 h2_observations h2_intr]. unfold ex_obs2_at.
  assert (Q : forall i, (i < 3)%nat -> estimated ex_k (ex_image2 ex_k (target_in_camera ex_camera iso_id (nth i ex_mounts iso_id) iso_id)) (rp i)).
  { intros i Hi. rewrite ex_view_eq. specialize (P i Hi). rewrite nth_pictures in P by exact Hi. exact P. }
  apply Forall2_cons; [ apply (Q 0%nat); lia | apply Forall2_cons; [ apply (Q 1%nat); lia | apply Forall2_cons; [ apply (Q 2%nat); lia | apply Forall2_nil ] ] ].
Qed.
Lemma ex_one_pnp : exists solve p r rp,
  honest_blocks solve /\ optimizeMpnp solve p = Ok r /\ mpnp_sizes p /\
  (forall T, In T (mp_base_to_camera p) -> plain_pose T) /\
  List.length (mp_base_to_camera p) = 1%nat /\
  best_of (known_cameras 1 (fun c => nth c (mp_base_to_camera p) iso_id)) (camera_of (mp_intr p)) (single_views p) (mpnp_poses p r) /\
  estimated (camera_of (mp_intr p) 0) (nth 0 (mp_image_observations p) []) rp.
Proof.
  assert (Sz : mpnp_sizes ex_mp) by (split; reflexivity).
  assert (PC : forall T, In T (mp_base_to_camera ex_mp) -> plain_pose T) by (intros T [<-|[]]; apply ex_camera_plain).
  destruct (mpnp_right ex_mp Sz PC) as (blocks & _ & Res). destruct (Res sc_still) as (_ & _ & _ & r & _ & _ & E & _).
  pose proof (mpnp_unmoved ex_mp sc_still r sc_still_still id_plain E) as Er. cbn [ex_mp mp_base_to_target_guess] in Er.
  assert (I0 : In iso_id ex_mounts) by (left; reflexivity). destruct (ex_estimated _ I0) as [rp P].
  exists sc_still, ex_mp, r, rp.
  split; [ apply sc_still_honest | split; [ exact E | split; [ exact Sz | split; [ exact PC | split; [ reflexivity | split; [ | exact P ] ] ] ] ] ].
  apply perfect_best.
  - exists (mr_base_to_target r). split; [ rewrite Er; apply rigid_id | reflexivity ].
  - intros c i x Hv. apply in_map_iff in Hv as ([c' x'] & [= <- <- <-] & Hv). apply in_flat_map in Hv as (c & Hc & Hv).
    apply in_seq in Hc. cbn in Hc. assert (c = 0%nat) by lia. subst c. apply in_map_iff in Hv as (x1 & [= <- <-] & Hx).
    unfold mpnp_poses. rewrite Er. cbn [ex_mp mp_base_to_camera nth].
    assert (V : iso_mul (iso_inv ex_camera) iso_id = ex_view iso_id) by (unfold ex_view; rewrite iso_mul_id_l; reflexivity). rewrite V.
    split; [ apply ex_view_rigid, I0 | ]. intros y [<-|[]]. apply (ex_picture_perfect _ I0), Hx.
Qed.
