(** C116: noisy data that meet the hypotheses. *)
From Coq Require Import Reals Lra Psatz Arith Lia List String.
From Coq Require Import List.
From Verif.Base Require Import Geom Outcome Matrix.
From Verif.Model Require Import Pose Covariance Solver HandEye Pnp BlockSolver MultiCamera CircleFit.
From Verif.Spec Require Import PinHole Frames HomographySpec PnpSpec MultiSpec CircleSpec UniqueSpec OracleSpec NearSpec.
From Verif.Proofs Require Import GeomLemmas RotLemmas AngleAxisLemmas PoseProofs ListLemmas CovarianceProofs HandEyeProofs PnpProofs CircleFitProofs MultiCameraProofs UniqueLemmas UniqueProofs
  UniqueExamples UniqueMulti UniqueMultiExamples UniqueCircle LimitLemmas NearPose NearHandEye NearProofs NearMulti NearCircle NearBest.
Import ListNotations.
Local Open Scope R_scope.

(** All pixels, or points, a little to the right *)
Definition blur2 (h : R) (c : correspondence vec2) : correspondence vec2 := Corr (V2 (px (in_image c) + h) (py (in_image c))) (in_target c).
Definition blur3 (h : R) (c : correspondence vec3) : correspondence vec3 := Corr (V3 (vx (in_image c) + h) (vy (in_image c)) (vz (in_image c))) (in_target c).
Lemma abs_same x y d : x = y -> 0 <= d -> Rabs (x - y) <= d.
Proof. intros -> Hd. rewrite Rminus_eq_0, Rabs_R0. exact Hd. Qed.
Lemma abs_shift x d h : 0 <= h <= d -> Rabs (x + h - x) <= d.
Proof. intros H. replace (x + h - x) with h by ring. rewrite Rabs_pos_eq; lra. Qed.
Lemma blur2_near h d cs : 0 <= h <= d -> near_picture d (map (blur2 h) cs) cs.
Proof.
  intros H. unfold near_picture. induction cs as [|c cs IH]; cbn [map]; constructor; [ | exact IH ]. split; [ reflexivity | ].
  split; cbn [blur2 in_image px py]; [ apply abs_shift, H | apply abs_same; [ reflexivity | lra ] ].
Qed.
Lemma blur3_near h d cs : 0 <= h <= d -> Forall2 (near_point d) (map (blur3 h) cs) cs.
Proof.
  intros H. induction cs as [|c cs IH]; cbn [map]; constructor; [ | exact IH ]. split; [ reflexivity | ].
  split; [ | split ]; cbn [blur3 in_image vx vy vz]; [ apply abs_shift, H | apply abs_same; [ reflexivity | lra ] .. ].
Qed.
Lemma blur2_not_perfect k T h cs : 0 < h -> cs <> [] -> perfect_image k T cs -> ~ perfect_image k T (map (blur2 h) cs).
Proof.
  intros H N P Q. destruct cs as [|c cs]; [ contradiction | ]. destruct (P c (or_introl eq_refl)) as [_ E1].
  destruct (Q (blur2 h c) (or_introl eq_refl)) as [_ E2]. cbn [blur2 in_image in_target] in E2. rewrite <- E1 in E2. apply (f_equal px) in E2. cbn [px] in E2. lra.
Qed.
Lemma blur3_not_perfect T h cs : 0 < h -> cs <> [] -> perfect_points T cs -> ~ perfect_points T (map (blur3 h) cs).
Proof.
  intros H N P Q. destruct cs as [|c cs]; [ contradiction | ]. pose proof (P c (or_introl eq_refl)) as E1.
  pose proof (Q (blur3 h c) (or_introl eq_refl)) as E2. cbn [blur3 in_image in_target] in E2. rewrite <- E1 in E2. apply (f_equal vx) in E2. cbn [vx] in E2. lra.
Qed.
Lemma blur2_errors k T h cs f : 0 <= h -> perfect_image k T cs -> In f (flat_map (pixel_error k T) (map (blur2 h) cs)) -> Rabs f <= h.
Proof.
  intros H P Hf. apply in_flat_map in Hf as (c & Ic & Hf). apply in_map_iff in Ic as (c0 & <- & I0). destruct (P c0 I0) as [_ E0].
  unfold pixel_error in Hf. cbn [blur2 in_target in_image px py] in Hf. rewrite <- E0 in Hf. cbn [In] in Hf.
  destruct Hf as [<-|[<-|[]]]; [ rewrite Rabs_minus_sym; apply abs_shift; lra | apply abs_same; [ reflexivity | exact H ] ].
Qed.
Lemma blur3_errors T h cs f : 0 <= h -> perfect_points T cs -> In f (flat_map (point_error T) (map (blur3 h) cs)) -> Rabs f <= h.
Proof.
  intros H P Hf. apply in_flat_map in Hf as (c & Ic & Hf). apply in_map_iff in Ic as (c0 & <- & I0). pose proof (P c0 I0) as E0.
  unfold point_error in Hf. cbn [blur3 in_target in_image vx vy vz] in Hf. rewrite <- E0 in Hf. cbn [In] in Hf.
  destruct Hf as [<-|[<-|[<-|[]]]]; [ rewrite Rabs_minus_sym; apply abs_shift; lra | apply abs_same; [ reflexivity | exact H ] .. ].
Qed.
Lemma flat_map_map' {A B C} (f : B -> list C) (g : A -> B) l : flat_map f (map g l) = flat_map (fun a => f (g a)) l.
Proof. rewrite !flat_map_concat_map, map_map. reflexivity. Qed.
Lemma flat_map_same {A B} (f g : A -> list B) l : (forall a, In a l -> f a = g a) -> flat_map f l = flat_map g l.
Proof. intros H. rewrite !flat_map_concat_map. f_equal. apply map_ext_in, H. Qed.

(** A solver that stays reports the cost of the guess. *)
Lemma pnp_stay_cost u cov p r : optimizePnP u sc_stay cov p = Ok r -> rigid (pnp_guess p) -> all_in_front (pnp_guess p) (pnp_correspondences p) ->
  pnp_final_cost_per_obs r = cost_of (flat_map (pixel_error (pnp_intr p) (pnp_guess p)) (pnp_correspondences p)).
Proof.
  intros E Rg AF. pose proof (pnp_unmoved2 _ _ _ _ _ sc_stay_stays E Rg) as Er. rewrite optimizePnP_unfold in E.
  destruct (pnp_finish_fields _ _ _ _ _ _ _ E) as (x & s & Es & _ & Ht & _ & Hf). injection Es as <- <-. rewrite Hf. cbn [final_cost].
  unfold cost_of, num_residuals. rewrite flat_map_map'. 
  assert (Q : flat_map (fun c => pnp_cost (pnp_intr p) (in_target c) (in_image c) (pnp_start (pnp_guess p))) (pnp_correspondences p) =
    flat_map (pixel_error (pnp_intr p) (pnp_guess p)) (pnp_correspondences p)).
  { apply flat_map_same. intros c Hc. rewrite Er in Ht. rewrite Ht at 2. apply pnp_cost_pinhole. rewrite <- Ht. apply AF, Hc. }
  rewrite Q. reflexivity.
Qed.
Lemma pnp_stay_cost3 u cov p r : optimizePnP3D u sc_stay cov p = Ok r -> rigid (pnp3_guess p) ->
  pnp_final_cost_per_obs r = cost_of (flat_map (point_error (pnp3_guess p)) (pnp3_correspondences p)).
Proof.
  intros E Rg. pose proof (pnp_unmoved3 _ _ _ _ _ sc_stay_stays E Rg) as Er. rewrite optimizePnP3D_unfold in E.
  destruct (pnp_finish_fields _ _ _ _ _ _ _ E) as (x & s & Es & _ & Ht & _ & Hf). injection Es as <- <-. rewrite Hf. cbn [final_cost].
  unfold cost_of, num_residuals. rewrite flat_map_map'. 
  assert (Q : flat_map (fun c => pnp_cost3D (in_target c) (in_image c) (pnp_start (pnp3_guess p))) (pnp3_correspondences p) =
    flat_map (point_error (pnp3_guess p)) (pnp3_correspondences p)).
  { apply flat_map_same. intros c Hc. rewrite Er in Ht. rewrite Ht at 2. apply pnp_cost3D_eq. }
  rewrite Q. reflexivity.
Qed.
Lemma flat_pairs {C D} (f : observation C * correspondence C -> list D) os :
  flat_map f (all_pairs os) = flat_map (fun o => flat_map (fun c => f (o, c)) (correspondence_set o)) os.
Proof.
  unfold all_pairs. induction os as [|o os IH]; [ reflexivity | ]. cbn. rewrite flat_map_app, IH, flat_map_map'. reflexivity.
Qed.
Lemma he_stay_cost2 u cov p r : optimize2D3D u sc_stay cov p = Ok r -> plain_pose (h2_camera_guess p) -> plain_pose (h2_target_guess p) ->
  plain_obs (h2_observations p) ->
  (forall o, In o (h2_observations p) -> all_in_front (seen_at (h2_camera_guess p) (h2_target_guess p) o) (correspondence_set o)) ->
  he_final_cost_per_obs r = cost_of (flat_map (fun o => flat_map (pixel_error (h2_intr p) (seen_at (h2_camera_guess p) (h2_target_guess p) o)) (correspondence_set o)) (h2_observations p)).
Proof.
  intros E PX PZ PO AF. destruct (unmoved2 _ _ _ _ _ sc_stay_stays E PX PZ) as [EX EZ].
  rewrite optimize2D3D_unfold in E. destruct (forallb _ _); [ | discriminate ].
  destruct (he_finish_fields _ _ _ _ _ _ _ E) as (xf & s & Es & _ & Ht & Hm & _ & Hf). injection Es as <- <-. rewrite Hf. cbn [final_cost].
  unfold num_residuals. rewrite flat_map_map', flat_pairs.
  match goal with |- half_squares ?a / _ = cost_of ?b => assert (Q : a = b) end.
  { apply flat_map_same. intros o Io. apply flat_map_same. intros c Ic. unfold blk2. destruct (PO o Io) as [P1 P2]. cbn [fst snd] in *.
    rewrite EX in Hm. rewrite EZ in Ht.
    assert (RC : rigid (poseCalToEigen (poseEigenToCal (iso_inv (h2_camera_guess p))))).
    { apply rigid_of_inv. rewrite <- Hm. apply plain_rigid, PX. }
    rewrite (cost2D3D_physical _ _ _ _ _ (h2_camera_guess p)); try assumption; [ | apply plain_rigid, PX | rewrite <- (iso_inv_inv _ RC); f_equal; symmetry; exact Hm ].
    cbv zeta. rewrite <- Ht. pose proof (AF o Io c Ic) as F. apply front_pos in F. unfold seen_at in *. rewrite arr_pinhole by lra. reflexivity. }
  rewrite Q. reflexivity.
Qed.
Lemma he_stay_cost3 u cov p r : optimize3D3D u sc_stay cov p = Ok r -> plain_pose (h3_camera_guess p) -> plain_pose (h3_target_guess p) ->
  plain_obs (h3_observations p) ->
  he_final_cost_per_obs r = cost_of (flat_map (fun o => flat_map (point_error (seen_at (h3_camera_guess p) (h3_target_guess p) o)) (correspondence_set o)) (h3_observations p)).
Proof.
  intros E PX PZ PO. destruct (unmoved3 _ _ _ _ _ sc_stay_stays E PX PZ) as [EX EZ].
  rewrite optimize3D3D_unfold in E.
  destruct (he_finish_fields _ _ _ _ _ _ _ E) as (xf & s & Es & _ & Ht & Hm & _ & Hf). injection Es as <- <-. rewrite Hf. cbn [final_cost].
  unfold num_residuals. rewrite flat_map_map', flat_pairs.
  match goal with |- half_squares ?a / _ = cost_of ?b => assert (Q : a = b) end.
  { apply flat_map_same. intros o Io. apply flat_map_same. intros c Ic. unfold blk3. destruct (PO o Io) as [P1 P2]. cbn [fst snd] in *.
    rewrite EX in Hm. rewrite EZ in Ht.
    assert (RC : rigid (poseCalToEigen (poseEigenToCal (iso_inv (h3_camera_guess p))))).
    { apply rigid_of_inv. rewrite <- Hm. apply plain_rigid, PX. }
    rewrite (cost3D3D_physical _ _ _ _ (h3_camera_guess p)); try assumption; [ | apply plain_rigid, PX | rewrite <- (iso_inv_inv _ RC); f_equal; symmetry; exact Hm ].
    cbv zeta. rewrite <- Ht. reflexivity. }
  rewrite Q. reflexivity.
Qed.

(** ** One picture *)
Lemma near_noise d : 0 < d -> 0 <= Rmin d 1 <= d.
Proof. intros Hd. destruct (unit_square d Hd). lra. Qed.
Lemma ex_pnp_near2 : exists k T0 cs0, rigid T0 /\ ~ edge_on T0 /\ fx k <> 0 /\ fy k <> 0 /\
  four_flat_points (map in_target cs0) /\ perfect_image k T0 cs0 /\
  forall d, 0 < d -> exists u solve cov p r, honest solve /\ optimizePnP u solve cov p = Ok r /\
    pnp_intr p = k /\ near_picture d (pnp_correspondences p) cs0 /\ all_in_front (pnp_camera_to_target r) (pnp_correspondences p) /\
    pnp_final_cost_per_obs r <= d /\ pnp_final_cost_per_obs r <= cost_of (flat_map (pixel_error k T0) (pnp_correspondences p)) /\
    ~ perfect_image k T0 (pnp_correspondences p).
Proof.
  assert (PI0 : perfect_image ex_k ex_ahead (ex_image2 ex_k ex_ahead)) by apply ex_image2_perfect, ex_ahead_front.
  exists ex_k, ex_ahead, (ex_image2 ex_k ex_ahead). split; [ apply ex_ahead_rigid | split; [ apply ex_ahead_not_edge_on | ] ].
  split; [ cbn; lra | split; [ cbn; lra | split; [ apply ex_square_flat | split; [ exact PI0 | ] ] ] ].
  intros d Hd. destruct (unit_square d Hd) as (SQ & H0 & H1). set (h := Rmin d 1) in *.
  set (p := PnP2 ex_k (map (blur2 h) (ex_image2 ex_k ex_ahead)) ex_ahead "camera_to_target").
  destruct (pnp_succeeds2 (fun _ _ => 0) sc_stay ex_cov_oracle p) as [r E]; try reflexivity; [ apply ex_oracle_sym | discriminate | ].
  exists (fun _ _ => 0), sc_stay, ex_cov_oracle, p, r.
  assert (Er : pnp_camera_to_target r = ex_ahead) by (apply (pnp_unmoved2 _ _ _ _ _ sc_stay_stays E), ex_ahead_rigid).
  assert (AF : all_in_front ex_ahead (pnp_correspondences p)).
  { intros c Hc. apply in_map_iff in Hc as (c0 & <- & Hc0). apply (PI0 c0 Hc0). }
  pose proof (pnp_stay_cost _ _ _ _ E ex_ahead_rigid AF) as Hc. cbn [p pnp_intr pnp_guess] in Hc.
  split; [ apply sc_stay_honest | split; [ exact E | split; [ reflexivity | ] ] ].
  split; [ apply blur2_near; lra | split; [ rewrite Er; exact AF | ] ]. rewrite Hc.
  split; [ | split; [ apply Rle_refl | apply blur2_not_perfect; [ exact H0 | discriminate | exact PI0 ] ] ].
  apply Rle_trans with (h * h); [ apply cost_of_small; [ lra | ] | exact SQ ]. intros f Hf. apply (blur2_errors ex_k ex_ahead h (ex_image2 ex_k ex_ahead)); [ lra | exact PI0 | exact Hf ].
Qed.
Lemma ex_pnp_near3 : exists T0 cs0, rigid T0 /\ not_on_a_line (map in_target cs0) /\ perfect_points T0 cs0 /\
  forall d, 0 < d -> exists u solve cov p r, honest solve /\ optimizePnP3D u solve cov p = Ok r /\
    Forall2 (near_point d) (pnp3_correspondences p) cs0 /\
    pnp_final_cost_per_obs r <= d /\ pnp_final_cost_per_obs r <= cost_of (flat_map (point_error T0) (pnp3_correspondences p)) /\
    ~ perfect_points T0 (pnp3_correspondences p).
Proof.
  assert (PI0 : perfect_points ex_ahead (ex_image3 ex_ahead)) by apply ex_image3_perfect.
  exists ex_ahead, (ex_image3 ex_ahead). split; [ apply ex_ahead_rigid | split; [ apply ex_square_not_on_a_line | split; [ exact PI0 | ] ] ].
  intros d Hd. destruct (unit_square d Hd) as (SQ & H0 & H1). set (h := Rmin d 1) in *.
  set (p := PnP3 (map (blur3 h) (ex_image3 ex_ahead)) ex_ahead "camera_to_target").
  destruct (pnp_succeeds3 (fun _ _ => 0) sc_stay ex_cov_oracle p) as [r E]; try reflexivity; [ apply ex_oracle_sym | discriminate | ].
  exists (fun _ _ => 0), sc_stay, ex_cov_oracle, p, r.
  pose proof (pnp_stay_cost3 _ _ _ _ E ex_ahead_rigid) as Hc. cbn [p pnp3_guess] in Hc.
  split; [ apply sc_stay_honest | split; [ exact E | ] ].
  split; [ apply blur3_near; lra | ]. rewrite Hc.
  split; [ | split; [ apply Rle_refl | apply blur3_not_perfect; [ exact H0 | discriminate | exact PI0 ] ] ].
  apply Rle_trans with (h * h); [ apply cost_of_small; [ lra | ] | exact SQ ]. intros f Hf. apply (blur3_errors ex_ahead h (ex_image3 ex_ahead)); [ lra | exact PI0 | exact Hf ].
Qed.

(** ** Hand-eye calibration *)
Definition blur_obs {C} (f : correspondence C -> correspondence C) (o : observation C) : observation C :=
  Obs (map f (correspondence_set o)) (to_camera_mount o) (to_target_mount o).
Lemma mat_close_same e M : 0 <= e -> mat_close e M M.
Proof. intros He. unfold mat_close. repeat split; apply abs_same; auto. Qed.
Lemma near_pose_same e T : 0 <= e -> near_pose e T T.
Proof. intros He. split; [ apply mat_close_same, He | split; [ | split ]; apply abs_same; auto ]. Qed.
Lemma blur_obs_near {C} (near : R -> correspondence C -> correspondence C -> Prop) f d os : 0 <= d ->
  (forall cs, Forall2 (near d) (map f cs) cs) -> Forall2 (near_observation near d) (map (blur_obs f) os) os.
Proof.
  intros Hd H. induction os as [|o os IH]; cbn [map]; constructor; [ | exact IH ].
  split; [ apply near_pose_same, Hd | split; [ apply near_pose_same, Hd | apply H ] ].
Qed.
Lemma ex_he_near2 : exists k X0 Z0 os0, fx k <> 0 /\ fy k <> 0 /\ rigid X0 /\ rigid Z0 /\
  let seen X Z (o : observation vec2) := target_in_camera X (to_camera_mount o) (to_target_mount o) Z in
  (forall o, In o os0 -> rigid (to_camera_mount o) /\ rigid (to_target_mount o) /\
     four_flat_points (map in_target (correspondence_set o)) /\ ~ edge_on (seen X0 Z0 o) /\ perfect_image k (seen X0 Z0 o) (correspondence_set o)) /\
  two_axes (motions_of (map mounts os0)) /\
  forall d, 0 < d -> exists u solve cov p r, honest solve /\ optimize2D3D u solve cov p = Ok r /\
    h2_intr p = k /\ plain_obs (h2_observations p) /\ Forall2 (near_observation near_pixel d) (h2_observations p) os0 /\
    rigid (he_camera_mount_to_camera r) /\ rigid (he_target_mount_to_target r) /\
    (forall o, In o (h2_observations p) -> all_in_front (seen (he_camera_mount_to_camera r) (he_target_mount_to_target r) o) (correspondence_set o)) /\
    he_final_cost_per_obs r <= d /\
    he_final_cost_per_obs r <= cost_of (flat_map (fun o => flat_map (pixel_error k (seen X0 Z0 o)) (correspondence_set o)) (h2_observations p)) /\
    (forall o, In o (h2_observations p) -> ~ perfect_image k (seen X0 Z0 o) (correspondence_set o)).
Proof.
  assert (PI0 : forall W, In W ex_mounts -> perfect_image ex_k (target_in_camera ex_camera iso_id W iso_id) (ex_image2 ex_k (target_in_camera ex_camera iso_id W iso_id))).
  { intros W HW. apply ex_image2_perfect. intros v. apply ex_mounts_front, HW. }
  exists ex_k, ex_camera, iso_id, (h2_observations ex_he2). split; [ cbn; lra | split; [ cbn; lra | split; [ apply rigid_trans | split; [ apply rigid_id | ] ] ] ].
  cbv zeta. split; [ | split; [ rewrite ex_mounts2; apply ex_two_axes; cbn; auto | ] ].
  { intros o Ho. destruct (ex_he2_plain o Ho) as [P1 P2]. split; [ apply plain_rigid, P1 | split; [ apply plain_rigid, P2 | ] ].
    apply in_map_iff in Ho as (W & <- & HW). cbn [ex_obs2_at correspondence_set to_camera_mount to_target_mount].
    split; [ apply ex_square_flat | split; [ apply ex_mounts_not_edge, HW | apply PI0, HW ] ]. }
  intros d Hd. destruct (unit_square d Hd) as (SQ & H0 & H1). set (h := Rmin d 1) in *.
  set (p := HEP2 (map (blur_obs (blur2 h)) (h2_observations ex_he2)) ex_k iso_id ex_camera default_he_labels).
  assert (PO : plain_obs (h2_observations p)) by (intros o Ho; apply in_map_iff in Ho as (o0 & <- & Ho0); apply (ex_he2_plain o0 Ho0)).
  assert (IN : forall o, In o (h2_observations p) -> exists W, In W ex_mounts /\ o = blur_obs (blur2 h) (ex_obs2_at W)).
  { intros o Ho. apply in_map_iff in Ho as (o0 & <- & Ho0). apply in_map_iff in Ho0 as (W & <- & HW). exists W. auto. }
  assert (AF : forall o, In o (h2_observations p) -> all_in_front (seen_at ex_camera iso_id o) (correspondence_set o)).
  { intros o Ho. destruct (IN o Ho) as (W & HW & ->). intros c Hc. apply in_map_iff in Hc as (c0 & <- & Hc0). apply (PI0 W HW c0 Hc0). }
  assert (PG : plain_pose ex_camera) by apply plain_id_tr. assert (PT : plain_pose iso_id) by apply (plain_id_tr vzero).
  destruct (accept2 (fun _ _ => 0) sc_stay ex_cov_oracle p) as [r E]; try reflexivity; try assumption; [ apply ex_oracle_lists | apply ex_oracle_sym | discriminate | | ].
  { intros o c Ho Hc. apply front_pos. exact (AF o Ho c Hc). }
  exists (fun _ _ => 0), sc_stay, ex_cov_oracle, p, r. destruct (unmoved2 _ _ _ _ _ sc_stay_stays E PG PT) as [E1 E2].
  pose proof (he_stay_cost2 _ _ _ _ E PG PT PO AF) as Hc. cbn [p h2_intr h2_camera_guess h2_target_guess] in Hc, E1, E2.
  split; [ apply sc_stay_honest | split; [ exact E | split; [ reflexivity | split; [ exact PO | split ] ] ] ].
  { apply blur_obs_near; [ lra | ]. intros cs. apply blur2_near. lra. }
  rewrite E1, E2. split; [ apply rigid_trans | split; [ apply rigid_id | split; [ exact AF | ] ] ]. rewrite Hc.
  split; [ | split; [ apply Rle_refl | ] ].
  - apply Rle_trans with (h * h); [ apply cost_of_small; [ lra | ] | exact SQ ]. intros f Hf. apply in_flat_map in Hf as (o & Ho & Hf).
    destruct (IN o Ho) as (W & HW & ->). exact (blur2_errors ex_k _ h _ f (Rlt_le _ _ H0) (PI0 W HW) Hf).
  - intros o Ho. destruct (IN o Ho) as (W & HW & ->). exact (blur2_not_perfect ex_k _ h (ex_image2 ex_k (target_in_camera ex_camera iso_id W iso_id)) H0 ltac:(discriminate) (PI0 W HW)).
Qed.
Lemma ex_he_near3 : exists X0 Z0 os0, rigid X0 /\ rigid Z0 /\
  let seen X Z (o : observation vec3) := target_in_camera X (to_camera_mount o) (to_target_mount o) Z in
  (forall o, In o os0 -> rigid (to_camera_mount o) /\ rigid (to_target_mount o) /\
     not_on_a_line (map in_target (correspondence_set o)) /\ perfect_points (seen X0 Z0 o) (correspondence_set o)) /\
  two_axes (motions_of (map mounts os0)) /\
  forall d, 0 < d -> exists u solve cov p r, honest solve /\ optimize3D3D u solve cov p = Ok r /\
    plain_obs (h3_observations p) /\ Forall2 (near_observation near_point d) (h3_observations p) os0 /\
    rigid (he_camera_mount_to_camera r) /\ rigid (he_target_mount_to_target r) /\
    he_final_cost_per_obs r <= d /\
    he_final_cost_per_obs r <= cost_of (flat_map (fun o => flat_map (point_error (seen X0 Z0 o)) (correspondence_set o)) (h3_observations p)) /\
    (forall o, In o (h3_observations p) -> ~ perfect_points (seen X0 Z0 o) (correspondence_set o)).
Proof.
  assert (PI0 : forall W, perfect_points (target_in_camera ex_camera iso_id W iso_id) (ex_image3 (target_in_camera ex_camera iso_id W iso_id))) by (intros; apply ex_image3_perfect).
  exists ex_camera, iso_id, (h3_observations ex_he3). split; [ apply rigid_trans | split; [ apply rigid_id | ] ].
  cbv zeta. split; [ | split; [ rewrite ex_mounts3; apply ex_two_axes; cbn; auto | ] ].
  { intros o Ho. destruct (ex_he3_plain o Ho) as [P1 P2]. split; [ apply plain_rigid, P1 | split; [ apply plain_rigid, P2 | ] ].
    apply in_map_iff in Ho as (W & <- & HW). cbn [ex_obs3_at correspondence_set to_camera_mount to_target_mount].
    split; [ apply ex_square_not_on_a_line | apply PI0 ]. }
  intros d Hd. destruct (unit_square d Hd) as (SQ & H0 & H1). set (h := Rmin d 1) in *.
  set (p := HEP3 (map (blur_obs (blur3 h)) (h3_observations ex_he3)) iso_id ex_camera default_he_labels).
  assert (PO : plain_obs (h3_observations p)) by (intros o Ho; apply in_map_iff in Ho as (o0 & <- & Ho0); apply (ex_he3_plain o0 Ho0)).
  assert (IN : forall o, In o (h3_observations p) -> exists W, In W ex_mounts /\ o = blur_obs (blur3 h) (ex_obs3_at W)).
  { intros o Ho. apply in_map_iff in Ho as (o0 & <- & Ho0). apply in_map_iff in Ho0 as (W & <- & HW). exists W. auto. }
  assert (PG : plain_pose ex_camera) by apply plain_id_tr. assert (PT : plain_pose iso_id) by apply (plain_id_tr vzero).
  destruct (accept3 (fun _ _ => 0) sc_stay ex_cov_oracle p) as [r E]; try reflexivity; try assumption; [ apply ex_oracle_lists | apply ex_oracle_sym | discriminate | ].
  exists (fun _ _ => 0), sc_stay, ex_cov_oracle, p, r. destruct (unmoved3 _ _ _ _ _ sc_stay_stays E PG PT) as [E1 E2].
  pose proof (he_stay_cost3 _ _ _ _ E PG PT PO) as Hc. cbn [p h3_camera_guess h3_target_guess] in Hc, E1, E2.
  split; [ apply sc_stay_honest | split; [ exact E | split; [ exact PO | split ] ] ].
  { apply blur_obs_near; [ lra | ]. intros cs. apply blur3_near. lra. }
  rewrite E1, E2. split; [ apply rigid_trans | split; [ apply rigid_id | ] ]. rewrite Hc.
  split; [ | split; [ apply Rle_refl | ] ].
  - apply Rle_trans with (h * h); [ apply cost_of_small; [ lra | ] | exact SQ ]. intros f Hf. apply in_flat_map in Hf as (o & Ho & Hf).
    destruct (IN o Ho) as (W & HW & ->). exact (blur3_errors _ h _ f (Rlt_le _ _ H0) (PI0 W) Hf).
  - intros o Ho. destruct (IN o Ho) as (W & HW & ->). exact (blur3_not_perfect _ h (ex_image3 (target_in_camera ex_camera iso_id W iso_id)) H0 ltac:(discriminate) (PI0 W)).
Qed.

(** ** Circles: a little too large *)
Lemma cost_of_nonneg errs : 0 <= cost_of errs.
Proof.
  unfold cost_of, half_squares. assert (S : 0 <= fold_right (fun r acc => r * r + acc) 0 errs) by (induction errs as [|a l IH]; cbn [fold_right]; [ lra | nra ]).
  destruct (Nat.eq_dec (List.length errs) 0) as [Z|Z].
  - destruct errs; [ | discriminate Z ]. cbn. unfold Rdiv. nra.
  - apply Rmult_le_pos; [ lra | ]. apply Rlt_le, Rinv_0_lt_compat, lt_0_INR. lia.
Qed.
Lemma ex_circle_near : exists centre radius pts0, 0 <= radius /\ three_different pts0 /\ (forall o, In o pts0 -> on_circle centre radius o) /\
  forall d, 0 < d -> exists u solve cov p r, honest solve /\ optimizeCircle u solve cov p = Ok r /\
    Forall2 (pixel_close d) (cf_observations p) pts0 /\ cf_final_cost_per_obs r <= d /\ cf_final_cost_per_obs r <= cost_of (map (fun o => radius * radius - dist2 o centre * dist2 o centre) (cf_observations p)) /\
    (forall o, In o (cf_observations p) -> ~ on_circle centre radius o).
Proof.
  set (pts := fun R => [V2 R 0; V2 0 R; V2 (- R) 0]).
  assert (TD : forall R, 0 < R -> three_different (pts R)).
  { intros R HR. exists (V2 R 0), (V2 0 R), (V2 (- R) 0). cbn [In pts]. repeat split; auto; intros Q; injection Q; lra. }
  assert (DI : forall R o, 0 < R -> In o (pts R) -> dist2 o (V2 0 0) = R).
  { intros R o HR Io. unfold dist2.
    replace ((px o - px (V2 0 0)) * (px o - px (V2 0 0)) + (py o - py (V2 0 0)) * (py o - py (V2 0 0))) with (R * R).
    - apply sqrt_square. lra.
    - destruct Io as [<-|[<-|[<-|[]]]]; cbn [px py]; ring. }
  exists (V2 0 0), 4, (pts 4). split; [ lra | split; [ apply TD; lra | split; [ intros o; apply DI; lra | ] ] ].
  intros d Hd. set (p := CirProb (pts (4 + d)) 0 0 (4 + d)).
  destruct (circle_succeeds (fun _ _ => 0) sc_stay ex_cov_oracle p) as [r E]; try reflexivity; [ apply ex_oracle_lists | apply ex_oracle_sym | cbn; lra | discriminate | ].
  exists (fun _ _ => 0), sc_stay, ex_cov_oracle, p, r. split; [ apply sc_stay_honest | split; [ exact E | ] ].
  split; [ | split; [ | split ] ].
  - assert (Z : forall x, Rabs (x - x) <= d) by (intros; apply abs_same; [ reflexivity | lra ]).
    cbn [p cf_observations]. unfold pts.
    apply Forall2_cons; [ split | apply Forall2_cons; [ split | apply Forall2_cons; [ split | apply Forall2_nil ] ] ]; cbn [px py]; try apply Z; apply Rabs_le; lra.
  - assert (cf_final_cost_per_obs r = 0) as ->; [ | lra ].
    apply (circle_unique _ _ _ _ _ (V2 0 0) (4 + d) sc_stay_honest E); [ lra | apply TD; lra | intros o; apply DI; lra | ].
    destruct (circle_unmoved _ _ _ _ _ E sc_stay_stays) as (-> & -> & ->). auto.
  - assert (cf_final_cost_per_obs r = 0) as ->; [ | apply cost_of_nonneg ].
    apply (circle_unique _ _ _ _ _ (V2 0 0) (4 + d) sc_stay_honest E); [ lra | apply TD; lra | intros o; apply DI; lra | ].
    destruct (circle_unmoved _ _ _ _ _ E sc_stay_stays) as (-> & -> & ->). auto.
  - intros o Io Q. unfold on_circle in Q. rewrite (DI (4 + d) o) in Q by (lra || exact Io). lra.
Qed.

(** ** Several cameras: perfect data *)
Lemma Forall2_same {A} (R' : A -> A -> Prop) l : (forall a, R' a a) -> Forall2 R' l l.
Proof. intros H. induction l; constructor; auto. Qed.
Lemma near_picture_same d cs : 0 <= d -> near_picture d cs cs.
Proof. intros Hd. apply Forall2_same. intros c. split; [ reflexivity | split; apply abs_same; auto ]. Qed.
Lemma near_pictures_same d l : 0 <= d -> near_pictures d l l.
Proof. intros Hd. apply Forall2_same. intros i. apply Forall2_same. intros c. apply near_picture_same, Hd. Qed.
Lemma near_poses_same d l : 0 <= d -> Forall2 (near_pose d) l l.
Proof. intros Hd. apply Forall2_same. intros T. apply near_pose_same, Hd. Qed.
Lemma ex_mpnp_near : exists p0 B0,
  let n := List.length (mp_base_to_camera p0) in
  let k c := nth c (mp_intr p0) intr0 in
  let image p c := nth c (mp_image_observations p) [] in
  let seen p B c := iso_mul (iso_inv (nth c (mp_base_to_camera p) iso_id)) B in
  (forall T, In T (mp_base_to_camera p0) -> rigid T) /\ rigid B0 /\
  (exists c, (c < n)%nat /\ usable (k c) (seen p0 B0 c) (image p0 c) /\ perfect_image (k c) (seen p0 B0 c) (image p0 c)) /\
  (forall c, (c < n)%nat -> perfect_image (k c) (seen p0 B0 c) (image p0 c)) /\
  forall d, 0 < d -> exists solve p r, honest_blocks solve /\ optimizeMpnp solve p = Ok r /\ mpnp_sizes p /\
    (forall T, In T (mp_base_to_camera p) -> plain_pose T) /\ near_mpnp d p p0 /\ rigid (mr_base_to_target r) /\
    (forall c, (c < n)%nat -> all_in_front (seen p (mr_base_to_target r) c) (image p c)) /\
    mr_final_cost_per_obs r <= d /\ mr_final_cost_per_obs r <= cost_of (flat_map (fun c => flat_map (pixel_error (k c) (seen p B0 c)) (image p c)) (seq 0 n)).
Proof.
  destruct ex_mp_unique as (solve & p & r & B0 & H). cbv zeta in H. destruct H as (Ho & E & Sz & PC & RB & RR & D & (c & Hc & U) & Z).
  exists p, B0. cbv zeta. split; [ intros T HT; apply plain_rigid, PC, HT | split; [ exact RB | split; [ exists c; split; [ exact Hc | split; [ exact U | apply (D c Hc) ] ] | split; [ intros c1 Hc1; apply (D c1 Hc1) | ] ] ] ].
  intros d Hd. exists solve, p, r. split; [ exact Ho | split; [ exact E | split; [ exact Sz | split; [ exact PC | split ] ] ] ].
  { split; [ reflexivity | split; [ apply near_poses_same; lra | apply Forall2_same; intros; apply near_picture_same; lra ] ]. }
  split; [ exact RR | split; [ intros c' Hc'; apply (D c' Hc') | rewrite Z; split; [ lra | apply cost_of_nonneg ] ] ].
Qed.
Lemma ex_static_near : exists p0 C0 Z0,
  let n := List.length (sp_wrist_poses p0) in
  let k c := nth c (sp_intr p0) intr0 in
  let wrist p c i := nth i (nth c (sp_wrist_poses p) []) iso_id in
  let images c := List.length (nth c (sp_wrist_poses p0) []) in
  let image p c i := nth i (nth c (sp_image_observations p) []) [] in
  let seen p C Z c i := iso_mul (iso_inv (C c)) (iso_mul (wrist p c i) Z) in
  (forall c W, In W (nth c (sp_wrist_poses p0) []) -> rigid W) /\
  (forall c, (c < n)%nat -> rigid (C0 c)) /\ rigid Z0 /\
  (forall c i, (c < n)%nat -> (i < images c)%nat -> perfect_image (k c) (seen p0 C0 Z0 c i) (image p0 c i)) /\
  (exists c chosen, (c < n)%nat /\
     (forall i, In i chosen -> (i < images c)%nat /\ usable (k c) (seen p0 C0 Z0 c i) (image p0 c i)) /\
     two_axes (motions_of (map (wrist p0 c) chosen))) /\
  (forall c, (c < n)%nat -> exists i, (i < images c)%nat /\ usable (k c) (seen p0 C0 Z0 c i) (image p0 c i)) /\
  forall d, 0 < d -> exists u solve cov p r, honest_blocks solve /\ optimizeStatic u solve cov p = Ok r /\
    static_sizes p /\ plain_wrists p /\ near_static d p p0 /\
    (forall T, In T (sr_base_to_camera r) -> rigid T) /\ rigid (sr_wrist_to_target r) /\
    let found c := nth c (sr_base_to_camera r) iso_id in
    (forall c i, (c < n)%nat -> (i < images c)%nat -> all_in_front (seen p found (sr_wrist_to_target r) c i) (image p c i)) /\
    sr_final_cost_per_obs r <= d /\ sr_final_cost_per_obs r <= cost_of (flat_map (fun c => flat_map (fun i => flat_map (pixel_error (k c) (seen p C0 Z0 c i)) (image p c i)) (seq 0 (images c))) (seq 0 n)).
Proof.
  destruct ex_sp_unique as (u & solve & cov & p & r & C0 & Z0 & H). cbv zeta in H. destruct H as (Ho & E & Sz & PW & RC & RZ & RF & RR & D & TA & Us & Z).
  exists p, C0, Z0. cbv zeta. rewrite (proj1 (proj2 Sz)).
  split; [ intros c W HW; apply plain_rigid, (PW c W HW) | split; [ exact RC | split; [ exact RZ | split; [ intros c i Hc Hi; apply (D c i Hc Hi) | split; [ exact TA | split; [ exact Us | ] ] ] ] ] ].
  intros d Hd. exists u, solve, cov, p, r. split; [ exact Ho | split; [ exact E | split; [ exact Sz | split; [ exact PW | split ] ] ] ].
  { split; [ reflexivity | split; [ apply Forall2_same; intros; apply near_poses_same; lra | apply near_pictures_same; lra ] ]. }
  split; [ exact RF | split; [ exact RR | split; [ intros c i Hc Hi; apply (D c i Hc Hi) | rewrite Z; split; [ lra | apply cost_of_nonneg ] ] ] ].
Qed.
Lemma ex_wrist_near : exists p0 K0 Z0,
  let n := List.length (wp_base_to_camera_guess p0) in
  let images := List.length (wp_wrist_poses p0) in
  let k c := nth c (wp_intr p0) intr0 in
  let wrist p i := nth i (wp_wrist_poses p) iso_id in
  let image p c i := nth i (nth c (wp_image_observations p) []) [] in
  let truth c := iso_mul K0 (nth c (wp_base_to_camera_guess p0) iso_id) in
  let seen p C Z c i := iso_mul (iso_inv (C c)) (iso_mul (wrist p i) Z) in
  (forall T, In T (wp_wrist_poses p0) -> rigid T) /\ (forall T, In T (wp_base_to_camera_guess p0) -> rigid T) /\ rigid K0 /\ rigid Z0 /\
  (forall c i, (c < n)%nat -> (i < images)%nat -> perfect_image (k c) (seen p0 truth Z0 c i) (image p0 c i)) /\
  (exists c chosen, (c < n)%nat /\
     (forall i, In i chosen -> (i < images)%nat /\ usable (k c) (seen p0 truth Z0 c i) (image p0 c i)) /\
     two_axes (motions_of (map (wrist p0) chosen))) /\
  forall d, 0 < d -> exists solve p r, honest_blocks solve /\ optimizeWrist solve p = Ok r /\ wrist_sizes p /\
    (forall T, In T (wp_wrist_poses p) -> plain_pose T) /\ (forall T, In T (wp_base_to_camera_guess p) -> plain_pose T) /\ near_wrist d p p0 /\
    (forall T, In T (wr_base_to_camera r) -> rigid T) /\ rigid (wr_wrist_to_target r) /\
    let found c := nth c (wr_base_to_camera r) iso_id in
    (forall c i, (c < n)%nat -> (i < images)%nat -> all_in_front (seen p found (wr_wrist_to_target r) c i) (image p c i)) /\
    wr_final_cost_per_obs r <= d /\ wr_final_cost_per_obs r <= cost_of (flat_map (fun c => flat_map (fun i => flat_map (pixel_error (k c) (seen p (fun c => iso_mul K0 (nth c (wp_base_to_camera_guess p) iso_id)) Z0 c i)) (image p c i)) (seq 0 images)) (seq 0 n)).
Proof.
  destruct ex_wp_unique as (solve & p & r & K0 & Z0 & H). cbv zeta in H. destruct H as (Ho & E & Sz & PW & PC & RK & RZ & RF & RR & D & TA & Z).
  exists p, K0, Z0. cbv zeta.
  split; [ intros T HT; apply plain_rigid, PW, HT | split; [ intros T HT; apply plain_rigid, PC, HT | split; [ exact RK | split; [ exact RZ | ] ] ] ].
  split; [ intros c i Hc Hi; apply (D c i Hc Hi) | split; [ exact TA | ] ].
  intros d Hd. exists solve, p, r. split; [ exact Ho | split; [ exact E | split; [ exact Sz | split; [ exact PW | split; [ exact PC | split ] ] ] ] ].
  { split; [ reflexivity | split; [ apply near_poses_same; lra | split; [ apply near_poses_same; lra | apply near_pictures_same; lra ] ] ]. }
  split; [ exact RF | split; [ exact RR | split; [ intros c i Hc Hi; apply (D c i Hc Hi) | rewrite Z; split; [ lra | apply cost_of_nonneg ] ] ] ].
Qed.
Lemma ex_only_near : exists p0 C0 B0,
  let n := List.length (op_image_observations p0) in
  let images := List.length (op_base_to_target_guess p0) in
  let k c := nth c (op_intr p0) intr0 in
  let image p c i := nth i (nth c (op_image_observations p) []) [] in
  let seen (C B : nat -> iso) c i := iso_mul (iso_inv (C c)) (B i) in
  let good c i := (c < n)%nat /\ (i < images)%nat /\ usable (k c) (seen C0 B0 c i) (image p0 c i) in
  (0 < images)%nat /\ plain_pose (C0 0%nat) /\ (forall c, (c < n)%nat -> rigid (C0 c)) /\ (forall i, (i < images)%nat -> rigid (B0 i)) /\
  (forall c i, (c < n)%nat -> (i < images)%nat -> perfect_image (k c) (seen C0 B0 c i) (image p0 c i)) /\
  linked_camera good 0 1 /\ linked_image good 0 0 /\ (1 < n)%nat /\
  forall d, 0 < d -> exists solve p r, honest_blocks solve /\ leaves_others solve /\ optimizeOnly solve p = Ok r /\ only_sizes p /\
    op_fix_first_camera p = true /\ nth_error (op_base_to_camera_guess p) 0 = Some (C0 0%nat) /\ near_only d p p0 /\
    (forall T, In T (or_base_to_camera r) -> rigid T) /\ (forall T, In T (or_base_to_target r) -> rigid T) /\
    let camera c := nth c (or_base_to_camera r) iso_id in
    let target i := nth i (or_base_to_target r) iso_id in
    (forall c i, (c < n)%nat -> (i < images)%nat -> all_in_front (seen camera target c i) (image p c i)) /\
    or_final_cost_per_obs r <= d /\ or_final_cost_per_obs r <= cost_of (flat_map (fun c => flat_map (fun i => flat_map (pixel_error (k c) (seen C0 B0 c i)) (image p c i)) (seq 0 images)) (seq 0 n)).
Proof.
  assert (Sz : only_sizes ex_op).
  { repeat split. cbn [ex_op op_base_to_camera_guess]. intros c Hc. cbn in Hc. assert (c = 0 \/ c = 1)%nat as [->| ->] by lia; reflexivity. }
  destruct (only_returns ex_op sc_still Sz) as (r & E & _).
  destruct (only_unmoved ex_op sc_still r Sz sc_still_still) as [Ec Et]; try exact E; try discriminate.
  { intros T [<-|[<-|[]]]; apply ex_camera_plain. } { intros T [<-|[]]; apply id_plain. }
  cbn [ex_op op_base_to_camera_guess op_base_to_target_guess] in Ec, Et.
  assert (V : iso_mul (iso_inv ex_camera) iso_id = ex_view iso_id) by (unfold ex_view; rewrite iso_mul_id_l; reflexivity).
  assert (I0 : In iso_id ex_mounts) by (left; reflexivity).
  assert (G : forall c, (c < 2)%nat -> (c < 2)%nat /\ (0 < 1)%nat /\ usable (nth c (op_intr ex_op) intr0)
     (iso_mul (iso_inv ex_camera) iso_id) (nth 0 (nth c (op_image_observations ex_op) []) [])).
  { intros c Hc. split; [ exact Hc | split; [ lia | ] ]. rewrite V.
    assert (c = 0 \/ c = 1)%nat as [->| ->] by lia; apply (ex_picture_usable _ I0). }
  assert (RC : forall T, In T (or_base_to_camera r) -> rigid T) by (rewrite Ec; intros T [<-|[<-|[]]]; apply rigid_trans).
  assert (D : forall c i, (c < 2)%nat -> (i < 1)%nat ->
    perfect_image (nth c (op_intr ex_op) intr0) (iso_mul (iso_inv ex_camera) iso_id) (nth i (nth c (op_image_observations ex_op) []) []) /\
    all_in_front (iso_mul (iso_inv (nth c (or_base_to_camera r) iso_id)) (nth i (or_base_to_target r) iso_id)) (nth i (nth c (op_image_observations ex_op) []) [])).
  { intros c i Hc Hi. assert (i = 0%nat) by lia. subst i. rewrite Ec, Et.
    assert (c = 0 \/ c = 1)%nat as [->| ->] by lia; cbn [ex_op op_intr op_image_observations nth]; rewrite V;
      (split; [ apply (ex_picture_perfect _ I0) | apply (ex_picture_front _ I0) ]). }
  assert (Zc : or_final_cost_per_obs r = 0).
  { apply (only_zero sc_still ex_op r sc_still_honest sc_still_leaves E Sz); [ intros _ T [= <-]; apply ex_camera_plain | exact RC | discriminate | ].
    intros c i x Hv f Hf. apply in_only_views in Hv as (Hc & Hi & Hx). cbn in Hc, Hi. destruct (D c i Hc Hi) as [PI AF].
    unfold only_error in Hf. rewrite Ec, Et in *. assert (i = 0%nat) by lia. subst i.
    assert (Ek : nth c (op_intr ex_op) intr0 = ex_k) by (assert (c = 0 \/ c = 1)%nat as [->| ->] by lia; reflexivity).
    assert (Ev : iso_mul (iso_inv (nth c [ex_camera; ex_camera] iso_id)) (nth 0 [iso_id] iso_id) = iso_mul (iso_inv ex_camera) iso_id)
      by (assert (c = 0 \/ c = 1)%nat as [->| ->] by lia; reflexivity).
    rewrite Ev in *. exact (perfect_zero _ _ _ x PI Hx f Hf). }
  exists ex_op, (fun _ => ex_camera), (fun _ => iso_id). cbv zeta.
  split; [ cbn; lia | split; [ apply ex_camera_plain | split; [ intros; apply rigid_trans | split; [ intros; apply rigid_id | ] ] ] ].
  split; [ intros c i Hc Hi; apply (D c i Hc Hi) | split; [ | split; [ | split; [ cbn; lia | ] ] ] ].
  - apply (lc_step _ _ 1 0); [ apply (li_step _ _ 0 0) | ]; [ apply lc_start | apply (G 0%nat); lia | apply (G 1%nat); lia ].
  - apply (li_step _ _ 0 0); [ apply lc_start | apply (G 0%nat); lia ].
  - intros d Hd. exists sc_still, ex_op, r. split; [ apply sc_still_honest | split; [ apply sc_still_leaves | split; [ exact E | split; [ exact Sz | ] ] ] ].
    split; [ reflexivity | split; [ reflexivity | split ] ].
    { split; [ reflexivity | split; [ apply near_pictures_same; lra | reflexivity ] ]. }
    split; [ exact RC | split; [ rewrite Et; intros T [<-|[]]; apply rigid_id | split; [ intros c i Hc Hi; apply (D c i Hc Hi) | rewrite Zc; split; [ lra | apply cost_of_nonneg ] ] ] ].
Qed.
