(** Concrete data for C77 and C78. *)
From Coq Require Import Reals Lra Psatz Arith Lia List String.
From Verif.Base Require Import Geom Outcome Matrix.
From Verif.Model Require Import Pose Covariance Solver HandEye Pnp.
From Verif.Spec Require Import CovarianceSpec PinHole Frames HomographySpec OracleSpec PnpSpec UniqueSpec.
From Verif.Proofs Require Import GeomLemmas RotLemmas AngleAxisLemmas PoseProofs CovarianceProofs HandEyeProofs PnpProofs UniqueLemmas UniqueProofs.
Import ListNotations.
Local Open Scope R_scope.

(** A solver that stays where it starts and says so. *)
Definition sc_stay {X} : solver X := fun blocks x0 =>
  let c := half_squares (flat_map (fun f => f x0) blocks) in (x0, Summary true c c).
Lemma sc_stay_honest {X} : honest (@sc_stay X).
Proof. intros blocks x0. reflexivity. Qed.
Lemma sc_stay_stays {X} : stays (@sc_stay X).
Proof. intros blocks x0. reflexivity. Qed.

Definition ex_square : list vec3 := [V3 0 0 0; V3 1 0 0; V3 0 1 0; V3 1 1 0].
Lemma ex_square_flat : four_flat_points ex_square.
Proof.
  exists (V3 0 0 0), (V3 1 0 0), (V3 0 1 0), (V3 1 1 0). unfold general_position, not_collinear.
  cbn [ex_square In vx vy vz]. repeat split; auto 6; lra.
Qed.
Lemma ex_square_not_on_a_line : not_on_a_line ex_square.
Proof.
  exists (V3 0 0 0), (V3 1 0 0), (V3 0 1 0). cbn [ex_square In]. repeat split; auto 6.
  unfold triangle. intros E. injection E. cbn [vx vy vz]. lra.
Qed.
Lemma ex_square_z v : In v ex_square -> vz v = 0.
Proof. cbn. intuition (subst; reflexivity). Qed.
Definition ex_ahead : iso := Iso I3 (V3 0 0 1).
Definition ex_image2 (k : intrinsics) (T : iso) : list (correspondence vec2) :=
  map (fun v => Corr (pinhole k (iso_app T v)) v) ex_square.
Definition ex_image3 (T : iso) : list (correspondence vec3) := map (fun v => Corr (iso_app T v) v) ex_square.
Lemma ex_image2_targets k T : map in_target (ex_image2 k T) = ex_square.
Proof. reflexivity. Qed.
Lemma ex_image3_targets T : map in_target (ex_image3 T) = ex_square.
Proof. reflexivity. Qed.
Lemma ex_image2_perfect k T : (forall v, In v ex_square -> in_front (iso_app T v)) -> perfect_image k T (ex_image2 k T).
Proof. intros F c Hc. apply in_map_iff in Hc as (v & <- & Hv). cbn [in_target in_image]. auto. Qed.
Lemma ex_image3_perfect T : perfect_points T (ex_image3 T).
Proof. intros c Hc. apply in_map_iff in Hc as (v & <- & Hv). reflexivity. Qed.

Definition ex_k : intrinsics := Intr 500 500 320 240.
Definition ex_pnp_at (guess : iso) : pnp_problem := PnP2 ex_k (ex_image2 ex_k ex_ahead) guess "camera_to_target".
Definition ex_pnp3_at (guess : iso) : pnp_problem3D := PnP3 (ex_image3 ex_ahead) guess "camera_to_target".
Lemma ex_pnp_at_ok guess u solve : exists r, optimizePnP u solve ex_cov_oracle (ex_pnp_at guess) = Ok r.
Proof. apply pnp_succeeds2; try reflexivity; [ apply ex_oracle_sym | discriminate ]. Qed.
Lemma ex_pnp3_at_ok guess u solve : exists r, optimizePnP3D u solve ex_cov_oracle (ex_pnp3_at guess) = Ok r.
Proof. apply pnp_succeeds3; try reflexivity; [ apply ex_oracle_sym | discriminate ]. Qed.
Lemma ex_ahead_front v : In v ex_square -> in_front (iso_app ex_ahead v).
Proof.
  intros Hv. pose proof (ex_square_z v Hv) as Z. unfold in_front, ex_ahead.
  assert (1 / 10 ^ 10 < 1) by (apply (Rmult_lt_reg_r (10 ^ 10)); [ lra | field_simplify; lra ]).
  geo_unfold. cbn [vz] in *. rewrite Z. lra.
Qed.
Lemma ex_ahead_not_edge_on : ~ edge_on ex_ahead.
Proof. unfold edge_on, ex_ahead. geo_unfold. unfold col2, I3; cbn [vx vy vz m02 m12 m22]. lra. Qed.
Lemma ex_ahead_rigid : rigid ex_ahead.
Proof. apply is_rot_I. Qed.

Lemma ex_pnp_unique : exists u solve cov p r T, honest solve /\ optimizePnP u solve cov p = Ok r /\
  rigid T /\ ~ edge_on T /\ fx (pnp_intr p) <> 0 /\ fy (pnp_intr p) <> 0 /\
  four_flat_points (map in_target (pnp_correspondences p)) /\
  perfect_image (pnp_intr p) T (pnp_correspondences p) /\
  all_in_front (pnp_camera_to_target r) (pnp_correspondences p) /\ pnp_final_cost_per_obs r = 0.
Proof.
  destruct (ex_pnp_at_ok ex_ahead (fun _ _ => 0) sc_stay) as [r E].
  exists (fun _ _ => 0), sc_stay, ex_cov_oracle, (ex_pnp_at ex_ahead), r, ex_ahead.
  assert (Er : pnp_camera_to_target r = ex_ahead) by (apply (pnp_unmoved2 _ _ _ _ _ sc_stay_stays E), ex_ahead_rigid).
  assert (AF : all_in_front (pnp_camera_to_target r) (ex_image2 ex_k ex_ahead)).
  { rewrite Er. intros c Hc. apply ex_image2_perfect in Hc; [ apply Hc | apply ex_ahead_front ]. }
  assert (PI : perfect_image ex_k ex_ahead (ex_image2 ex_k ex_ahead)) by apply ex_image2_perfect, ex_ahead_front.
  assert (F1 : fx ex_k <> 0) by (cbn; lra). assert (F2 : fy ex_k <> 0) by (cbn; lra).
  split; [ apply sc_stay_honest | split; [ exact E | split; [ apply ex_ahead_rigid | split; [ apply ex_ahead_not_edge_on | ] ] ] ].
  split; [ exact F1 | split; [ exact F2 | split; [ apply ex_square_flat | split; [ exact PI | split; [ exact AF | ] ] ] ] ].
  apply (pnp_unique2 _ _ _ _ _ ex_ahead sc_stay_honest E ex_ahead_rigid ex_ahead_not_edge_on F1 F2 ex_square_flat PI AF), Er.
Qed.
Lemma ex_pnp3_unique : exists u solve cov p r T, honest solve /\ optimizePnP3D u solve cov p = Ok r /\
  rigid T /\ not_on_a_line (map in_target (pnp3_correspondences p)) /\
  perfect_points T (pnp3_correspondences p) /\ pnp_final_cost_per_obs r = 0.
Proof.
  destruct (ex_pnp3_at_ok ex_ahead (fun _ _ => 0) sc_stay) as [r E].
  exists (fun _ _ => 0), sc_stay, ex_cov_oracle, (ex_pnp3_at ex_ahead), r, ex_ahead.
  assert (Er : pnp_camera_to_target r = ex_ahead) by (apply (pnp_unmoved3 _ _ _ _ _ sc_stay_stays E), ex_ahead_rigid).
  split; [ apply sc_stay_honest | split; [ exact E | split; [ apply ex_ahead_rigid | ] ] ].
  split; [ apply ex_square_not_on_a_line | split; [ apply ex_image3_perfect | ] ].
  apply (pnp_unique3 _ _ _ _ _ ex_ahead sc_stay_honest E ex_ahead_rigid ex_square_not_on_a_line (ex_image3_perfect _)), Er.
Qed.
(** The same data with the solver stopping at the identity: no error, wrong pose. *)
Lemma pnp_zero_cost_wrong : exists u solve cov p r T, honest solve /\ optimizePnP u solve cov p = Ok r /\
  rigid T /\ ~ edge_on T /\ fx (pnp_intr p) <> 0 /\ fy (pnp_intr p) <> 0 /\
  four_flat_points (map in_target (pnp_correspondences p)) /\
  perfect_image (pnp_intr p) T (pnp_correspondences p) /\
  pnp_final_cost_per_obs r = 0 /\ pnp_camera_to_target r <> T.
Proof.
  destruct (ex_pnp_at_ok iso_id (fun _ _ => 0) sc_stay) as [r E].
  exists (fun _ _ => 0), sc_stay, ex_cov_oracle, (ex_pnp_at iso_id), r, ex_ahead.
  assert (Er : pnp_camera_to_target r = iso_id) by (apply (pnp_unmoved2 _ _ _ _ _ sc_stay_stays E), rigid_id).
  split; [ apply sc_stay_honest | split; [ exact E | split; [ apply ex_ahead_rigid | split; [ apply ex_ahead_not_edge_on | ] ] ] ].
  split; [ cbn; lra | split; [ cbn; lra | split; [ apply ex_square_flat | split; [ apply ex_image2_perfect, ex_ahead_front | split ] ] ] ].
  - rewrite optimizePnP_unfold in E. destruct (pnp_finish_fields _ _ _ _ _ _ _ E) as (x & s & Es & _ & Ht & _ & Hf).
    rewrite (num_residuals_const _ 2) in Hf by reflexivity. rewrite Hf. apply per_obs_zero; [ discriminate | ].
    apply (honest_cost _ _ _ _ _ sc_stay_honest Es). intros f If e He. apply in_map_iff in If as (c & <- & Hc).
    rewrite pnp_cost_eq, <- Ht, Er, iso_app_id in He. cbv zeta in He.
    cbn [ex_pnp_at pnp_correspondences pnp_intr] in Hc, He. apply in_map_iff in Hc as (v & <- & Hv). cbn [in_target in_image] in He.
    pose proof (ex_square_z v Hv) as Z.
    assert (P : projectPoint_eig ex_k v = pinhole ex_k (iso_app ex_ahead v)).
    { unfold projectPoint_eig. rewrite Z.
      destruct (Rlt_dec (1 / 10 ^ 10) (0 - 0)) as [L|_].
      - assert (0 < 1 / 10 ^ 10) by (apply Rdiv_lt_0_compat; lra). lra.
      - destruct v as [a b c]; cbn [vz] in Z; subst c. unfold pinhole, ex_ahead. geo_unfold. unfold I3.
        cbn [lin tr vx vy vz m00 m01 m02 m10 m11 m12 m20 m21 m22]. f_equal; field. }
    rewrite P in He. cbn [In] in He. destruct He as [<-|[<-|[]]]; lra.
  - rewrite Er. intros Q. apply (f_equal tr) in Q. apply (f_equal vz) in Q. cbn in Q. lra.
Qed.

(** Three observations: the target mount unturned, turned about x and turned about y. *)
Definition ex_turn (u : vec3) : iso := iso_rot (aa_matrix (PI / 3) u).
Lemma ex_turn_plain u : dot u u = 1 -> plain_pose (ex_turn u).
Proof.
  intros U. split; [ apply aa_matrix_rot, U | right ]. exists (PI / 3), u.
  pose proof PI_RGT_0. pose proof PI2_1. pose proof DBL_EPS_small.
  repeat split; try assumption; nra.
Qed.
Definition ex_camera : iso := iso_trans (V3 0 0 (-5)).
Definition ex_obs2_at (W : iso) : observation vec2 :=
  Obs (ex_image2 ex_k (target_in_camera ex_camera iso_id W iso_id)) iso_id W.
Definition ex_obs3_at (W : iso) : observation vec3 :=
  Obs (ex_image3 (target_in_camera ex_camera iso_id W iso_id)) iso_id W.
Definition ex_mounts : list iso := [iso_id; ex_turn unitX; ex_turn unitY].
Definition ex_he2 : he_problem2D3D := HEP2 (map ex_obs2_at ex_mounts) ex_k iso_id ex_camera default_he_labels.
Definition ex_he3 : he_problem3D3D := HEP3 (map ex_obs3_at ex_mounts) iso_id ex_camera default_he_labels.
Lemma ex_mounts_plain W : In W ex_mounts -> plain_pose W.
Proof.
  intros [<-|[<-|[<-|[]]]]; [ apply (plain_id_tr vzero) | | ]; apply ex_turn_plain; geo_unfold; cbn; ring.
Qed.
Lemma ex_mount_pose W : target_in_camera ex_camera iso_id W iso_id = Iso (lin W) (vadd (V3 0 0 5) (tr W)).
Proof.
  unfold target_in_camera, ex_camera. rewrite iso_mul_id_l, iso_mul_id_r.
  destruct W as [[n1 n2 n3 n4 n5 n6 n7 n8 n9] [t1 t2 t3]].
  apply iso_ext; cbn [iso_mul iso_inv iso_trans lin tr].
  - apply mat3_ext; unfold mmul, mT, I3; cbn [m00 m01 m02 m10 m11 m12 m20 m21 m22]; ring.
  - unfold vadd, mvec, mT, I3, vneg; apply vec3_ext; cbn [vx vy vz m00 m01 m02 m10 m11 m12 m20 m21 m22]; ring.
Qed.
Lemma third_bounds : cos (PI / 3) = 1 / 2 /\ 0 < sin (PI / 3) <= 1.
Proof. split; [ apply cos_PI3 | ]. split; [ apply sin_gt_0; pose proof PI_RGT_0; lra | apply SIN_bound ]. Qed.
Lemma ex_mounts_front W v : In W ex_mounts -> In v ex_square ->
  in_front (iso_app (target_in_camera ex_camera iso_id W iso_id) v).
Proof.
  intros HW Hv. rewrite ex_mount_pose. unfold in_front. destruct third_bounds as [C S].
  assert (1 / 10 ^ 10 < 1) by (apply (Rmult_lt_reg_r (10 ^ 10)); [ lra | field_simplify; lra ]).
  assert (V : exists a b, v = V3 a b 0 /\ 0 <= a <= 1 /\ 0 <= b <= 1).
  { destruct Hv as [<-|[<-|[<-|[<-|[]]]]]; do 2 eexists; (split; [ reflexivity | lra ]). }
  destruct V as (a & b & -> & Ba & Bb).
  destruct HW as [<-|[<-|[<-|[]]]]; unfold iso_app, iso_id, ex_turn, iso_rot, aa_matrix, unitX, unitY, vadd, mvec, vzero, I3;
    cbn [lin tr vx vy vz m00 m01 m02 m10 m11 m12 m20 m21 m22]; rewrite ?C; nra.
Qed.
Lemma ex_mounts_not_edge W : In W ex_mounts -> ~ edge_on (target_in_camera ex_camera iso_id W iso_id).
Proof.
  intros HW. rewrite ex_mount_pose. unfold edge_on. destruct third_bounds as [C S].
  destruct HW as [<-|[<-|[<-|[]]]]; unfold dot, col2, iso_id, ex_turn, iso_rot, aa_matrix, unitX, unitY, vadd, vzero, I3;
    cbn [lin tr vx vy vz m00 m01 m02 m10 m11 m12 m20 m21 m22]; rewrite ?C; lra.
Qed.
Lemma iso_inv_id : iso_inv iso_id = iso_id.
Proof. apply iso_ext; unfold iso_inv, iso_id, mT, I3, vneg, mvec, vzero; cbn; f_equal; ring. Qed.
Lemma ex_two_axes (poses : list iso) : In iso_id poses -> In (ex_turn unitX) poses -> In (ex_turn unitY) poses ->
  two_axes (motions_of poses).
Proof.
  intros I0 IX IY.
  assert (M : forall W, In W poses -> In W (motions_of poses)).
  { intros W IW. unfold motions_of. apply in_flat_map. exists W. split; [ exact IW | ]. apply in_map_iff.
    exists iso_id. split; [ | exact I0 ]. rewrite iso_inv_id. apply iso_mul_id_r. }
  destruct third_bounds as [_ S].
  exists (ex_turn unitX), (ex_turn unitY), unitX, unitY.
  repeat split; auto; try (unfold dot, unitX, unitY; cbn [vx vy vz]; ring).
  - exists (PI / 3). split; [ reflexivity | lra ].
  - exists (PI / 3). split; [ reflexivity | lra ].
  - unfold cross, unitX, unitY, vzero; cbn [vx vy vz]. intros E. injection E. lra.
Qed.
Lemma ex_mounts2 : map mounts (h2_observations ex_he2) = ex_mounts.
Proof.
  cbn [ex_he2 h2_observations]. rewrite map_map. rewrite <- (map_id ex_mounts) at 2. apply map_ext. intros W.
  unfold mounts. cbn [to_camera_mount to_target_mount ex_obs2_at]. rewrite iso_inv_id. apply iso_mul_id_l.
Qed.
Lemma ex_mounts3 : map mounts (h3_observations ex_he3) = ex_mounts.
Proof.
  cbn [ex_he3 h3_observations]. rewrite map_map. rewrite <- (map_id ex_mounts) at 2. apply map_ext. intros W.
  unfold mounts. cbn [to_camera_mount to_target_mount ex_obs3_at]. rewrite iso_inv_id. apply iso_mul_id_l.
Qed.
Lemma ex_he2_plain : plain_obs (h2_observations ex_he2).
Proof. intros o Ho. apply in_map_iff in Ho as (W & <- & HW). split; [ apply (plain_id_tr vzero) | apply ex_mounts_plain, HW ]. Qed.
Lemma ex_he3_plain : plain_obs (h3_observations ex_he3).
Proof. intros o Ho. apply in_map_iff in Ho as (W & <- & HW). split; [ apply (plain_id_tr vzero) | apply ex_mounts_plain, HW ]. Qed.
Lemma ex_he2_ok u solve : exists r, optimize2D3D u solve ex_cov_oracle ex_he2 = Ok r.
Proof.
  apply accept2; try reflexivity.
  - apply ex_oracle_lists.
  - apply ex_oracle_sym.
  - apply plain_id_tr.
  - apply (plain_id_tr vzero).
  - apply ex_he2_plain.
  - discriminate.
  - intros o c Ho Hc. apply in_map_iff in Ho as (W & <- & HW). apply in_map_iff in Hc as (v & <- & Hv).
    apply front_pos. exact (ex_mounts_front W v HW Hv).
Qed.
Lemma ex_he3_ok u solve : exists r, optimize3D3D u solve ex_cov_oracle ex_he3 = Ok r.
Proof. apply accept3; try reflexivity; [ apply ex_oracle_lists | apply ex_oracle_sym | discriminate ]. Qed.

Lemma ex_he_unique2 : exists u solve cov p r X0 Z0, honest solve /\ optimize2D3D u solve cov p = Ok r /\
  let seen X Z o := target_in_camera X (to_camera_mount o) (to_target_mount o) Z in
  plain_obs (h2_observations p) /\ fx (h2_intr p) <> 0 /\ fy (h2_intr p) <> 0 /\
  rigid X0 /\ rigid Z0 /\ rigid (he_camera_mount_to_camera r) /\ rigid (he_target_mount_to_target r) /\
  (forall o, In o (h2_observations p) ->
     four_flat_points (map in_target (correspondence_set o)) /\
     ~ edge_on (seen X0 Z0 o) /\
     perfect_image (h2_intr p) (seen X0 Z0 o) (correspondence_set o) /\
     all_in_front (seen (he_camera_mount_to_camera r) (he_target_mount_to_target r) o) (correspondence_set o)) /\
  two_axes (motions_of (map mounts (h2_observations p))).
Proof.
  destruct (ex_he2_ok (fun _ _ => 0) sc_stay) as [r E].
  exists (fun _ _ => 0), sc_stay, ex_cov_oracle, ex_he2, r, ex_camera, iso_id.
  destruct (unmoved2 _ _ _ _ _ sc_stay_stays E) as [E1 E2]; [ apply plain_id_tr | apply (plain_id_tr vzero) | ].
  split; [ apply sc_stay_honest | split; [ exact E | ] ]. cbv zeta. rewrite E1, E2. cbn [h2_camera_guess h2_target_guess h2_intr ex_he2].
  split; [ apply ex_he2_plain | split; [ cbn; lra | split; [ cbn; lra | ] ] ].
  split; [ apply rigid_trans | split; [ apply rigid_id | split; [ apply rigid_trans | split; [ apply rigid_id | ] ] ] ].
  split.
  - intros o Ho. apply in_map_iff in Ho as (W & <- & HW). cbn [ex_obs2_at correspondence_set to_camera_mount to_target_mount].
    split; [ apply ex_square_flat | split; [ apply ex_mounts_not_edge, HW | split ] ].
    + apply ex_image2_perfect. intros v. apply ex_mounts_front, HW.
    + intros c Hc. apply in_map_iff in Hc as (v & <- & Hv). cbn [in_target]. apply ex_mounts_front; assumption.
  - fold ex_he2. rewrite ex_mounts2. apply ex_two_axes; cbn; auto.
Qed.
Lemma ex_he_unique3 : exists u solve cov p r X0 Z0, honest solve /\ optimize3D3D u solve cov p = Ok r /\
  let seen X Z o := target_in_camera X (to_camera_mount o) (to_target_mount o) Z in
  plain_obs (h3_observations p) /\
  rigid X0 /\ rigid Z0 /\ rigid (he_camera_mount_to_camera r) /\ rigid (he_target_mount_to_target r) /\
  (forall o, In o (h3_observations p) ->
     not_on_a_line (map in_target (correspondence_set o)) /\
     perfect_points (seen X0 Z0 o) (correspondence_set o)) /\
  two_axes (motions_of (map mounts (h3_observations p))).
Proof.
  destruct (ex_he3_ok (fun _ _ => 0) sc_stay) as [r E].
  exists (fun _ _ => 0), sc_stay, ex_cov_oracle, ex_he3, r, ex_camera, iso_id.
  destruct (unmoved3 _ _ _ _ _ sc_stay_stays E) as [E1 E2]; [ apply plain_id_tr | apply (plain_id_tr vzero) | ].
  split; [ apply sc_stay_honest | split; [ exact E | ] ]. cbv zeta. rewrite E1, E2. cbn [h3_camera_guess h3_target_guess ex_he3].
  split; [ apply ex_he3_plain | ].
  split; [ apply rigid_trans | split; [ apply rigid_id | split; [ apply rigid_trans | split; [ apply rigid_id | ] ] ] ].
  split.
  - intros o Ho. apply in_map_iff in Ho as (W & <- & HW). cbn [ex_obs3_at correspondence_set to_camera_mount to_target_mount].
    split; [ apply ex_square_not_on_a_line | apply ex_image3_perfect ].
  - fold ex_he3. rewrite ex_mounts3. apply ex_two_axes; cbn; auto.
Qed.
(** All three mount poses are turns about the origin. *)
Lemma ex_fixed_point : exists m, forall o o', In o (h2_observations ex_he2) -> In o' (h2_observations ex_he2) ->
  iso_app (motion o o') m = m.
Proof.
  exists vzero. intros o o' Ho Ho'. unfold motion.
  assert (Z : forall o, In o (h2_observations ex_he2) -> tr (mounts o) = vzero).
  { intros q Hq. assert (In (mounts q) ex_mounts) as I by (rewrite <- ex_mounts2; apply in_map, Hq).
    destruct I as [<-|[<-|[<-|[]]]]; reflexivity. }
  pose proof (Z o Ho) as Z1. pose proof (Z o' Ho') as Z2.
  unfold iso_app, iso_mul, iso_inv. cbn [lin tr]. rewrite Z1, Z2.
  unfold mvec, vadd, vneg, vzero; apply vec3_ext; cbn [vx vy vz]; ring.
Qed.
