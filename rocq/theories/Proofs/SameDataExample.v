(** Concrete data for C102: the scene of C78 in half units, other frames, other order and pictures of half the size. *)
From Coq Require Import Reals String List Permutation Lra Lia.
From Verif.Base Require Import Geom Outcome.
From Verif.Model Require Import Pose Covariance Solver HandEye Pnp.
From Verif.Spec Require Import Frames PinHole OracleSpec PnpSpec UniqueSpec SameDataSpec.
From Verif.Proofs Require Import GeomLemmas CovarianceProofs HandEyeProofs PnpProofs UniqueProofs ProjectionProofs UniqueExamples SameDataProofs.
Import ListNotations.
Local Open Scope R_scope.

Definition ex_choices : choices :=
  Choices 2 (iso_trans (V3 0 0 1)) (iso_trans (V3 1 0 0)) (iso_trans (V3 0 (1 / 2) 0)).
Lemma ex_choices_sensible : sensible ex_choices.
Proof. split; [ cbn; lra | split; [ | split ]; apply rigid_trans ]. Qed.
Definition ex_base : iso := iso_trans (V3 7 8 9).
Definition ex_shift : vec2 := V2 (-10) 20.

(** The same observations in the new frames. *)
Definition ex_restate (o : observation vec2) : observation vec2 :=
  Obs (map (fun c => Corr (resized (1 / 2) ex_shift (in_image c))
                          (iso_app (iso_inv (target_frame ex_choices)) (vscale (unit_of_length ex_choices) (in_target c))))
           (correspondence_set o))
      (iso_mul (iso_mul ex_base (in_unit (unit_of_length ex_choices) (to_camera_mount o))) (mount_c ex_choices))
      (iso_mul (iso_mul ex_base (in_unit (unit_of_length ex_choices) (to_target_mount o))) (mount_t ex_choices)).
Definition ex_restate3 (o : observation vec3) : observation vec3 :=
  Obs (map (fun c => Corr (iso_app (iso_inv ex_ahead) (vscale (unit_of_length ex_choices) (in_image c)))
                          (iso_app (iso_inv (target_frame ex_choices)) (vscale (unit_of_length ex_choices) (in_target c))))
           (correspondence_set o))
      (iso_mul (iso_mul ex_base (in_unit (unit_of_length ex_choices) (to_camera_mount o))) (mount_c ex_choices))
      (iso_mul (iso_mul ex_base (in_unit (unit_of_length ex_choices) (to_target_mount o))) (mount_t ex_choices)).
Definition ex_he2' : he_problem2D3D :=
  HEP2 (rev (map ex_restate (h2_observations ex_he2))) (resized_camera (1 / 2) ex_shift ex_k)
       (new_target ex_choices iso_id) (new_camera ex_choices ex_camera) default_he_labels.
Definition ex_he3' : he_problem3D3D :=
  HEP3 (rev (map ex_restate3 (h3_observations ex_he3)))
       (new_target ex_choices iso_id) (iso_mul (new_camera ex_choices ex_camera) ex_ahead) default_he_labels.

Lemma sightings_rev {I} (os : list (observation I)) : Permutation (sightings os) (sightings (rev os)).
Proof.
  unfold sightings. induction os as [|o os IH]; [ apply Permutation_refl | ].
  cbn. rewrite flat_map_app. cbn. rewrite app_nil_r. etransitivity; [ apply Permutation_app_comm | ].
  apply Permutation_app_tail, IH.
Qed.
Lemma ex_base_rigid : rigid ex_base.
Proof. apply rigid_trans. Qed.
Lemma ex_same : same_images ex_choices (1 / 2) ex_shift (sightings (h2_observations ex_he2)) (sightings (h2_observations ex_he2')).
Proof.
  exists (sightings (map ex_restate (h2_observations ex_he2))). split; [ apply sightings_rev | ].
  generalize (h2_observations ex_he2). intros os. induction os as [|o os IH]; [ constructor | ].
  cbn. apply Forall2_app; [ | exact IH ]. cbn [ex_restate correspondence_set]. rewrite map_map.
  induction (correspondence_set o) as [|c cs IHc]; cbn [map]; constructor; [ | exact IHc ].
  split; [ | reflexivity ]. split; [ | reflexivity ]. exists ex_base. split; [ apply ex_base_rigid | split; reflexivity ].
Qed.
Lemma ex_same3 : same_points ex_choices ex_ahead (sightings (h3_observations ex_he3)) (sightings (h3_observations ex_he3')).
Proof.
  exists (sightings (map ex_restate3 (h3_observations ex_he3))). split; [ apply sightings_rev | ].
  generalize (h3_observations ex_he3). intros os. induction os as [|o os IH]; [ constructor | ].
  cbn. apply Forall2_app; [ | exact IH ]. cbn [ex_restate3 correspondence_set]. rewrite map_map.
  induction (correspondence_set o) as [|c cs IHc]; cbn [map]; constructor; [ | exact IHc ].
  split; [ | reflexivity ]. split; [ | reflexivity ]. exists ex_base. split; [ apply ex_base_rigid | split; reflexivity ].
Qed.

(** Shifting a plain pose leaves it plain. *)
Lemma plain_lin S T : lin S = lin T -> plain_pose T -> plain_pose S.
Proof. intros E (H & P). unfold plain_pose, rigid in *. rewrite E. auto. Qed.
Lemma lin_shift v w T : lin (iso_mul (iso_mul (iso_trans v) (in_unit 2 T)) (iso_trans w)) = lin T.
Proof. cbn. rewrite mmul_I_l, mmul_I_r. reflexivity. Qed.
Lemma lin_new_target Z : lin (new_target ex_choices Z) = lin Z.
Proof. cbn. rewrite mT_I, mmul_I_l, mmul_I_r. reflexivity. Qed.
Lemma lin_new_camera X : lin (new_camera ex_choices X) = lin X.
Proof. cbn. rewrite mT_I, mmul_I_l. reflexivity. Qed.
Lemma ex_he2'_plain : plain_obs (h2_observations ex_he2').
Proof.
  intros o Ho. cbn [ex_he2' h2_observations] in Ho. apply in_rev in Ho. apply in_map_iff in Ho as (o0 & <- & Ho).
  destruct (ex_he2_plain o0 Ho) as [P1 P2]. split; [ apply (plain_lin _ (to_camera_mount o0)) | apply (plain_lin _ (to_target_mount o0)) ]; try assumption; apply lin_shift.
Qed.
Lemma ex_he3'_plain : plain_obs (h3_observations ex_he3').
Proof.
  intros o Ho. cbn [ex_he3' h3_observations] in Ho. apply in_rev in Ho. apply in_map_iff in Ho as (o0 & <- & Ho).
  destruct (ex_he3_plain o0 Ho) as [P1 P2]. split; [ apply (plain_lin _ (to_camera_mount o0)) | apply (plain_lin _ (to_target_mount o0)) ]; try assumption; apply lin_shift.
Qed.
Lemma ex_guess_plain' : plain_pose (h2_camera_guess ex_he2') /\ plain_pose (h2_target_guess ex_he2').
Proof.
  split; cbn [ex_he2' h2_camera_guess h2_target_guess].
  - apply (plain_lin _ ex_camera); [ apply lin_new_camera | apply plain_id_tr ].
  - apply (plain_lin _ iso_id); [ apply lin_new_target | apply (plain_id_tr vzero) ].
Qed.
Lemma ex_guess_plain3' : plain_pose (h3_camera_guess ex_he3') /\ plain_pose (h3_target_guess ex_he3').
Proof.
  split; cbn [ex_he3' h3_camera_guess h3_target_guess].
  - apply (plain_lin _ ex_camera); [ | apply plain_id_tr ]. cbn. rewrite mT_I, !mmul_I_l. reflexivity.
  - apply (plain_lin _ iso_id); [ apply lin_new_target | apply (plain_id_tr vzero) ].
Qed.

Lemma half_squares_pos l : 0 <= half_squares l.
Proof. unfold half_squares. induction l as [|x l IH]; cbn; [ lra | nra ]. Qed.
Lemma half_squares_zero l : (forall x, In x l -> x = 0) -> half_squares l = 0.
Proof.
  intros H. unfold half_squares. induction l as [|x l IH]; cbn; [ lra | ].
  rewrite (H x (or_introl eq_refl)). assert (forall x, In x l -> x = 0) by (intros; apply H; right; assumption). specialize (IH H0). lra.
Qed.
Lemma ex_best : best_for_images ex_k (sightings (h2_observations ex_he2)) ex_camera iso_id.
Proof.
  split.
  - split; [ apply rigid_trans | split; [ apply rigid_id | ] ]. intros s Is.
    apply in_flat_map in Is as (o & Io & Is). apply in_map_iff in Is as (c & <- & Ic).
    apply in_map_iff in Io as (W & <- & HW). apply in_map_iff in Ic as (v & <- & Hv).
    apply front_pos. exact (ex_mounts_front W v HW Hv).
  - intros X' Z' _. replace (image_error _ _ _ _) with 0; [ apply half_squares_pos | ].
    symmetry. apply half_squares_zero. intros e He. apply in_flat_map in He as (s & Is & He).
    apply in_flat_map in Is as (o & Io & Is). apply in_map_iff in Is as (c & <- & Ic).
    apply in_map_iff in Io as (W & <- & HW). apply in_map_iff in Ic as (v & <- & Hv).
    cbn [In] in He. unfold seen_at in He. cbn [camera_mount target_mount point measured in_target in_image ex_obs2_at to_camera_mount to_target_mount] in He.
    destruct He as [<-|[<-|[]]]; ring.
Qed.
Lemma ex_best3 : best_in_space (sightings (h3_observations ex_he3)) ex_camera iso_id.
Proof.
  split; [ apply rigid_trans | split; [ apply rigid_id | ] ].
  intros X' Z' _ _. replace (space_error _ _ _) with 0; [ apply half_squares_pos | ].
  symmetry. apply half_squares_zero. intros e He. apply in_flat_map in He as (s & Is & He).
  apply in_flat_map in Is as (o & Io & Is). apply in_map_iff in Is as (c & <- & Ic).
  apply in_map_iff in Io as (W & <- & HW). apply in_map_iff in Ic as (v & <- & Hv).
  cbn [In] in He. unfold seen_at in He. cbn [camera_mount target_mount point measured in_target in_image ex_obs3_at to_camera_mount to_target_mount] in He.
  destruct He as [<-|[<-|[<-|[]]]]; ring.
Qed.

Lemma ex_same_images : exists u solve cov p r p' r' h m d,
  honest solve /\ optimize2D3D u solve cov p = Ok r /\ optimize2D3D u solve cov p' = Ok r' /\
  plain_obs (h2_observations p) /\ plain_obs (h2_observations p') /\
  sensible h /\ h2_intr p' = resized_camera m d (h2_intr p) /\
  same_images h m d (sightings (h2_observations p)) (sightings (h2_observations p')) /\
  best_for_images (h2_intr p) (sightings (h2_observations p)) (he_camera_mount_to_camera r) (he_target_mount_to_target r) /\
  best_for_images (h2_intr p') (sightings (h2_observations p')) (he_camera_mount_to_camera r') (he_target_mount_to_target r').
Proof.
  destruct (ex_he2_ok (fun _ _ => 0) sc_stay) as [r E].
  destruct ex_guess_plain' as [G1 G2].
  assert (B' : best_for_images (h2_intr ex_he2') (sightings (h2_observations ex_he2')) (new_camera ex_choices ex_camera) (new_target ex_choices iso_id)).
  { exact (best_images_same ex_choices _ _ _ _ _ _ _ ex_choices_sensible (plain_mounted _ ex_he2_plain) ex_same ex_best). }
  assert (exists r', optimize2D3D (fun _ _ => 0) sc_stay ex_cov_oracle ex_he2' = Ok r') as [r' E'].
  { apply accept2; try reflexivity; try assumption.
    - apply ex_oracle_lists.
    - apply ex_oracle_sym.
    - apply ex_he2'_plain.
    - discriminate.
    - intros o c Io Ic. destruct B' as ((_ & _ & V) & _).
      apply (V (Sighting (to_camera_mount o) (to_target_mount o) (in_target c) (in_image c))).
      apply in_flat_map. exists o. split; [ exact Io | ]. apply in_map_iff. exists c. auto. }
  destruct (unmoved2 _ _ _ _ _ sc_stay_stays E) as [E1 E2]; [ apply plain_id_tr | apply (plain_id_tr vzero) | ].
  destruct (unmoved2 _ _ _ _ _ sc_stay_stays E' G1 G2) as [E1' E2'].
  exists (fun _ _ => 0), sc_stay, ex_cov_oracle, ex_he2, r, ex_he2', r', ex_choices, (1 / 2), ex_shift.
  split; [ apply sc_stay_honest | split; [ exact E | split; [ exact E' | split; [ apply ex_he2_plain | split; [ apply ex_he2'_plain | ] ] ] ] ].
  split; [ apply ex_choices_sensible | split; [ reflexivity | split; [ apply ex_same | ] ] ].
  rewrite E1, E2, E1', E2'. split; [ apply ex_best | exact B' ].
Qed.
Lemma ex_same_points : exists u solve cov p r p' r' h K,
  honest solve /\ optimize3D3D u solve cov p = Ok r /\ optimize3D3D u solve cov p' = Ok r' /\
  plain_obs (h3_observations p) /\ plain_obs (h3_observations p') /\
  sensible h /\ rigid K /\
  same_points h K (sightings (h3_observations p)) (sightings (h3_observations p')) /\
  best_in_space (sightings (h3_observations p)) (he_camera_mount_to_camera r) (he_target_mount_to_target r) /\
  best_in_space (sightings (h3_observations p')) (he_camera_mount_to_camera r') (he_target_mount_to_target r').
Proof.
  destruct (ex_he3_ok (fun _ _ => 0) sc_stay) as [r E].
  destruct ex_guess_plain3' as [G1 G2].
  assert (B' : best_in_space (sightings (h3_observations ex_he3')) (iso_mul (new_camera ex_choices ex_camera) ex_ahead) (new_target ex_choices iso_id)).
  { exact (best_space_same ex_choices _ _ _ _ _ ex_choices_sensible ex_ahead_rigid (plain_mounted _ ex_he3_plain) ex_same3 ex_best3). }
  assert (exists r', optimize3D3D (fun _ _ => 0) sc_stay ex_cov_oracle ex_he3' = Ok r') as [r' E'].
  { apply accept3; try reflexivity; [ apply ex_oracle_lists | apply ex_oracle_sym | discriminate ]. }
  destruct (unmoved3 _ _ _ _ _ sc_stay_stays E) as [E1 E2]; [ apply plain_id_tr | apply (plain_id_tr vzero) | ].
  destruct (unmoved3 _ _ _ _ _ sc_stay_stays E' G1 G2) as [E1' E2'].
  exists (fun _ _ => 0), sc_stay, ex_cov_oracle, ex_he3, r, ex_he3', r', ex_choices, ex_ahead.
  split; [ apply sc_stay_honest | split; [ exact E | split; [ exact E' | split; [ apply ex_he3_plain | split; [ apply ex_he3'_plain | ] ] ] ] ].
  split; [ apply ex_choices_sensible | split; [ apply ex_ahead_rigid | split; [ apply ex_same3 | ] ] ].
  rewrite E1, E2, E1', E2'. split; [ apply ex_best3 | exact B' ].
Qed.

(** One picture. *)
Definition ex_pnp' : pnp_problem :=
  PnP2 (resized_camera (1 / 2) ex_shift ex_k)
    (rev (map (fun c => Corr (resized (1 / 2) ex_shift (in_image c)) (iso_app (iso_inv (target_frame ex_choices)) (vscale 2 (in_target c))))
              (ex_image2 ex_k ex_ahead)))
    (iso_mul (in_unit 2 ex_ahead) (target_frame ex_choices)) "camera_to_target".
Lemma ex_same_picture : same_picture 2 (target_frame ex_choices) (1 / 2) ex_shift (ex_image2 ex_k ex_ahead) (pnp_correspondences ex_pnp').
Proof.
  eexists. split; [ apply Permutation_rev | ]. generalize (ex_image2 ex_k ex_ahead). intros cs.
  induction cs as [|c cs IH]; cbn [map]; constructor; [ split; reflexivity | exact IH ].
Qed.
Lemma ex_best_pose : best_pose ex_k (ex_image2 ex_k ex_ahead) ex_ahead.
Proof.
  split; [ apply ex_ahead_rigid | split ].
  - intros c Hc. apply in_map_iff in Hc as (v & <- & Hv). apply front_pos, ex_ahead_front, Hv.
  - intros T' _ _. replace (pose_error _ _ ex_ahead) with 0; [ apply half_squares_pos | ].
    symmetry. apply half_squares_zero. intros e He. apply in_flat_map in He as (c & Hc & He).
    apply in_map_iff in Hc as (v & <- & Hv). unfold pixel_error in He. cbn [in_target in_image In] in He.
    destruct He as [<-|[<-|[]]]; ring.
Qed.
Lemma ex_picture_front : all_in_front (pnp_guess ex_pnp') (pnp_correspondences ex_pnp').
Proof.
  intros c Hc. cbn [ex_pnp' pnp_correspondences] in Hc. apply in_rev in Hc. apply in_map_iff in Hc as (c0 & <- & Hc).
  apply in_map_iff in Hc as (v & <- & Hv). cbn [ex_pnp' pnp_guess in_target]. rewrite pose_seen by apply ex_choices_sensible.
  pose proof (ex_ahead_front v Hv). unfold in_front, vscale in *. cbn [vz]. pose proof (front_pos _ (ex_ahead_front v Hv)). lra.
Qed.
Lemma ex_same_pose : exists u solve cov p r p' r' s G m d,
  honest solve /\ optimizePnP u solve cov p = Ok r /\ optimizePnP u solve cov p' = Ok r' /\
  all_in_front (pnp_camera_to_target r) (pnp_correspondences p) /\
  all_in_front (pnp_camera_to_target r') (pnp_correspondences p') /\
  0 < s /\ rigid G /\ pnp_intr p' = resized_camera m d (pnp_intr p) /\
  same_picture s G m d (pnp_correspondences p) (pnp_correspondences p') /\
  best_pose (pnp_intr p) (pnp_correspondences p) (pnp_camera_to_target r) /\
  best_pose (pnp_intr p') (pnp_correspondences p') (pnp_camera_to_target r').
Proof.
  destruct (ex_pnp_at_ok ex_ahead (fun _ _ => 0) sc_stay) as [r E].
  assert (exists r', optimizePnP (fun _ _ => 0) sc_stay ex_cov_oracle ex_pnp' = Ok r') as [r' E'].
  { apply pnp_succeeds2; try reflexivity; [ apply ex_oracle_sym | discriminate ]. }
  assert (RG : rigid (pnp_guess ex_pnp')) by (apply rigid_mul; [ apply ex_ahead_rigid | apply rigid_trans ]).
  pose proof (pnp_unmoved2 _ _ _ _ _ sc_stay_stays E ex_ahead_rigid) as Er.
  pose proof (pnp_unmoved2 _ _ _ _ _ sc_stay_stays E' RG) as Er'.
  exists (fun _ _ => 0), sc_stay, ex_cov_oracle, (ex_pnp_at ex_ahead), r, ex_pnp', r', 2, (target_frame ex_choices), (1 / 2), ex_shift.
  rewrite Er, Er'. split; [ apply sc_stay_honest | split; [ exact E | split; [ exact E' | split ] ] ].
  - intros c Hc. apply in_map_iff in Hc as (v & <- & Hv). apply ex_ahead_front, Hv.
  - split; [ apply ex_picture_front | split; [ lra | split; [ apply rigid_trans | split; [ reflexivity | split; [ apply ex_same_picture | split; [ apply ex_best_pose | ] ] ] ] ] ].
    refine (best_pose_same 2 (target_frame ex_choices) (1 / 2) ex_shift ex_k _ _ ex_ahead _ _ ex_same_picture ex_best_pose); [ lra | apply rigid_trans ].
Qed.
