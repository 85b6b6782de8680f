(** Concrete data for C107: two wrists of two joints, with everything to be found, and with the chains and the bases held. *)
From Coq Require Import Reals Lra ZArith Arith Lia String List.
From Verif.Base Require Import Geom Outcome Matrix.
From Verif.Model Require Import Pose Covariance Solver HandEye DhChain LocalParam Kinematic.
From Verif.Spec Require Import CovarianceSpec PinHole PnpSpec Frames FreezeSpec KinSpec KinReport OracleSpec KinExampleSpec UniqueSpec SameDataSpec RedundancySpec KinUniqueSpec KinFitSpec.
From Verif.Proofs Require Import GeomLemmas RotLemmas AngleAxisLemmas PoseProofs CovarianceProofs ListLemmas DhProofs PnpProofs
  HandEyeProofs KinematicProofs KinematicCall UniqueLemmas UniqueProofs UniqueExamples UniqueMultiExamples UniqueKinematic UniqueKinematicExample SameDataProofs SameDataExample KinFitProofs.
Import ListNotations.
Local Open Scope R_scope.

Definition eight : list Z := [0; 1; 2; 3; 4; 5; 6; 7]%Z.
Definition held_masks : list (list Z) := [eight; eight; []; []; []; []; [0; 1; 2]; [0; 1; 2]]%Z.
Definition fit_common (masks : list (list Z)) : kin_common :=
  KC sc_wrist sc_wrist ex_camera iso_id iso_id masks (1/1000) (1/1000) "camera"%string "target"%string "base"%string.
Definition fit_images (masks : list (list Z)) : kin_problem2D3D := KP2 (map sc_observation sc_target_turns) ex_k (fit_common masks).
Definition fit_poses (masks : list (list Z)) : kin_problemPose6D := KP6 (map sc_measurement sc_target_turns) (fit_common masks).
Definition free_masks : list (list Z) := [[]; []; []; []; []; []; []; []].
Definition either (masks : list (list Z)) : Prop := masks = held_masks \/ masks = free_masks.
Lemma fit_masks masks : either masks -> masks_fit (fit_common masks).
Proof.
  intros [ -> | -> ]; (split; [ reflexivity | ]); intros k m z E Hz; do 8 (destruct k as [ | k ]; [ injection E as <-; cbn in Hz; cbn; lia | ]); destruct k; discriminate E.
Qed.
Lemma fit_guesses masks : guesses_plain (fit_common masks).
Proof. exact sc_guesses. Qed.
Lemma sc_turns_all : incl sc_target_turns sc_all.
Proof. intros x Hx. apply in_or_app. left. exact Hx. Qed.
Lemma fit_images_ok masks : either masks -> exists r, kin_optimize2D3D sc_u sc_kin_still ex_cov_oracle (fit_images masks) = Ok r.
Proof.
  intros M. apply kin2_succeeds; [ apply ex_oracle_lists | apply fit_masks, M | reflexivity | reflexivity | apply ex_oracle_sym | discriminate | ].
  intros oc Ho. apply in_flat_map in Ho as (o & Ho & Hc). apply in_map_iff in Hc as (c & <- & _).
  apply in_map_iff in Ho as (x & <- & Hx). apply (sc_fits x (sc_turns_all x Hx)).
Qed.
Lemma fit_poses_ok masks w : either masks -> exists r, kin_optimizePose6D sc_u sc_kin_still ex_cov_oracle (fit_poses masks) w = Ok r.
Proof.
  intros M. apply kin6_succeeds; [ apply ex_oracle_lists | apply fit_masks, M | reflexivity | reflexivity | apply ex_oracle_sym | discriminate | ].
  intros o Ho. apply in_map_iff in Ho as (x & <- & Hx). apply (sc_fits x (sc_turns_all x Hx)).
Qed.
Lemma fit_images_estimate masks r : either masks -> kin_optimize2D3D sc_u sc_kin_still ex_cov_oracle (fit_images masks) = Ok r ->
  same_estimate (result_estimate r) sc_truth.
Proof.
  intros M E. destruct (kin2_right ex_cov_oracle (fit_images masks) ex_oracle_lists (fit_masks masks M)) as (rs & p & _ & K).
  destruct (K sc_u sc_kin_still _ _ r eq_refl E) as (SE & _). exact (same_estimate_trans _ _ _ SE (start_estimate _ (fit_guesses masks))).
Qed.
Lemma fit_poses_estimate masks w r : either masks -> kin_optimizePose6D sc_u sc_kin_still ex_cov_oracle (fit_poses masks) w = Ok r ->
  same_estimate (result_estimate r) sc_truth.
Proof.
  intros M E. destruct (kin6_right ex_cov_oracle (fit_poses masks) w ex_oracle_lists (fit_masks masks M)) as (rs & p & _ & K).
  destruct (K sc_u sc_kin_still _ _ r eq_refl E) as (SE & _). exact (same_estimate_trans _ _ _ SE (start_estimate _ (fit_guesses masks))).
Qed.
Lemma turns_as_hand_eye masks : Forall2 (as_hand_eye (fit_common masks)) (k2_observations (fit_images masks)) (h2_observations ex_he2).
Proof.
  assert (K : forall q1 q2 W, sc_tip q1 q2 = W -> as_hand_eye (fit_common masks) (sc_observation ([0; 0], [q1; q2], W)) (ex_obs2_at W)).
  { intros q1 q2 W <-. exists iso_id, (sc_tip q1 q2). split; [ rewrite <- sc_tip_0; apply sc_tips | ].
    split; [ reflexivity | split; [ symmetry; apply iso_mul_id_l | ] ]. cbn [ex_obs2_at sc_observation correspondence_set ko_correspondence_set snd].
    rewrite ex_view_eq. reflexivity. }
  cbn [fit_images k2_observations sc_target_turns map ex_he2 h2_observations ex_mounts].
  constructor; [ apply K, sc_tip_0 | constructor; [ apply K, sc_tip_x | constructor; [ apply K | constructor ] ] ].
  rewrite sc_tip_y, Ropp_involutive. reflexivity.
Qed.
Lemma ex_clear_view : clear_view (sightings (h2_observations ex_he2)) ex_camera iso_id.
Proof.
  split; [ apply rigid_trans | split; [ apply rigid_id | ] ]. intros s Hs. apply in_flat_map in Hs as (o & Ho & Hs).
  apply in_map_iff in Ho as (W & <- & HW). apply in_map_iff in Hs as (c & <- & Hc). apply in_map_iff in Hc as (v & <- & Hv).
  exact (ex_mounts_front W v HW Hv).
Qed.
Lemma ex_view_exact : image_error ex_k (sightings (h2_observations ex_he2)) ex_camera iso_id = 0.
Proof.
  apply half_squares_all_zero. intros x Hx. apply in_flat_map in Hx as (s & Hs & Hx). apply in_flat_map in Hs as (o & Ho & Hs).
  apply in_map_iff in Ho as (W & <- & HW). apply in_map_iff in Hs as (c & <- & Hc). apply in_map_iff in Hc as (v & <- & Hv).
  unfold seen_at in Hx. cbn [camera_mount target_mount point measured to_camera_mount to_target_mount in_target in_image ex_obs2_at In] in Hx.
  destruct Hx as [ <- | [ <- | [] ] ]; ring.
Qed.
Lemma sc_truth_plain masks : sc_truth = plain_estimate (fit_common masks) ex_camera iso_id.
Proof. reflexivity. Qed.
Lemma fit_images_best masks r : either masks -> kin_optimize2D3D sc_u sc_kin_still ex_cov_oracle (fit_images masks) = Ok r ->
  best_estimate (fit_common masks) (image_errors (fit_images masks)) (result_estimate r).
Proof.
  intros M E. pose proof (fit_images_estimate masks r M E) as SE.
  split; [ apply (images_report sc_u sc_kin_still ex_cov_oracle (fit_images masks) r sc_kin_honest sc_kin_keeps ex_oracle_lists (fit_masks masks M) E) | ].
  exists 0. split; [ | intros e' c' _ W; exact (whole_nonneg _ _ _ _ W) ].
  apply (whole_same _ _ _ _ _ (image_stable (fit_images masks)) SE eq_refl eq_refl). rewrite <- ex_view_exact, (sc_truth_plain masks).
  apply (hand_eye_error (fit_common masks) ex_k _ _ _ _ (turns_as_hand_eye masks) ex_clear_view).
Qed.
Lemma fit_poses_best masks w r : either masks -> w <> 0 -> kin_optimizePose6D sc_u sc_kin_still ex_cov_oracle (fit_poses masks) w = Ok r ->
  best_estimate (fit_common masks) (pose_errors w (fit_poses masks)) (result_estimate r).
Proof.
  intros M Hw E. pose proof (fit_poses_estimate masks w r M E) as SE.
  split; [ apply (poses_report sc_u sc_kin_still ex_cov_oracle (fit_poses masks) w r sc_kin_honest sc_kin_keeps ex_oracle_lists (fit_masks masks M) E) | ].
  exists 0. split; [ | intros e' c' _ W; exact (whole_nonneg _ _ _ _ W) ].
  apply (whole_same _ _ _ _ _ (pose_stable w (fit_poses masks)) SE eq_refl eq_refl).
  assert (RE : rigid_estimate sc_truth) by (split; [ apply rigid_trans | split; apply rigid_id ]).
  assert (X : forall o, In o (k6_observations (fit_poses masks)) -> exact_values (KinReport.pose_error w (fit_common masks) sc_truth o)).
  { intros o Ho. assert (P : predicts sc_wrist sc_wrist sc_truth o (km_camera_to_target o)) by exact (sc_predicts sc_target_turns o sc_turns_all Ho).
    apply (pose_exact w (fit_common masks) sc_truth o Hw sc_base sc_base RE); [ | exact P ].
    apply (places_rigid sc_wrist sc_wrist sc_truth (measured_at o) _ sc_base sc_base RE). exact P. }
  unfold whole_error, pose_errors.
  assert (Y : exists vs, Forall2 (fun x v => x = Ok v) (map (KinReport.pose_error w (fit_common masks) sc_truth) (k6_observations (fit_poses masks))) vs /\ zeros (concat vs)).
  { revert X. change (k6_common (fit_poses masks)) with (fit_common masks). generalize (k6_observations (fit_poses masks)). intros l X.
    induction l as [ | o l IH ]; [ exists []; split; [ constructor | intros x [] ] | ].
    destruct (X o (or_introl eq_refl)) as (v & Ev & Zv). destruct IH as (vs & F & Zs); [ intros o' Ho'; apply X; right; exact Ho' | ].
    exists (v :: vs). split; [ constructor; assumption | ]. intros x Hx. cbn [concat] in Hx. apply in_app_or in Hx as [ Hx | Hx ]; auto. }
  destruct Y as (vs & F & Zs). exists vs. split; [ exact F | ]. rewrite (half_squares_all_zero _ Zs).
  cbn [sc_truth as_designed ke_camera_offsets ke_target_offsets]. rewrite !offset_error_none. ring.
Qed.
Lemma held_holds : chains_held (fit_common held_masks) /\ bases_held (fit_common held_masks) /\ mounts_free (fit_common held_masks).
Proof.
  split; [ | split ].
  - intros k i [ -> | -> ] Hi; left; cbn in Hi; unfold masked; cbn; lia.
  - intros k i [ -> | -> ] Hi; unfold masked; cbn; lia.
  - intros k i Hk H. unfold masked in H. do 2 (destruct k as [ | k ]; [ lia | ]). do 4 (destruct k as [ | k ]; [ destruct H | ]). lia.
Qed.
Lemma free_free : mounts_free (fit_common free_masks).
Proof. intros k i Hk H. unfold masked in H. do 8 (destruct k as [ | k ]; [ destruct H | ]). lia. Qed.
Lemma free_less : holds_less (fit_common held_masks) (fit_common free_masks).
Proof.
  intros k i [ H | H ]; [ | right; exact H ]. unfold masked in H. do 8 (destruct k as [ | k ]; [ destruct H | ]). destruct k; destruct H.
Qed.
Lemma plain_turns T : rigid T -> lin T = I3 -> turns_enough T.
Proof. intros A B. split; [ exact A | left; exact B ]. Qed.

Lemma ex_freedom : exists u solve cov p r p' r' w q s q' s',
  honest_kin solve /\ keeps_frozen solve /\ lists_blocks cov /\ masks_fit (k2_common p) /\ masks_fit (k2_common p') /\
  kin_optimize2D3D u solve cov p = Ok r /\ kin_optimize2D3D u solve cov p' = Ok r' /\
  k2_observations p' = k2_observations p /\ k2_intr p' = k2_intr p /\
  same_setup (k2_common p) (k2_common p') /\ holds_less (k2_common p) (k2_common p') /\
  best_estimate (k2_common p') (image_errors p') (result_estimate r') /\
  chains_held (k2_common p) /\ any_free (k2_common p') 0 /\ any_free (k2_common p') 1 /\
  k6_common q = k2_common p /\ k6_common q' = k2_common p' /\ k6_observations q' = k6_observations q /\
  kin_optimizePose6D u solve cov q w = Ok s /\ kin_optimizePose6D u solve cov q' w = Ok s' /\
  best_estimate (k6_common q') (pose_errors w q') (result_estimate s').
Proof.
  destruct (fit_images_ok held_masks (or_introl eq_refl)) as [r E], (fit_images_ok free_masks (or_intror eq_refl)) as [r' E'].
  destruct (fit_poses_ok held_masks 100 (or_introl eq_refl)) as [s Es], (fit_poses_ok free_masks 100 (or_intror eq_refl)) as [s' Es'].
  assert (W : 100 <> 0) by lra.
  assert (AF : forall k, (k = 0 \/ k = 1)%nat -> any_free (fit_common free_masks) k).
  { intros k [ -> | -> ]; exists 0%nat; (split; [ cbn; lia | ]); intros [ [] | [ [ _ X ] | [ _ X ] ] ]; discriminate X. }
  exists sc_u, sc_kin_still, ex_cov_oracle, (fit_images held_masks), r, (fit_images free_masks), r', 100, (fit_poses held_masks), s, (fit_poses free_masks), s'.
  repeat match goal with |- _ /\ _ => split end;
    first [ exact sc_kin_honest | exact sc_kin_keeps | apply ex_oracle_lists | apply (fit_masks held_masks), or_introl, eq_refl | apply (fit_masks free_masks), or_intror, eq_refl
      | exact E | exact E' | exact Es | exact Es' | exact free_less | exact (proj1 held_holds) | apply AF; auto
      | exact (fit_images_best free_masks r' (or_intror eq_refl) E') | exact (fit_poses_best free_masks 100 s' (or_intror eq_refl) W Es') | reflexivity | idtac ].
  repeat split.
Qed.
Lemma ex_kin_hand_eye : exists u solve cov p r hr hs u' solve' cov' q,
  honest_kin solve /\ keeps_frozen solve /\ lists_blocks cov /\ masks_fit (k2_common p) /\
  kin_optimize2D3D u solve cov p = Ok r /\ best_estimate (k2_common p) (image_errors p) (result_estimate r) /\
  mounts_free (k2_common p) /\ chains_held (k2_common p) /\ bases_held (k2_common p) /\
  turns_enough (kc_camera_base_to_target_base_guess (k2_common p)) /\
  (2 <= List.length hs)%nat /\ Forall2 (as_hand_eye (k2_common p)) (k2_observations p) hs /\
  clear_view (sightings hs) (kr_camera_mount_to_camera r) (kr_target_mount_to_target r) /\
  honest solve' /\ optimize2D3D u' solve' cov' q = Ok hr /\ h2_intr q = k2_intr p /\ h2_observations q = hs /\ plain_obs hs /\
  best_for_images (k2_intr p) (sightings hs) (he_camera_mount_to_camera hr) (he_target_mount_to_target hr) /\
  clear_view (sightings hs) (he_camera_mount_to_camera hr) (he_target_mount_to_target hr) /\
  turns_enough (he_camera_mount_to_camera hr) /\ turns_enough (he_target_mount_to_target hr).
Proof.
  destruct (fit_images_ok held_masks (or_introl eq_refl)) as [r E].
  destruct (ex_he2_ok (fun _ _ => 0) sc_stay) as [hr Eh].
  destruct (unmoved2 _ _ _ _ _ sc_stay_stays Eh) as [E1 E2]; [ apply plain_id_tr | apply (plain_id_tr vzero) | ].
  destruct (fit_images_estimate held_masks r (or_introl eq_refl) E) as (K1 & K2 & _).
  cbn [result_estimate ke_camera_mount_to_camera ke_target_mount_to_target sc_truth as_designed] in K1, K2.
  exists sc_u, sc_kin_still, ex_cov_oracle, (fit_images held_masks), r, hr, (h2_observations ex_he2), (fun _ _ => 0), sc_stay, ex_cov_oracle, ex_he2.
  rewrite K1, K2, E1, E2. cbn [ex_he2 h2_camera_guess h2_target_guess].
  repeat match goal with |- _ /\ _ => split end;
    first [ exact sc_kin_honest | exact sc_kin_keeps | apply ex_oracle_lists | apply (fit_masks held_masks), or_introl, eq_refl | exact E
      | exact (fit_images_best held_masks r (or_introl eq_refl) E) | apply held_holds | exact (turns_as_hand_eye held_masks) | exact ex_clear_view
      | apply sc_stay_honest | exact Eh | exact ex_he2_plain | exact ex_best | apply plain_turns; [ apply rigid_trans | reflexivity ]
      | apply plain_turns; [ apply rigid_id | reflexivity ] | reflexivity | cbn; lia ].
Qed.
