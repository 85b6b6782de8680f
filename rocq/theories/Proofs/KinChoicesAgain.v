(** Data for C115: the wrists of KinFitExample, described in other frames and units, in another order. *)
From Coq Require Import Reals Lra ZArith Arith Lia String List Permutation.
From Verif.Base Require Import Geom Outcome Matrix.
From Verif.Model Require Import Pose Covariance Solver HandEye DhChain LocalParam Kinematic.
From Verif.Spec Require Import PinHole PnpSpec Frames DhSpec KinSpec KinReport OracleSpec KinExampleSpec UniqueSpec SameDataSpec RedundancySpec KinUniqueSpec KinFitSpec KinChoicesSpec.
From Verif.Proofs Require Import GeomLemmas RotLemmas AngleAxisLemmas PoseProofs ListLemmas DhProofs KinematicProofs KinematicCall HandEyeProofs UniqueExamples UniqueMultiExamples UniqueKinematic UniqueKinematicExample
  SameDataProofs KinFitProofs KinFitExample KinChoicesProofs KinChoicesExample.
Import ListNotations.
Local Open Scope R_scope.

Definition again_base : iso := Iso quarter (V3 1 2 3).
Definition again (s : R) (C : iso) : kin_choices := KinChoices s again_base again_base C (iso_trans (V3 4 5 6)).
Definition again_transform (s : R) (t : dh_transform) : dh_transform :=
  DHT (params_anew s (params t)) (jtype t) (jmax t) (jmin t) (jname t) (random_seed t).
Definition again_chain (s : R) : dh_chain :=
  DHChain (map (again_transform s) (transforms sc_wrist)) (iso_mul again_base (in_unit s (base_offset sc_wrist))).
Definition again_common (s : R) (C : iso) (masks : list (list Z)) (sd : R) : kin_common :=
  KC (again_chain s) (again_chain s) (camera_anew (again s C) ex_camera) (target_anew (again s C) iso_id) iso_id masks sd sd
     "camera"%string "target"%string "base"%string.
Definition again_observation (s m : R) (d : vec2) (x : list R * list R * iso) : kin_observation vec2 :=
  KObs (fst (fst x)) (snd (fst x)) (map (fun c => Corr (resized m d (in_image c))
    (iso_app (iso_inv (iso_trans (V3 4 5 6))) (vscale s (in_target c)))) (ex_picture (snd x))).
Definition again_measurement (s : R) (C : iso) (x : list R * list R * iso) : kin_measurement :=
  KMeas (iso_mul (iso_inv C) (iso_mul (in_unit s (ex_view (snd x))) (iso_trans (V3 4 5 6)))) (fst (fst x)) (snd (fst x)).
Definition again_images s m d masks sd : kin_problem2D3D :=
  KP2 (rev (map (again_observation s m d) sc_target_turns)) (resized_camera m d ex_k) (again_common s iso_id masks sd).
Definition again_poses s C masks sd : kin_problemPose6D :=
  KP6 (rev (map (again_measurement s C) sc_target_turns)) (again_common s C masks sd).

Lemma again_sensible s C : 0 < s -> rigid C -> kin_sensible (again s C).
Proof. intros Hs HC. split; [ exact Hs | split; [ exact quarter_rot | split; [ exact quarter_rot | split; [ exact HC | apply rigid_trans ] ] ] ]. Qed.
Lemma again_chains s : chain_anew again_base s sc_wrist (again_chain s).
Proof. split; [ | reflexivity ]. cbn [again_chain transforms]. induction (transforms sc_wrist) as [|t l IH]; constructor; [ split; reflexivity | exact IH ]. Qed.
Lemma again_bases s C T : T = iso_id -> bases_anew (again s C) T = iso_id.
Proof.
  intros ->. unfold bases_anew. cbn [again kin_unit old_camera_base old_target_base]. rewrite in_unit_id, iso_mul_id_r. apply iso_inv_r. exact quarter_rot.
Qed.
Lemma quarter_aa : quarter = aa_matrix (PI / 2) unitZ.
Proof. rewrite aa_Z, cos_PI2, sin_PI2. reflexivity. Qed.
Definition plain_turn (C : iso) : Prop := lin C = I3 \/ lin C = quarter.
Lemma plain_turn_rigid C : plain_turn C -> rigid C.
Proof. intros [E|E]; unfold rigid; rewrite E; [ apply is_rot_I | apply quarter_rot ]. Qed.
Lemma plain_turn_enough C : plain_turn C -> turns_enough C.
Proof.
  intros H. split; [ apply plain_turn_rigid, H | ]. destruct H as [H|H]; [ left; exact H | right ].
  exists (PI / 2), unitZ. pose proof PI_RGT_0. pose proof PI2_1. split; [ unfold dot, unitZ; cbn; ring | split; [ rewrite H; apply quarter_aa | ] ].
  split; [ lra | ]. apply Rlt_trans with 1; [ unfold DBL_EPS; lra | lra ].
Qed.
Lemma again_guesses s C masks sd : plain_turn C -> guesses_plain (again_common s C masks sd).
Proof.
  intros HC. split; [ | split ]; cbn [again_common kc_camera_mount_to_camera_guess kc_target_mount_to_target_guess kc_camera_base_to_target_base_guess].
  - apply plain_turn_enough. unfold camera_anew, plain_turn. cbn [again kin_unit kin_camera]. unfold iso_mul, in_unit, ex_camera, iso_trans. cbn [lin].
    rewrite mmul_I_l. exact HC.
  - apply plain_turn_enough. left. unfold target_anew. cbn [again kin_unit kin_target]. rewrite in_unit_id, iso_mul_id_l. reflexivity.
  - apply turns_id.
Qed.
Lemma either_pose masks k f g g' : either masks -> (k = 2 \/ k = 4)%nat -> pose_anew (fit_common masks) k f g g'.
Proof.
  intros M K. left. intros i Hi. destruct M as [-> | ->]; destruct K as [-> | ->]; split; intros [].
Qed.
Lemma again_frames s C masks sd : either masks -> plain_turn C -> frames_anew (again s C) (fit_common masks) (again_common s C masks sd).
Proof.
  intros M HC. split; [ apply again_chains | split; [ apply again_chains | split; [ exact sc_base | split; [ exact sc_base | split; [ intros k i; reflexivity | ] ] ] ] ].
  split; [ | split ].
  - apply (either_pose masks 2); auto.
  - apply (either_pose masks 4); auto.
  - destruct M as [-> | ->].
    + right. left. split; [ apply turns_id | split; [ apply turns_id | split; [ symmetry; apply again_bases; reflexivity | ] ] ].
      intros i Hi. split; unfold masked; cbn; lia.
    + left. intros i Hi. split; intros [].
Qed.
Lemma again_prior q s masks sd k : either masks -> (k = 0 \/ k = 1)%nat -> (masks = held_masks \/ s = 1) -> q * sd = 1/1000 ->
  prior_anew q s (fit_common masks) k sc_wrist (1/1000) sd.
Proof.
  intros M K H Q. destruct H as [-> | ->]; [ right; right | left; split; [ exact Q | left; reflexivity ] ].
  destruct (proj1 held_holds k 0%nat K) as [H|H]; [ destruct K as [-> | ->]; cbn; lia | | destruct H as [[_ H]|[_ H]]; discriminate H ].
  split; intros i j Hi Hj; apply (proj1 held_holds k _ K); destruct K as [-> | ->]; cbn in *; lia.
Qed.
Lemma again_setup q s C masks sd : either masks -> plain_turn C -> (masks = held_masks \/ s = 1) -> q * sd = 1/1000 ->
  setup_anew (again s C) q (fit_common masks) (again_common s C masks sd).
Proof.
  intros M HC H Q. split; [ apply again_frames; assumption | ].
  split; [ exact (again_prior q s masks sd 0 M (or_introl eq_refl) H Q) | exact (again_prior q s masks sd 1 M (or_intror eq_refl) H Q) ].
Qed.
Lemma again_joints s q : (List.length q <= 2)%nat -> joints_anew s sc_wrist q q.
Proof.
  intros L. split; [ reflexivity | ]. intros [|[|i]] t v Et Ev; [ injection Et as <-; exact Ev | injection Et as <-; exact Ev | destruct i; discriminate Et ].
Qed.
Lemma turns_two x : In x sc_target_turns -> (List.length (fst (fst x)) <= 2)%nat /\ (List.length (snd (fst x)) <= 2)%nat.
Proof. intros H. destruct (sc_fits x (sc_turns_all x H)) as (A & _ & B & _). split; assumption. Qed.
Lemma again_images_anew s m d masks sd : images_anew (again s iso_id) m d (fit_images masks) (again_images s m d masks sd).
Proof.
  split; [ reflexivity | ]. exists (kin_pairs (map (again_observation s m d) sc_target_turns)). split.
  - cbn [again_images k2_observations]. apply Permutation_flat_map, Permutation_rev.
  - cbn [fit_images k2_observations k2_common]. assert (L : forall x, In x sc_target_turns -> In x sc_target_turns) by auto. revert L.
    generalize sc_target_turns at 1 3 4. intros l. induction l as [|x l IH]; intros L; [ constructor | ].
    cbn [map kin_pairs flat_map]. apply Forall2_app; [ | apply IH; intros y Hy; apply L; right; exact Hy ].
    destruct (turns_two x (L x (or_introl eq_refl))) as [J1 J2].
    cbn [again_observation ko_correspondence_set sc_observation]. induction (ex_picture (snd x)) as [|c cs IHc]; [ constructor | ].
    cbn [map]. constructor; [ | ].
    + split; [ apply again_joints, J1 | split; [ apply again_joints, J2 | split; reflexivity ] ].
    + assert (G : forall A B : list (correspondence vec2), Forall2 (fun a b => in_target b = iso_app (iso_inv (iso_trans (V3 4 5 6))) (vscale s (in_target a)) /\ in_image b = resized m d (in_image a)) A B ->
        forall o o', ko_camera_chain_joints o = fst (fst x) -> ko_target_chain_joints o = snd (fst x) -> ko_camera_chain_joints o' = fst (fst x) -> ko_target_chain_joints o' = snd (fst x) ->
        Forall2 (image_anew (again s iso_id) m d (fit_common masks)) (map (fun c => (o, c)) A) (map (fun c => (o', c)) B)).
      { induction 1 as [|a b A B [E1 E2] F IHf]; intros o o' O1 O2 O3 O4; cbn [map]; constructor; [ | apply IHf; assumption ].
        split; [ cbn [fst]; rewrite O1, O3; apply again_joints, J1 | split; [ cbn [fst]; rewrite O2, O4; apply again_joints, J2 | split; assumption ] ]. }
      apply G; try reflexivity. clear. induction cs as [|c cs IH]; cbn [map]; constructor; [ split; reflexivity | exact IH ].
Qed.
Lemma again_poses_anew s C masks sd : poses_anew (again s C) (fit_poses masks) (again_poses s C masks sd).
Proof.
  exists (map (again_measurement s C) sc_target_turns). split; [ apply Permutation_rev | ].
  cbn [fit_poses k6_observations k6_common]. assert (L : forall x, In x sc_target_turns -> In x sc_target_turns) by auto. revert L.
  generalize sc_target_turns at 1 3 4. intros l. induction l as [|x l IH]; intros L; [ constructor | ].
  cbn [map]. constructor; [ | apply IH; intros y Hy; apply L; right; exact Hy ].
  destruct (turns_two x (L x (or_introl eq_refl))) as [J1 J2].
  split; [ apply again_joints, J1 | split; [ apply again_joints, J2 | split; [ | reflexivity ] ] ].
  cbn [sc_measurement km_camera_to_target].
  assert (RE : rigid_estimate sc_truth) by (split; [ apply rigid_trans | split; apply rigid_id ]).
  refine (places_rigid sc_wrist sc_wrist sc_truth (fst x) _ sc_base sc_base RE (sc_places x (sc_turns_all x (L x (or_introl eq_refl))))).
Qed.

(** ** Calibrating again *)
Lemma again_masks s C masks sd : either masks -> masks_fit (again_common s C masks sd).
Proof.
  intros [ -> | -> ]; (split; [ reflexivity | ]); intros k m z E Hz; do 8 (destruct k as [ | k ]; [ injection E as <-; cbn in Hz; cbn; lia | ]); destruct k; discriminate E.
Qed.
Lemma again_known s n : known_types (again_chain s) n.
Proof. intros i t _ E. destruct i as [|[|i]]; [ injection E as <-; discriminate | injection E as <-; discriminate | destruct i; discriminate E ]. Qed.
Lemma again_images_ok s m d masks sd : either masks -> exists r, kin_optimize2D3D sc_u sc_kin_still ex_cov_oracle (again_images s m d masks sd) = Ok r.
Proof.
  intros M. apply kin2_succeeds; [ apply ex_oracle_lists | apply again_masks, M | reflexivity | reflexivity | apply ex_oracle_sym | discriminate | ].
  intros oc Ho. apply in_flat_map in Ho as (o & Ho & Hc). apply in_map_iff in Hc as (c & <- & _).
  apply in_rev, in_map_iff in Ho as (x & <- & Hx). destruct (turns_two x Hx) as [A B].
  split; [ exact A | split; [ apply again_known | split; [ exact B | apply again_known ] ] ].
Qed.
Lemma again_poses_ok s C masks sd w : either masks -> exists r, kin_optimizePose6D sc_u sc_kin_still ex_cov_oracle (again_poses s C masks sd) w = Ok r.
Proof.
  intros M. apply kin6_succeeds; [ apply ex_oracle_lists | apply again_masks, M | reflexivity | reflexivity | apply ex_oracle_sym | | ].
  { intros E. apply (f_equal (@List.length _)) in E. cbn [again_poses k6_observations] in E. rewrite rev_length, map_length in E. discriminate E. }
  intros o Ho. apply in_rev, in_map_iff in Ho as (x & <- & Hx). destruct (turns_two x Hx) as [A B].
  split; [ exact A | split; [ apply again_known | split; [ exact B | apply again_known ] ] ].
Qed.
Lemma again_truth s C masks sd : same_estimate (guess_estimate (again_common s C masks sd)) (estimate_anew (again s C) sc_truth).
Proof.
  split; [ reflexivity | split; [ reflexivity | split; [ symmetry; apply again_bases; reflexivity | ] ] ].
  split; (split; [ reflexivity | split; [ reflexivity | ] ]); intros i j Hi Hj; cbn; destruct (Nat.even j); ring.
Qed.
Lemma again_images_estimate s m d masks sd r : either masks -> kin_optimize2D3D sc_u sc_kin_still ex_cov_oracle (again_images s m d masks sd) = Ok r ->
  same_estimate (result_estimate r) (estimate_anew (again s iso_id) sc_truth).
Proof.
  intros M E. destruct (kin2_right ex_cov_oracle (again_images s m d masks sd) ex_oracle_lists (again_masks s iso_id masks sd M)) as (rs & p & _ & K).
  destruct (K sc_u sc_kin_still _ _ r eq_refl E) as (SE & _).
  refine (same_estimate_trans _ _ _ (same_estimate_trans _ _ _ SE (start_estimate _ (again_guesses s iso_id masks sd (or_introl eq_refl)))) (again_truth _ _ _ _)).
Qed.
Lemma again_poses_estimate s C masks sd w r : either masks -> plain_turn C -> kin_optimizePose6D sc_u sc_kin_still ex_cov_oracle (again_poses s C masks sd) w = Ok r ->
  same_estimate (result_estimate r) (estimate_anew (again s C) sc_truth).
Proof.
  intros M HC E. destruct (kin6_right ex_cov_oracle (again_poses s C masks sd) w ex_oracle_lists (again_masks s C masks sd M)) as (rs & p & _ & K).
  destruct (K sc_u sc_kin_still _ _ r eq_refl E) as (SE & _).
  refine (same_estimate_trans _ _ _ (same_estimate_trans _ _ _ SE (start_estimate _ (again_guesses s C masks sd HC))) (again_truth _ _ _ _)).
Qed.
Lemma truth_best masks : either masks -> best_estimate (fit_common masks) (image_errors (fit_images masks)) sc_truth /\
  best_estimate (fit_common masks) (pose_errors 100 (fit_poses masks)) sc_truth.
Proof.
  intros M. split.
  - destruct (fit_images_ok masks M) as [r E]. refine (proj1 (best_same _ _ _ sc_truth (image_stable _) eq_refl eq_refl (fit_images_estimate masks r M E)) (fit_images_best masks r M E)).
  - destruct (fit_poses_ok masks 100 M) as [r E]. assert (W : 100 <> 0) by lra.
    refine (proj1 (best_same _ _ _ sc_truth (pose_stable _ _) eq_refl eq_refl (fit_poses_estimate masks 100 r M E)) (fit_poses_best masks 100 r M W E)).
Qed.
Lemma ex_images_again : exists h m d p p' u solve cov r u' solve' cov' r',
  kin_sensible h /\ kin_unit h = 1 /\ kin_camera h = iso_id /\ m <> 0 /\ m <> 1 /\
  setup_anew h m (k2_common p) (k2_common p') /\ images_anew h m d p p' /\
  (forall k i, ~ masked (k2_common p) k i) /\ (2 <= List.length (k2_observations p))%nat /\
  honest_kin solve /\ keeps_frozen solve /\ lists_blocks cov /\ masks_fit (k2_common p) /\ kin_optimize2D3D u solve cov p = Ok r /\
  honest_kin solve' /\ keeps_frozen solve' /\ lists_blocks cov' /\ masks_fit (k2_common p') /\ kin_optimize2D3D u' solve' cov' p' = Ok r' /\
  best_estimate (k2_common p) (image_errors p) (result_estimate r) /\ best_estimate (k2_common p') (image_errors p') (result_estimate r').
Proof.
  assert (M : either free_masks) by (right; reflexivity).
  destruct (fit_images_ok free_masks M) as [r E]. destruct (again_images_ok 1 2 (V2 10 20) free_masks (1/2000) M) as [r' E'].
  assert (Hh : kin_sensible (again 1 iso_id)) by (apply again_sensible; [ lra | apply rigid_id ]).
  assert (S : setup_anew (again 1 iso_id) 2 (fit_common free_masks) (again_common 1 iso_id free_masks (1/2000))).
  { apply again_setup; [ exact M | left; reflexivity | right; reflexivity | lra ]. }
  exists (again 1 iso_id), 2, (V2 10 20), (fit_images free_masks), (again_images 1 2 (V2 10 20) free_masks (1/2000)), sc_u, sc_kin_still, ex_cov_oracle, r, sc_u, sc_kin_still, ex_cov_oracle, r'.
  split; [ exact Hh | split; [ reflexivity | split; [ reflexivity | split; [ lra | split; [ lra | split; [ exact S | split; [ apply again_images_anew | ] ] ] ] ] ] ].
  split; [ intros k i H; unfold masked in H; do 8 (destruct k as [|k]; [ destruct H | ]); destruct k; destruct H | split; [ cbn; lia | ] ].
  do 2 (split; [ exact sc_kin_honest || exact sc_kin_keeps | ]). split; [ apply ex_oracle_lists | split; [ apply fit_masks, M | split; [ exact E | ] ] ].
  do 2 (split; [ exact sc_kin_honest || exact sc_kin_keeps | ]). split; [ apply ex_oracle_lists | split; [ apply again_masks, M | split; [ exact E' | ] ] ].
  split; [ exact (fit_images_best _ r M E) | ].
  apply (best_same _ _ _ (estimate_anew (again 1 iso_id) sc_truth) (image_stable _) eq_refl eq_refl (again_images_estimate _ _ _ _ _ _ M E')).
  refine (best_images_anew (again 1 iso_id) 2 (V2 10 20) (fit_images free_masks) (again_images 1 2 (V2 10 20) free_masks (1/2000)) sc_truth Hh eq_refl eq_refl _ S (again_images_anew _ _ _ _ _) (proj1 (truth_best _ M))). lra.
Qed.
Lemma ex_poses_again : exists h p p' w w' u solve cov r u' solve' cov' r',
  kin_sensible h /\ kin_unit h <> 1 /\ tr (kin_camera h) = vzero /\ lin (kin_camera h) <> I3 /\ w <> 0 /\ w' = kin_unit h * w /\
  setup_anew h (kin_unit h) (k6_common p) (k6_common p') /\ poses_anew h p p' /\ mounts_free (k6_common p) /\ (2 <= List.length (k6_observations p))%nat /\
  honest_kin solve /\ keeps_frozen solve /\ lists_blocks cov /\ masks_fit (k6_common p) /\ kin_optimizePose6D u solve cov p w = Ok r /\
  honest_kin solve' /\ keeps_frozen solve' /\ lists_blocks cov' /\ masks_fit (k6_common p') /\ kin_optimizePose6D u' solve' cov' p' w' = Ok r' /\
  best_estimate (k6_common p) (pose_errors w p) (result_estimate r) /\ best_estimate (k6_common p') (pose_errors w' p') (result_estimate r').
Proof.
  assert (M : either held_masks) by (left; reflexivity).
  assert (HC : plain_turn (iso_rot quarter)) by (right; reflexivity).
  destruct (fit_poses_ok held_masks 100 M) as [r E]. destruct (again_poses_ok 2 (iso_rot quarter) held_masks (1/2000) 200 M) as [r' E'].
  assert (Hh : kin_sensible (again 2 (iso_rot quarter))) by (apply again_sensible; [ lra | apply plain_turn_rigid, HC ]).
  assert (S : setup_anew (again 2 (iso_rot quarter)) 2 (fit_common held_masks) (again_common 2 (iso_rot quarter) held_masks (1/2000))).
  { apply again_setup; [ exact M | exact HC | left; reflexivity | lra ]. }
  exists (again 2 (iso_rot quarter)), (fit_poses held_masks), (again_poses 2 (iso_rot quarter) held_masks (1/2000)), 100, 200, sc_u, sc_kin_still, ex_cov_oracle, r, sc_u, sc_kin_still, ex_cov_oracle, r'.
  split; [ exact Hh | split; [ cbn [again kin_unit]; lra | split; [ reflexivity | split; [ | split; [ lra | split; [ cbn [again kin_unit]; lra | split; [ exact S | split; [ apply again_poses_anew | ] ] ] ] ] ] ] ].
  { intros Q. apply (f_equal m00) in Q. cbn in Q. lra. }
  split; [ apply held_holds | split; [ cbn; lia | ] ].
  do 2 (split; [ exact sc_kin_honest || exact sc_kin_keeps | ]). split; [ apply ex_oracle_lists | split; [ apply fit_masks, M | split; [ exact E | ] ] ].
  do 2 (split; [ exact sc_kin_honest || exact sc_kin_keeps | ]). split; [ apply ex_oracle_lists | split; [ apply again_masks, M | split; [ exact E' | ] ] ].
  split; [ refine (fit_poses_best held_masks 100 r M _ E); lra | ].
  apply (best_same _ _ _ (estimate_anew (again 2 (iso_rot quarter)) sc_truth) (pose_stable _ _) eq_refl eq_refl (again_poses_estimate _ _ _ _ _ _ M HC E')).
  refine (best_poses_anew (again 2 (iso_rot quarter)) (fit_poses held_masks) (again_poses 2 (iso_rot quarter) held_masks (1/2000)) 100 200 sc_truth Hh eq_refl _ S (again_poses_anew _ _ _ _) (proj2 (truth_best _ M))). cbn [again kin_unit]. lra.
Qed.
Lemma truth_in_sight masks : in_sight (1 / 10 ^ 10) (fit_images masks) sc_truth.
Proof.
  intros oc P Ho HP. apply in_flat_map in Ho as (o & Ho & Hc). apply in_map_iff in Hc as (c & <- & Hc). cbn [fst snd] in *.
  apply in_map_iff in Ho as (x & <- & Hx).
  pose proof (sc_places x (sc_turns_all x Hx)) as HP'.
  assert (E : P = ex_view (snd x)).
  { destruct HP as (A1 & B1 & EA1 & EB1 & ->). destruct HP' as (A2 & B2 & EA2 & EB2 & ->).
    cbn [observed_at fst snd sc_observation ko_camera_chain_joints ko_target_chain_joints fit_images k2_common fit_common kc_camera_chain kc_target_chain] in *.
    rewrite EA1 in EA2. rewrite EB1 in EB2. injection EA2 as ->. injection EB2 as ->. reflexivity. }
  subst P. cbn [sc_observation ko_correspondence_set] in Hc. apply in_map_iff in Hc as (v & <- & Hv). cbn [in_target].
  assert (HW : In (snd x) ex_mounts) by (destruct Hx as [<-|[<-|[<-|[]]]]; cbn; auto).
  rewrite <- ex_view_eq. exact (ex_mounts_front (snd x) v HW Hv).
Qed.
Lemma best_sight_of com errors e (D : kin_estimate -> Prop) : D e -> best_estimate com errors e -> best_within D com errors e.
Proof. intros HD (F & c & W & B). split; [ exact HD | split; [ exact F | exists c; split; [ exact W | intros e' c' _; apply B ] ] ]. Qed.
Lemma ex_sight_again : exists h m d c p p' u solve cov r,
  kin_sensible h /\ kin_unit h <> 1 /\ kin_camera h = iso_id /\ m <> 0 /\ 1 / 10 ^ 10 <= c /\ 1 / 10 ^ 10 <= kin_unit h * c /\
  setup_anew h m (k2_common p) (k2_common p') /\ images_anew h m d p p' /\ mounts_free (k2_common p) /\ (2 <= List.length (k2_observations p))%nat /\
  honest_kin solve /\ keeps_frozen solve /\ lists_blocks cov /\ masks_fit (k2_common p) /\ kin_optimize2D3D u solve cov p = Ok r /\
  best_within (in_sight c p) (k2_common p) (image_errors p) (result_estimate r).
Proof.
  assert (M : either held_masks) by (left; reflexivity).
  destruct (fit_images_ok held_masks M) as [r E].
  assert (Hh : kin_sensible (again 2 iso_id)) by (apply again_sensible; [ lra | apply rigid_id ]).
  assert (S : setup_anew (again 2 iso_id) 1 (fit_common held_masks) (again_common 2 iso_id held_masks (1/1000))).
  { apply again_setup; [ exact M | left; reflexivity | left; reflexivity | lra ]. }
  exists (again 2 iso_id), 1, (V2 0 0), (1 / 10 ^ 10), (fit_images held_masks), (again_images 2 1 (V2 0 0) held_masks (1/1000)), sc_u, sc_kin_still, ex_cov_oracle, r.
  split; [ exact Hh | split; [ cbn [again kin_unit]; lra | split; [ reflexivity | split; [ lra | split; [ lra | split; [ cbn [again kin_unit]; lra | split; [ exact S | split; [ apply again_images_anew | ] ] ] ] ] ] ] ].
  split; [ apply held_holds | split; [ cbn; lia | ] ].
  do 2 (split; [ exact sc_kin_honest || exact sc_kin_keeps | ]). split; [ apply ex_oracle_lists | split; [ apply fit_masks, M | split; [ exact E | ] ] ].
  apply best_sight_of; [ | exact (fit_images_best _ r M E) ].
  intros oc P Ho HP. apply (truth_in_sight held_masks oc P Ho).
  refine (proj1 (places_same _ _ _ sc_truth _ _ (fit_images_estimate _ r M E) eq_refl eq_refl) HP).
Qed.
