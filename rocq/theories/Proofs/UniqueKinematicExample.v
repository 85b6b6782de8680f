(** Concrete data for C85. *)
From Coq Require Import Reals Lra ZArith Arith Lia String List.
From Verif.Base Require Import Geom Outcome Matrix.
From Verif.Model Require Import Pose Covariance Solver HandEye DhChain LocalParam Kinematic.
From Verif.Spec Require Import CovarianceSpec PinHole PnpSpec DhSpec FreezeSpec KinSpec KinReport OracleSpec KinExampleSpec UniqueSpec RedundancySpec KinUniqueSpec.
From Verif.Proofs Require Import GeomLemmas RotLemmas AngleAxisLemmas PoseProofs CovarianceProofs ListLemmas DhProofs PnpProofs
  HandEyeProofs KinematicProofs KinematicCall UniqueLemmas UniqueProofs UniqueExamples UniqueMultiExamples UniqueKinematic.
Import ListNotations.
Local Open Scope R_scope.

(** A wrist of two joints: the tip is turned by the first about x and by the second, backwards, about y. *)
Definition sc_wrist : dh_chain :=
  DHChain [DHT (V4 0 0 0 (PI / 2)) REVOLUTE 2 (-2) "roll" 1; DHT (V4 0 (PI / 2) 0 (- (PI / 2))) REVOLUTE 2 (-2) "pitch" 2]
          (iso_rot (aa_matrix (PI / 2) unitY)).
Definition sc_tip (q1 q2 : R) : iso := iso_mul (iso_rot (aa_matrix q1 unitX)) (iso_rot (aa_matrix (- q2) unitY)).
Ltac mats := unfold mmul; cbn [m00 m01 m02 m10 m11 m12 m20 m21 m22]; apply mat3_ext; cbn [m00 m01 m02 m10 m11 m12 m20 m21 m22]; ring.
Lemma aa_X a : aa_matrix a unitX = M3 1 0 0 0 (cos a) (- sin a) 0 (sin a) (cos a).
Proof. unfold aa_matrix, unitX. cbn [vx vy vz]. apply mat3_ext; cbn [m00 m01 m02 m10 m11 m12 m20 m21 m22]; ring. Qed.
Lemma aa_Y a : aa_matrix a unitY = M3 (cos a) 0 (sin a) 0 1 0 (- sin a) 0 (cos a).
Proof. unfold aa_matrix, unitY. cbn [vx vy vz]. apply mat3_ext; cbn [m00 m01 m02 m10 m11 m12 m20 m21 m22]; ring. Qed.
Lemma aa_Z a : aa_matrix a unitZ = M3 (cos a) (- sin a) 0 (sin a) (cos a) 0 0 0 1.
Proof. unfold aa_matrix, unitZ. cbn [vx vy vz]. apply mat3_ext; cbn [m00 m01 m02 m10 m11 m12 m20 m21 m22]; ring. Qed.
Lemma rot_rot A B : iso_mul (iso_rot A) (iso_rot B) = iso_rot (mmul A B).
Proof. apply iso_ext; cbn [iso_mul iso_rot lin tr]; [ reflexivity | unfold vadd, mvec, vzero; apply vec3_ext; cbn [vx vy vz]; ring ]. Qed.
Lemma trans_0 : iso_trans (V3 0 0 0) = iso_id. Proof. reflexivity. Qed.
Lemma sc_link a b : iso_mul (iso_mul (iso_mul (iso_mul iso_id (iso_trans (V3 0 0 (0 + 0)))) (iso_rot a)) (iso_trans (V3 (0 + 0) 0 0))) (iso_rot b) =
  iso_rot (mmul a b).
Proof. rewrite Rplus_0_l, trans_0, !iso_mul_id_r, iso_mul_id_l. apply rot_rot. Qed.
Lemma sc_product q1 q2 :
  mmul (mmul (aa_matrix (PI / 2) unitY) (mmul (aa_matrix (0 + 0 + q1) unitZ) (aa_matrix (PI / 2 + 0) unitX)))
       (mmul (aa_matrix (PI / 2 + 0 + q2) unitZ) (aa_matrix (- (PI / 2) + 0) unitX)) =
  mmul (aa_matrix q1 unitX) (aa_matrix (- q2) unitY).
Proof.
  rewrite !Rplus_0_r, Rplus_0_l, !aa_X, !aa_Y, !aa_Z, !cos_neg, !sin_neg, cos_plus, sin_plus, cos_PI2, sin_PI2.
  generalize (cos q1) (sin q1) (cos q2) (sin q2). intros c1 s1 c2 s2.
  transitivity (mmul (M3 0 1 0 s1 0 (- c1) (- c1) 0 (- s1)) (M3 (- s2) 0 (- c2) c2 0 (- s2) 0 (- 1) 0)); [ | mats ].
  f_equal; [ | mats ]. transitivity (mmul (M3 0 0 1 0 1 0 (- 1) 0 0) (M3 c1 0 s1 s1 0 (- c1) 0 1 0)); [ f_equal; mats | mats ].
Qed.
Lemma sc_wrist_tip q1 q2 : getFK sc_wrist [q1; q2] (no_offsets 2) = Ok (sc_tip q1 q2).
Proof.
  cbv beta delta [getFK sc_wrist dof transforms base_offset List.length Nat.ltb Nat.leb rows no_offsets seq foldM row4 at_ idx nth_error bind ent createRelativeTransform
       add4 params jtype e0 e1 e2 e3] iota zeta.
  rewrite !sc_link, !rot_rot, sc_product. unfold sc_tip. rewrite rot_rot. reflexivity.
Qed.
Lemma aa_zero u : aa_matrix 0 u = I3.
Proof. unfold aa_matrix. rewrite sin_0, cos_0. unfold I3. apply mat3_ext; cbn [m00 m01 m02 m10 m11 m12 m20 m21 m22]; ring. Qed.
Lemma aa_back a u : iso_inv (iso_rot (aa_matrix (- a) u)) = iso_rot (aa_matrix a u).
Proof.
  unfold aa_matrix. rewrite sin_neg, cos_neg. apply iso_ext; cbn [iso_inv iso_rot lin tr].
  - unfold mT. apply mat3_ext; cbn [m00 m01 m02 m10 m11 m12 m20 m21 m22]; ring.
  - unfold vneg, mvec, vzero. apply vec3_ext; cbn [vx vy vz]; ring.
Qed.
Lemma sc_tip_x q : sc_tip q 0 = iso_rot (aa_matrix q unitX).
Proof. unfold sc_tip. rewrite Ropp_0, aa_zero. apply iso_mul_id_r. Qed.
Lemma sc_tip_y q : sc_tip 0 q = iso_rot (aa_matrix (- q) unitY).
Proof. unfold sc_tip. rewrite aa_zero. apply iso_mul_id_l. Qed.
Lemma sc_tip_0 : sc_tip 0 0 = iso_id.
Proof. rewrite sc_tip_x, aa_zero. reflexivity. Qed.

Notation third := (PI / 3).
(** Joint positions, with the pose of the target that is seen from the mount of the camera. *)
Definition sc_target_turns : list (list R * list R * iso) :=
  [([0; 0], [0; 0], iso_id); ([0; 0], [third; 0], ex_turn unitX); ([0; 0], [0; - third], ex_turn unitY)].
Definition sc_camera_turns : list (list R * list R * iso) :=
  [([- third; 0], [0; 0], ex_turn unitX); ([0; third], [0; 0], ex_turn unitY)].
Definition sc_common : kin_common :=
  KC sc_wrist sc_wrist ex_camera iso_id iso_id [[]; []; []; []; []; []; []; []] (1/1000) (1/1000)
     "camera"%string "target"%string "base"%string.
Definition sc_measurement (x : list R * list R * iso) : kin_measurement := KMeas (ex_view (snd x)) (fst (fst x)) (snd (fst x)).
Definition sc_observation (x : list R * list R * iso) : kin_observation vec2 := KObs (fst (fst x)) (snd (fst x)) (ex_picture (snd x)).
Definition sc_poses (xs : list (list R * list R * iso)) : kin_problemPose6D := KP6 (map sc_measurement xs) sc_common.
Definition sc_images (xs : list (list R * list R * iso)) : kin_problem2D3D := KP2 (map sc_observation xs) ex_k sc_common.
Definition sc_all := (sc_target_turns ++ sc_camera_turns)%list.
Definition sc_truth : kin_estimate := as_designed sc_wrist sc_wrist ex_camera iso_id iso_id.
(** A solver that stays where it starts and says so. *)
Definition sc_kin_still : kin_solver := fun residuals p m =>
  let c := match mapM (fun f : kin_residual => f m) residuals with Ok vs => half_squares (concat vs) | _ => 0 end in
  (m, Summary true c c).
Lemma sc_kin_honest : honest_kin sc_kin_still.
Proof. intros rs p m0 m s E (vs & Ev). injection E as <- <-. exists vs. split; [ exact Ev | ]. cbn. rewrite Ev. reflexivity. Qed.
Lemma sc_kin_keeps : keeps_frozen sc_kin_still.
Proof. intros rs p m m' s E b i _. injection E as <- <-. reflexivity. Qed.
Lemma sc_masks : masks_fit sc_common.
Proof.
  split; [ reflexivity | ]. intros k m z E Hz. do 8 (destruct k as [|k]; [ injection E as <-; destruct Hz | ]). destruct k; discriminate E.
Qed.
Lemma sc_guesses : guesses_plain sc_common.
Proof. split; [ split; [ apply rigid_trans | left; reflexivity ] | split; (split; [ apply rigid_id | left; reflexivity ]) ]. Qed.
Lemma sc_base : rigid (base_offset sc_wrist).
Proof. apply aa_matrix_rot. unfold dot, unitY. cbn. ring. Qed.
Lemma sc_known n : known_types sc_wrist n.
Proof. intros [|[|i]] t _ H; cbn in H; [ injection H as <-; discriminate | injection H as <-; discriminate | destruct i; discriminate ]. Qed.
Lemma sc_tips q1 q2 q3 q4 : tips sc_wrist sc_wrist [q1; q2] [q3; q4] (sc_tip q1 q2) (sc_tip q3 q4).
Proof. split; apply sc_wrist_tip. Qed.
Lemma sc_places x : In x sc_all -> places sc_wrist sc_wrist sc_truth (fst x) (ex_view (snd x)).
Proof.
  assert (K : forall q1 q2 q3 q4 W, kin_target_in_camera (sc_tip q1 q2) ex_camera iso_id (sc_tip q3 q4) iso_id = ex_view W ->
    places sc_wrist sc_wrist sc_truth ([q1; q2], [q3; q4]) (ex_view W)).
  { intros q1 q2 q3 q4 W <-. exists (sc_tip q1 q2), (sc_tip q3 q4). split; [ apply sc_wrist_tip | split; [ apply sc_wrist_tip | reflexivity ] ]. }
  assert (RC : rigid ex_camera) by apply rigid_trans.
  assert (RT : forall a u, dot u u = 1 -> rigid (iso_rot (aa_matrix a u))) by (intros; apply aa_matrix_rot; assumption).
  assert (U1 : dot unitX unitX = 1) by (unfold dot, unitX; cbn; ring). assert (U2 : dot unitY unitY = 1) by (unfold dot, unitY; cbn; ring).
  unfold kin_target_in_camera, ex_view, ex_turn in K.
  intros [<-|[<-|[<-|[<-|[<-|[]]]]]]; apply K; rewrite ?sc_tip_0, ?sc_tip_x, ?sc_tip_y, ?Ropp_involutive, ?iso_mul_id_l, ?iso_mul_id_r; try reflexivity.
  - rewrite inv_mul, aa_back by (first [ exact RC | apply RT; assumption ]). reflexivity.
  - rewrite inv_mul, aa_back by (first [ exact RC | apply RT; assumption ]). reflexivity.
Qed.
Lemma sc_views x : In x sc_all -> In (snd x) ex_mounts.
Proof. intros [<-|[<-|[<-|[<-|[<-|[]]]]]]; cbn; auto. Qed.
Lemma sc_target_moves xs : incl sc_target_turns xs -> target_moves sc_wrist sc_wrist (map fst xs).
Proof.
  intros H. exists iso_id, ex_mounts. split; [ apply ex_two_axes; cbn; auto | ].
  assert (K : forall q1 q2 W, In ([0; 0], [q1; q2], W) sc_target_turns -> sc_tip q1 q2 = W ->
    exists qc qt, In (qc, qt) (map fst xs) /\ tips sc_wrist sc_wrist qc qt iso_id W).
  { intros q1 q2 W I <-. exists [0; 0], [q1; q2]. split.
    - apply in_map_iff. exists ([0; 0], [q1; q2], sc_tip q1 q2). split; [ reflexivity | apply H, I ].
    - rewrite <- sc_tip_0. apply sc_tips. }
  intros W [<-|[<-|[<-|[]]]]; [ apply (K 0 0) | apply (K third 0) | apply (K 0 (- third)) ]; try (cbn; auto; fail).
  - apply sc_tip_0.
  - apply sc_tip_x.
  - rewrite sc_tip_y, Ropp_involutive. reflexivity.
Qed.
Lemma sc_camera_moves : camera_moves sc_wrist sc_wrist (map fst sc_all).
Proof.
  exists iso_id, [sc_tip 0 0; sc_tip (- third) 0; sc_tip 0 third]. split.
  - apply ex_two_axes; cbn [map In]; rewrite ?sc_tip_0, ?sc_tip_x, ?sc_tip_y, ?aa_back, ?iso_inv_id; auto.
  - assert (K : forall q1 q2 W, In ([q1; q2], [0; 0], W) sc_all ->
      exists qc qt, In (qc, qt) (map fst sc_all) /\ tips sc_wrist sc_wrist qc qt (sc_tip q1 q2) iso_id).
    { intros q1 q2 W I. exists [q1; q2], [0; 0]. split.
      - apply in_map_iff. exists ([q1; q2], [0; 0], W). split; [ reflexivity | exact I ].
      - rewrite <- sc_tip_0. apply sc_tips. }
    intros F [<-|[<-|[<-|[]]]]; eapply K; cbn; auto 6.
Qed.
Lemma sc_stays : camera_stays sc_wrist sc_wrist (map fst sc_target_turns) iso_id.
Proof.
  intros qc qt I. rewrite <- sc_tip_0. destruct I as [E|[E|[E|[]]]]; injection E as <- <-; eexists; apply sc_tips.
Qed.
Lemma sc_measured xs : map measured_at (k6_observations (sc_poses xs)) = map fst xs.
Proof. cbn. rewrite map_map. apply map_ext. intros [[a b] c]. reflexivity. Qed.
Lemma sc_observed xs : map observed_at (k2_observations (sc_images xs)) = map fst xs.
Proof. cbn. rewrite map_map. apply map_ext. intros [[a b] c]. reflexivity. Qed.
Lemma sc_two x : In x sc_all -> List.length (fst (fst x)) = 2%nat /\ List.length (snd (fst x)) = 2%nat.
Proof. intros [<-|[<-|[<-|[<-|[<-|[]]]]]]; auto. Qed.
Lemma sc_fits x : In x sc_all ->
  (List.length (fst (fst x)) <= dof sc_wrist)%nat /\ known_types sc_wrist (List.length (fst (fst x))) /\
  (List.length (snd (fst x)) <= dof sc_wrist)%nat /\ known_types sc_wrist (List.length (snd (fst x))).
Proof. intros I. destruct (sc_two x I) as [-> ->]. split; [ cbn; lia | split; [ apply sc_known | split; [ cbn; lia | apply sc_known ] ] ]. Qed.
Lemma sc_poses_ok u xs w : xs <> [] -> incl xs sc_all -> exists r, kin_optimizePose6D u sc_kin_still ex_cov_oracle (sc_poses xs) w = Ok r.
Proof.
  intros N I. apply kin6_succeeds; [ apply ex_oracle_lists | apply sc_masks | reflexivity | reflexivity | apply ex_oracle_sym | | ].
  - intros E. apply map_eq_nil in E. contradiction.
  - intros o Ho. apply in_map_iff in Ho as (x & <- & Hx). apply (sc_fits x (I x Hx)).
Qed.
Lemma sc_images_ok u xs : xs <> [] -> incl xs sc_all -> exists r, kin_optimize2D3D u sc_kin_still ex_cov_oracle (sc_images xs) = Ok r.
Proof.
  intros N I. apply kin2_succeeds; [ apply ex_oracle_lists | apply sc_masks | reflexivity | reflexivity | apply ex_oracle_sym | | ].
  - destruct xs; [ contradiction | ]. discriminate.
  - intros oc Ho. apply in_flat_map in Ho as (o & Ho & Hc). apply in_map_iff in Hc as (c & <- & _).
    apply in_map_iff in Ho as (x & <- & Hx). apply (sc_fits x (I x Hx)).
Qed.
Lemma sc_estimate6 u xs w r : kin_optimizePose6D u sc_kin_still ex_cov_oracle (sc_poses xs) w = Ok r -> same_estimate (result_estimate r) sc_truth.
Proof.
  intros E. destruct (kin6_right ex_cov_oracle (sc_poses xs) w ex_oracle_lists sc_masks) as (rs & p & _ & K).
  destruct (K u sc_kin_still _ _ r eq_refl E) as (SE & _). pose proof (start_estimate sc_common sc_guesses) as G.
  destruct SE as (A1 & A2 & A3 & A4 & A5), G as (G1 & G2 & G3 & G4 & G5).
  split; [ exact (eq_trans A1 G1) | split; [ exact (eq_trans A2 G2) | split; [ exact (eq_trans A3 G3) | ] ] ].
  split; [ exact (same_matrix_trans _ _ _ A4 G4) | exact (same_matrix_trans _ _ _ A5 G5) ].
Qed.
Lemma sc_estimate2 u xs r : kin_optimize2D3D u sc_kin_still ex_cov_oracle (sc_images xs) = Ok r -> same_estimate (result_estimate r) sc_truth.
Proof.
  intros E. destruct (kin2_right ex_cov_oracle (sc_images xs) ex_oracle_lists sc_masks) as (rs & p & _ & K).
  destruct (K u sc_kin_still _ _ r eq_refl E) as (SE & _). pose proof (start_estimate sc_common sc_guesses) as G.
  destruct SE as (A1 & A2 & A3 & A4 & A5), G as (G1 & G2 & G3 & G4 & G5).
  split; [ exact (eq_trans A1 G1) | split; [ exact (eq_trans A2 G2) | split; [ exact (eq_trans A3 G3) | ] ] ].
  split; [ exact (same_matrix_trans _ _ _ A4 G4) | exact (same_matrix_trans _ _ _ A5 G5) ].
Qed.
Lemma sc_predicts xs o : incl xs sc_all -> In o (k6_observations (sc_poses xs)) ->
  predicts sc_wrist sc_wrist sc_truth o (km_camera_to_target o).
Proof. intros H I. apply in_map_iff in I as ([[qc qt] W] & <- & I). exact (sc_places _ (H _ I)). Qed.
Lemma sc_seen xs o : incl xs sc_all -> In o (k2_observations (sc_images xs)) ->
  exists P, places sc_wrist sc_wrist sc_truth (observed_at o) P /\ perfect_image ex_k P (ko_correspondence_set o) /\
    usable ex_k P (ko_correspondence_set o).
Proof.
  intros H I. apply in_map_iff in I as ([[qc qt] W] & <- & I). exists (ex_view W). split; [ exact (sc_places _ (H _ I)) | ].
  pose proof (sc_views _ (H _ I)) as V. split; [ apply ex_picture_perfect, V | apply ex_picture_usable, V ].
Qed.
Lemma sc_truth_fun q P P' : places sc_wrist sc_wrist sc_truth q P -> places sc_wrist sc_wrist sc_truth q P' -> P = P'.
Proof. intros (F1 & G1 & A1 & B1 & ->) (F2 & G2 & A2 & B2 & ->). rewrite A1 in A2. rewrite B1 in B2. injection A2 as <-. injection B2 as <-. reflexivity. Qed.
Lemma sc_usable xs o P : incl xs sc_all -> In o (k2_observations (sc_images xs)) ->
  places sc_wrist sc_wrist sc_truth (observed_at o) P -> usable ex_k P (ko_correspondence_set o).
Proof. intros H I HP. destruct (sc_seen xs o H I) as (P' & HP' & _ & U). rewrite (sc_truth_fun _ _ _ HP HP'). exact U. Qed.
Lemma sc_front u xs r o P : incl xs sc_all -> kin_optimize2D3D u sc_kin_still ex_cov_oracle (sc_images xs) = Ok r ->
  In o (k2_observations (sc_images xs)) -> places sc_wrist sc_wrist (result_estimate r) (observed_at o) P -> all_in_front P (ko_correspondence_set o).
Proof.
  intros H E I HP. apply (places_same _ _ _ _ _ _ (sc_estimate2 _ _ _ E) eq_refl eq_refl) in HP.
  destruct (sc_seen xs o H I) as (P' & HP' & PI & _). rewrite (sc_truth_fun _ _ _ HP HP'). intros c Hc. apply PI, Hc.
Qed.
Definition sc_u : nat -> nat -> R := fun _ _ => 0.
Lemma sc_stdev : kc_camera_chain_offset_stdev sc_common <> 0. Proof. cbn. lra. Qed.

Lemma ex_kin_pose_unique : exists u solve cov params w r C0 T0 B0,
  let com := k6_common params in let cam := kc_camera_chain com in let tgt := kc_target_chain com in
  honest_kin solve /\ keeps_frozen solve /\ lists_blocks cov /\ masks_fit com /\
  rigid (base_offset cam) /\ rigid (base_offset tgt) /\ rigid C0 /\ rigid T0 /\ rigid B0 /\
  kc_camera_chain_offset_stdev com <> 0 /\ kc_target_chain_offset_stdev com <> 0 /\ w <> 0 /\
  kin_optimizePose6D u solve cov params w = Ok r /\
  (forall o, In o (k6_observations params) -> predicts cam tgt (as_designed cam tgt C0 T0 B0) o (km_camera_to_target o)) /\
  target_moves cam tgt (map measured_at (k6_observations params)) /\
  camera_moves cam tgt (map measured_at (k6_observations params)) /\
  kr_final_cost_per_obs r = 0.
Proof.
  assert (I : incl sc_all sc_all) by (intros x Hx; exact Hx).
  destruct (sc_poses_ok sc_u sc_all 100 ltac:(discriminate) I) as [r E].
  assert (M1 : target_moves sc_wrist sc_wrist (map measured_at (k6_observations (sc_poses sc_all)))).
  { rewrite sc_measured. apply sc_target_moves. intros x Hx. apply in_or_app. left. exact Hx. }
  assert (M2 : camera_moves sc_wrist sc_wrist (map measured_at (k6_observations (sc_poses sc_all)))).
  { rewrite sc_measured. apply sc_camera_moves. }
  exists sc_u, sc_kin_still, ex_cov_oracle, (sc_poses sc_all), 100, r, ex_camera, iso_id, iso_id. cbv zeta.
  assert (W : 100 <> 0) by lra.
  repeat match goal with |- _ /\ _ => split end;
    first [ apply sc_kin_honest | apply sc_kin_keeps | apply ex_oracle_lists | apply sc_masks | apply sc_base | apply rigid_trans | apply rigid_id | exact sc_stdev | exact W | exact E | exact M1 | exact M2 | intros o Ho; exact (sc_predicts sc_all o I Ho) | idtac ].
  apply (kin_pose_unique sc_u sc_kin_still ex_cov_oracle (sc_poses sc_all) 100 r ex_camera iso_id iso_id); auto using sc_kin_honest, sc_kin_keeps, ex_oracle_lists, sc_masks, rigid_id.
  all: first [ apply sc_base | apply rigid_trans | exact sc_stdev | intros o Ho; exact (sc_predicts sc_all o I Ho) | exact (sc_estimate6 _ _ _ _ E) ].
Qed.
Lemma ex_kin_image_unique : exists u solve cov params r C0 T0 B0 chosen Fc,
  let com := k2_common params in let cam := kc_camera_chain com in let tgt := kc_target_chain com in
  honest_kin solve /\ keeps_frozen solve /\ lists_blocks cov /\ masks_fit com /\
  rigid (base_offset cam) /\ rigid (base_offset tgt) /\ rigid C0 /\ rigid T0 /\ rigid B0 /\
  kc_camera_chain_offset_stdev com <> 0 /\ kc_target_chain_offset_stdev com <> 0 /\
  kin_optimize2D3D u solve cov params = Ok r /\
  (forall o, In o (k2_observations params) ->
     exists P, places cam tgt (as_designed cam tgt C0 T0 B0) (observed_at o) P /\ perfect_image (k2_intr params) P (ko_correspondence_set o)) /\
  (forall o P, In o (k2_observations params) -> places cam tgt (result_estimate r) (observed_at o) P ->
     all_in_front P (ko_correspondence_set o)) /\
  incl chosen (k2_observations params) /\
  (forall o P, In o chosen -> places cam tgt (as_designed cam tgt C0 T0 B0) (observed_at o) P ->
     usable (k2_intr params) P (ko_correspondence_set o)) /\
  target_moves cam tgt (map observed_at chosen) /\
  camera_stays cam tgt (map observed_at (k2_observations params)) Fc /\
  kr_final_cost_per_obs r = 0.
Proof.
  set (xs := sc_target_turns).
  assert (I : incl xs sc_all) by (intros x Hx; apply in_or_app; left; exact Hx).
  destruct (sc_images_ok sc_u xs ltac:(discriminate) I) as [r E].
  assert (M1 : target_moves sc_wrist sc_wrist (map observed_at (k2_observations (sc_images xs)))).
  { rewrite sc_observed. apply sc_target_moves. intros x Hx. exact Hx. }
  assert (M2 : camera_stays sc_wrist sc_wrist (map observed_at (k2_observations (sc_images xs))) iso_id).
  { rewrite sc_observed. apply sc_stays. }
  assert (PI : forall o, In o (k2_observations (sc_images xs)) ->
     exists P, places sc_wrist sc_wrist sc_truth (observed_at o) P /\ perfect_image ex_k P (ko_correspondence_set o)).
  { intros o Ho. destruct (sc_seen xs o I Ho) as (P & A & B & _). exists P. split; assumption. }
  exists sc_u, sc_kin_still, ex_cov_oracle, (sc_images xs), r, ex_camera, iso_id, iso_id, (k2_observations (sc_images xs)), iso_id. cbv zeta.
  repeat match goal with |- _ /\ _ => split end;
    first [ apply sc_kin_honest | apply sc_kin_keeps | apply ex_oracle_lists | apply sc_masks | apply sc_base | apply rigid_trans | apply rigid_id | exact sc_stdev | exact E | exact M1 | exact M2 | exact PI | intros o P Ho; exact (sc_front _ xs r o P I E Ho) | intros o P Ho; exact (sc_usable xs o P I Ho) | intros o Ho; exact Ho | idtac ].
  apply (kin_image_fixed sc_u sc_kin_still ex_cov_oracle (sc_images xs) r ex_camera iso_id iso_id) with (chosen := k2_observations (sc_images xs)) (Fc := iso_id); auto using sc_kin_honest, sc_kin_keeps, ex_oracle_lists, sc_masks, rigid_id.
  all: try first [ apply sc_base | apply rigid_trans | exact sc_stdev | intros o P Ho; exact (sc_front _ xs r o P I E Ho) | intros o P Ho; exact (sc_usable xs o P I Ho) | intros o Ho; exact Ho ].
  - destruct (sc_estimate2 _ _ _ E) as (A1 & A2 & A3 & A4 & A5). split; [ split; assumption | split; [ exact A2 | ] ].
    unfold base_in_camera. rewrite A1, A3. reflexivity.
Qed.
Lemma ex_kin_image_moves : exists u solve cov params r C0 T0 B0 chosen,
  let com := k2_common params in let cam := kc_camera_chain com in let tgt := kc_target_chain com in
  honest_kin solve /\ keeps_frozen solve /\ lists_blocks cov /\ masks_fit com /\
  rigid (base_offset cam) /\ rigid (base_offset tgt) /\ rigid C0 /\ rigid T0 /\ rigid B0 /\
  kc_camera_chain_offset_stdev com <> 0 /\ kc_target_chain_offset_stdev com <> 0 /\
  kin_optimize2D3D u solve cov params = Ok r /\
  (forall o, In o (k2_observations params) ->
     exists P, places cam tgt (as_designed cam tgt C0 T0 B0) (observed_at o) P /\ perfect_image (k2_intr params) P (ko_correspondence_set o)) /\
  (forall o P, In o (k2_observations params) -> places cam tgt (result_estimate r) (observed_at o) P ->
     all_in_front P (ko_correspondence_set o)) /\
  incl chosen (k2_observations params) /\
  (forall o P, In o chosen -> places cam tgt (as_designed cam tgt C0 T0 B0) (observed_at o) P ->
     usable (k2_intr params) P (ko_correspondence_set o)) /\
  target_moves cam tgt (map observed_at chosen) /\
  camera_moves cam tgt (map observed_at chosen) /\
  kr_final_cost_per_obs r = 0.
Proof.
  set (xs := sc_all).
  assert (I : incl xs sc_all) by (intros x Hx; exact Hx).
  destruct (sc_images_ok sc_u xs ltac:(discriminate) I) as [r E].
  assert (M1 : target_moves sc_wrist sc_wrist (map observed_at (k2_observations (sc_images xs)))).
  { rewrite sc_observed. apply sc_target_moves. intros x Hx. apply in_or_app. left. exact Hx. }
  assert (M2 : camera_moves sc_wrist sc_wrist (map observed_at (k2_observations (sc_images xs)))).
  { rewrite sc_observed. apply sc_camera_moves. }
  assert (PI : forall o, In o (k2_observations (sc_images xs)) ->
     exists P, places sc_wrist sc_wrist sc_truth (observed_at o) P /\ perfect_image ex_k P (ko_correspondence_set o)).
  { intros o Ho. destruct (sc_seen xs o I Ho) as (P & A & B & _). exists P. split; assumption. }
  exists sc_u, sc_kin_still, ex_cov_oracle, (sc_images xs), r, ex_camera, iso_id, iso_id, (k2_observations (sc_images xs)). cbv zeta.
  repeat match goal with |- _ /\ _ => split end;
    first [ apply sc_kin_honest | apply sc_kin_keeps | apply ex_oracle_lists | apply sc_masks | apply sc_base | apply rigid_trans | apply rigid_id | exact sc_stdev | exact E | exact M1 | exact M2 | exact PI | intros o P Ho; exact (sc_front _ xs r o P I E Ho) | intros o P Ho; exact (sc_usable xs o P I Ho) | intros o Ho; exact Ho | idtac ].
  apply (kin_image_unique sc_u sc_kin_still ex_cov_oracle (sc_images xs) r ex_camera iso_id iso_id) with (chosen := k2_observations (sc_images xs)); auto using sc_kin_honest, sc_kin_keeps, ex_oracle_lists, sc_masks, rigid_id.
  all: try first [ apply sc_base | apply rigid_trans | exact sc_stdev | intros o P Ho; exact (sc_front _ xs r o P I E Ho) | intros o P Ho; exact (sc_usable xs o P I Ho) | intros o Ho; exact Ho ].
  - exact (sc_estimate2 _ _ _ E).
Qed.
