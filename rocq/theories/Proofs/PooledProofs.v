(** C120: data of two sessions calibrated separately and together. *)
From Coq Require Import Reals Arith List Permutation Lra Lia.
From Verif.Base Require Import Geom Outcome.
From Verif.Model Require Import Pose Covariance Solver BlockSolver HandEye Pnp MultiCamera.
From Verif.Spec Require Import Frames PinHole PnpSpec UniqueSpec MultiSpec SameDataSpec ToolsAgreeSpec PooledSpec.
From Verif.Proofs Require Import GeomLemmas PoseProofs HandEyeProofs PnpProofs MultiCameraProofs UniqueProofs UniqueMulti SameDataProofs ToolsAgreeProofs RigChoicesProofs.
Import ListNotations.
Local Open Scope R_scope.

Lemma squares_pool {A} (f : A -> list R) l a b : pooled l a b ->
  half_squares (flat_map f l) = half_squares (flat_map f a) + half_squares (flat_map f b).
Proof. intros P. rewrite (half_squares_perm f _ _ P), flat_map_app, half_squares_app. reflexivity. Qed.
Lemma in_pool {A} (l a b : list A) x : pooled l a b -> (In x l <-> In x a \/ In x b).
Proof.
  intros P. rewrite <- in_app_iff. split; intros H; [ apply (Permutation_in _ P H) | apply (Permutation_in _ (Permutation_sym P) H) ].
Qed.
Lemma total_is d n e : (0 < d)%nat -> (n = 0%nat -> e = 0) -> total_error d n (e / INR (d * n)) = e.
Proof.
  intros Hd H. unfold total_error. destruct n as [|n]; [ rewrite H by reflexivity; unfold Rdiv; ring | ].
  field. apply not_0_INR. nia.
Qed.
Lemma length_pool {A} (l a b : list A) : pooled l a b -> List.length l = (List.length a + List.length b)%nat.
Proof. intros P. rewrite (Permutation_length P). apply app_length. Qed.
(** Twice the data *)
Lemma twice_per_obs d n n1 f f1 : (0 < d)%nat -> n = (n1 + n1)%nat -> n1 <> 0%nat -> total_error d n f = total_error d n1 f1 + total_error d n1 f1 -> f = f1.
Proof.
  unfold total_error. intros Hd -> N. rewrite Nat.mul_add_distr_l, plus_INR.
  assert (0 < INR (d * n1)) by (apply lt_0_INR; nia). intros E. apply (Rmult_eq_reg_l (INR (d * n1) + INR (d * n1))); lra.
Qed.

(** ** Hand-eye calibration *)
Lemma image_pool k l a b X Z : pooled l a b -> image_error k l X Z = image_error k a X Z + image_error k b X Z.
Proof. apply squares_pool. Qed.
Lemma space_pool l a b X Z : pooled l a b -> space_error l X Z = space_error a X Z + space_error b X Z.
Proof. apply squares_pool. Qed.
Lemma view_pool l a b X Z : pooled l a b -> (in_view l X Z <-> in_view a X Z /\ in_view b X Z).
Proof.
  intros P. unfold in_view. split.
  - intros (RX & RZ & H). split; (split; [ exact RX | split; [ exact RZ | ] ]); intros s Hs; apply H, (in_pool _ _ _ s P); tauto.
  - intros [(RX & RZ & H1) (_ & _ & H2)]. split; [ exact RX | split; [ exact RZ | ] ]. intros s Hs. apply (in_pool _ _ _ s P) in Hs as [Hs|Hs]; auto.
Qed.
Lemma calibrated_total k os r : plain_obs os -> calibrated k os r ->
  total_error 2 (List.length (sightings os)) (he_final_cost_per_obs r) = image_error k (sightings os) (he_camera_mount_to_camera r) (he_target_mount_to_target r).
Proof.
  intros PO (u & solve & cov & p & Ho & E & Ek & Eo & B). subst k os.
  rewrite (he_error2 _ _ _ _ _ Ho E PO (proj1 B)). apply total_is; [ lia | apply images_empty ].
Qed.
Lemma calibrated_best k os r : calibrated k os r -> best_for_images k (sightings os) (he_camera_mount_to_camera r) (he_target_mount_to_target r).
Proof. intros (u & solve & cov & p & _ & _ & _ & _ & B). exact B. Qed.
Lemma pool_images k os os1 os2 r r1 r2 : plain_obs os -> plain_obs os1 -> plain_obs os2 ->
  calibrated k os r -> calibrated k os1 r1 -> calibrated k os2 r2 -> pooled (sightings os) (sightings os1) (sightings os2) ->
  total_error 2 (List.length (sightings os1)) (he_final_cost_per_obs r1) + total_error 2 (List.length (sightings os2)) (he_final_cost_per_obs r2) <=
    total_error 2 (List.length (sightings os)) (he_final_cost_per_obs r) /\
  (he_camera_mount_to_camera r1 = he_camera_mount_to_camera r2 -> he_target_mount_to_target r1 = he_target_mount_to_target r2 ->
   best_for_images k (sightings os) (he_camera_mount_to_camera r1) (he_target_mount_to_target r1) /\
   total_error 2 (List.length (sightings os)) (he_final_cost_per_obs r) =
     total_error 2 (List.length (sightings os1)) (he_final_cost_per_obs r1) + total_error 2 (List.length (sightings os2)) (he_final_cost_per_obs r2)).
Proof.
  intros PO PO1 PO2 C C1 C2 P. rewrite (calibrated_total _ _ _ PO C), (calibrated_total _ _ _ PO1 C1), (calibrated_total _ _ _ PO2 C2).
  apply calibrated_best in C, C1, C2. destruct C as [V B], C1 as [V1 B1], C2 as [V2 B2]. split.
  - rewrite (image_pool _ _ _ _ _ _ P). apply (view_pool _ _ _ _ _ P) in V as [Va Vb]. specialize (B1 _ _ Va). specialize (B2 _ _ Vb). lra.
  - intros E1 E2. rewrite <- E1, <- E2 in V2, B2 |- *.
    assert (V' : in_view (sightings os) (he_camera_mount_to_camera r1) (he_target_mount_to_target r1)) by (apply (view_pool _ _ _ _ _ P); auto).
    assert (B' : best_for_images k (sightings os) (he_camera_mount_to_camera r1) (he_target_mount_to_target r1)).
    { split; [ exact V' | ]. intros X' Z' W. rewrite !(image_pool _ _ _ _ _ _ P). apply (view_pool _ _ _ _ _ P) in W as [Wa Wb].
      specialize (B1 _ _ Wa). specialize (B2 _ _ Wb). lra. }
    split; [ exact B' | ]. rewrite <- (image_pool _ _ _ _ _ _ P). apply Rle_antisym; [ apply B, V' | apply (proj2 B'), V ].
Qed.
Lemma calibrated3_total os r : plain_obs os -> calibrated3 os r ->
  total_error 3 (List.length (sightings os)) (he_final_cost_per_obs r) = space_error (sightings os) (he_camera_mount_to_camera r) (he_target_mount_to_target r).
Proof.
  intros PO (u & solve & cov & p & Ho & E & Eo & B). subst os.
  rewrite (he_error3 _ _ _ _ _ Ho E PO (proj1 B)). apply total_is; [ lia | ].
  destruct (sightings _); [ intros _ | discriminate ]. unfold space_error, half_squares. cbn. ring.
Qed.
Lemma calibrated3_best os r : calibrated3 os r -> best_in_space (sightings os) (he_camera_mount_to_camera r) (he_target_mount_to_target r).
Proof. intros (u & solve & cov & p & _ & _ & _ & B). exact B. Qed.
Lemma pool_points os os1 os2 r r1 r2 : plain_obs os -> plain_obs os1 -> plain_obs os2 ->
  calibrated3 os r -> calibrated3 os1 r1 -> calibrated3 os2 r2 -> pooled (sightings os) (sightings os1) (sightings os2) ->
  total_error 3 (List.length (sightings os1)) (he_final_cost_per_obs r1) + total_error 3 (List.length (sightings os2)) (he_final_cost_per_obs r2) <=
    total_error 3 (List.length (sightings os)) (he_final_cost_per_obs r) /\
  (he_camera_mount_to_camera r1 = he_camera_mount_to_camera r2 -> he_target_mount_to_target r1 = he_target_mount_to_target r2 ->
   best_in_space (sightings os) (he_camera_mount_to_camera r1) (he_target_mount_to_target r1) /\
   total_error 3 (List.length (sightings os)) (he_final_cost_per_obs r) =
     total_error 3 (List.length (sightings os1)) (he_final_cost_per_obs r1) + total_error 3 (List.length (sightings os2)) (he_final_cost_per_obs r2)).
Proof.
  intros PO PO1 PO2 C C1 C2 P. rewrite (calibrated3_total _ _ PO C), (calibrated3_total _ _ PO1 C1), (calibrated3_total _ _ PO2 C2).
  apply calibrated3_best in C, C1, C2. destruct C as (RX & RZ & B), C1 as (RX1 & RZ1 & B1), C2 as (RX2 & RZ2 & B2). split.
  - rewrite (space_pool _ _ _ _ _ P). specialize (B1 _ _ RX RZ). specialize (B2 _ _ RX RZ). lra.
  - intros E1 E2. rewrite <- ?E1, <- ?E2 in B2 |- *.
    assert (B' : best_in_space (sightings os) (he_camera_mount_to_camera r1) (he_target_mount_to_target r1)).
    { split; [ exact RX1 | split; [ exact RZ1 | ] ]. intros X' Z' WX WZ. rewrite !(space_pool _ _ _ _ _ P).
      specialize (B1 _ _ WX WZ). specialize (B2 _ _ WX WZ). lra. }
    split; [ exact B' | ]. rewrite <- (space_pool _ _ _ _ _ P). apply Rle_antisym; [ apply B; assumption | apply B'; assumption ].
Qed.
(** Every measurement listed twice *)
Lemma twice_images k os os1 r r1 : plain_obs os -> plain_obs os1 -> calibrated k os r -> calibrated k os1 r1 -> sightings os1 <> [] ->
  pooled (sightings os) (sightings os1) (sightings os1) ->
  he_final_cost_per_obs r = he_final_cost_per_obs r1 /\ best_for_images k (sightings os) (he_camera_mount_to_camera r1) (he_target_mount_to_target r1) /\
  best_for_images k (sightings os1) (he_camera_mount_to_camera r) (he_target_mount_to_target r).
Proof.
  intros PO PO1 C C1 N P. destruct (pool_images _ _ _ _ _ _ _ PO PO1 PO1 C C1 C1 P) as [_ H]. destruct (H eq_refl eq_refl) as [B E]. split.
  - refine (twice_per_obs 2 _ _ _ _ ltac:(lia) (length_pool _ _ _ P) _ E). destruct (sightings os1); [ contradiction | discriminate ].
  - split; [ exact B | ]. apply calibrated_best in C, C1. destruct C as [V Bv]. pose proof V as V'. apply (view_pool _ _ _ _ _ P) in V' as [V1 _].
    split; [ exact V1 | ]. intros X' Z' W. assert (W' : in_view (sightings os) X' Z') by (apply (view_pool _ _ _ _ _ P); auto).
    specialize (Bv _ _ W'). rewrite !(image_pool _ _ _ _ _ _ P) in Bv. lra.
Qed.
Lemma twice_points os os1 r r1 : plain_obs os -> plain_obs os1 -> calibrated3 os r -> calibrated3 os1 r1 -> sightings os1 <> [] ->
  pooled (sightings os) (sightings os1) (sightings os1) ->
  he_final_cost_per_obs r = he_final_cost_per_obs r1 /\ best_in_space (sightings os) (he_camera_mount_to_camera r1) (he_target_mount_to_target r1) /\
  best_in_space (sightings os1) (he_camera_mount_to_camera r) (he_target_mount_to_target r).
Proof.
  intros PO PO1 C C1 N P. destruct (pool_points _ _ _ _ _ _ PO PO1 PO1 C C1 C1 P) as [_ H]. destruct (H eq_refl eq_refl) as [B E]. split.
  - refine (twice_per_obs 3 _ _ _ _ ltac:(lia) (length_pool _ _ _ P) _ E). destruct (sightings os1); [ contradiction | discriminate ].
  - split; [ exact B | ]. apply calibrated3_best in C. destruct C as (RX & RZ & Bv). split; [ exact RX | split; [ exact RZ | ] ].
    intros X' Z' WX WZ. specialize (Bv _ _ WX WZ). rewrite !(space_pool _ _ _ _ _ P) in Bv. lra.
Qed.

(** ** Pose estimation *)
Lemma estimated3_total cs r : estimated3 cs r -> total_error 3 (List.length cs) (pnp_final_cost_per_obs r) = pose_error3 cs (pnp_camera_to_target r).
Proof.
  intros (u & solve & cov & p & Ho & E & Eo & B). subst cs. rewrite (pnp_error3 _ _ _ _ _ Ho E). apply total_is; [ lia | ].
  destruct (pnp3_correspondences p); [ intros _ | discriminate ]. unfold pose_error3, half_squares. cbn. ring.
Qed.
Lemma estimated_pose k cs r : estimated k cs r -> best_pose k cs (pnp_camera_to_target r).
Proof. intros (u & solve & cov & p & _ & _ & _ & _ & _ & B). exact B. Qed.
Lemma estimated3_pose cs r : estimated3 cs r -> best_pose3 cs (pnp_camera_to_target r).
Proof. intros (u & solve & cov & p & _ & _ & _ & B). exact B. Qed.
Lemma pool_picture k cs cs1 cs2 r r1 r2 : estimated k cs r -> estimated k cs1 r1 -> estimated k cs2 r2 -> pooled cs cs1 cs2 ->
  total_error 2 (List.length cs1) (pnp_final_cost_per_obs r1) + total_error 2 (List.length cs2) (pnp_final_cost_per_obs r2) <=
    total_error 2 (List.length cs) (pnp_final_cost_per_obs r) /\
  (pnp_camera_to_target r1 = pnp_camera_to_target r2 ->
   best_pose k cs (pnp_camera_to_target r1) /\
   total_error 2 (List.length cs) (pnp_final_cost_per_obs r) =
     total_error 2 (List.length cs1) (pnp_final_cost_per_obs r1) + total_error 2 (List.length cs2) (pnp_final_cost_per_obs r2)).
Proof.
  intros C C1 C2 P. unfold total_error. rewrite (estimated_error _ _ _ C), (estimated_error _ _ _ C1), (estimated_error _ _ _ C2).
  apply estimated_pose in C, C1, C2. destruct C as (RT & V & B), C1 as (RT1 & V1 & B1), C2 as (RT2 & V2 & B2).
  assert (Q : forall T, pose_error k cs T = pose_error k cs1 T + pose_error k cs2 T) by (intros T; apply squares_pool, P).
  assert (W1 : forall T, (forall c, In c cs -> 0 < vz (iso_app T (in_target c))) -> forall c, In c cs1 -> 0 < vz (iso_app T (in_target c))).
  { intros T H c Hc. apply H, (in_pool _ _ _ c P). tauto. }
  assert (W2 : forall T, (forall c, In c cs -> 0 < vz (iso_app T (in_target c))) -> forall c, In c cs2 -> 0 < vz (iso_app T (in_target c))).
  { intros T H c Hc. apply H, (in_pool _ _ _ c P). tauto. }
  split.
  - rewrite Q. specialize (B1 _ RT (W1 _ V)). specialize (B2 _ RT (W2 _ V)). lra.
  - intros E. rewrite <- E in *.
    assert (V' : forall c, In c cs -> 0 < vz (iso_app (pnp_camera_to_target r1) (in_target c))).
    { intros c Hc. apply (in_pool _ _ _ c P) in Hc as [Hc|Hc]; auto. }
    assert (B' : best_pose k cs (pnp_camera_to_target r1)).
    { split; [ exact RT1 | split; [ exact V' | ] ]. intros T' RT' VT'. rewrite !Q. specialize (B1 _ RT' (W1 _ VT')). specialize (B2 _ RT' (W2 _ VT')). lra. }
    split; [ exact B' | ]. rewrite <- Q. apply Rle_antisym; [ apply B; assumption | apply (proj2 (proj2 B')); assumption ].
Qed.
Lemma pool_cloud cs cs1 cs2 r r1 r2 : estimated3 cs r -> estimated3 cs1 r1 -> estimated3 cs2 r2 -> pooled cs cs1 cs2 ->
  total_error 3 (List.length cs1) (pnp_final_cost_per_obs r1) + total_error 3 (List.length cs2) (pnp_final_cost_per_obs r2) <=
    total_error 3 (List.length cs) (pnp_final_cost_per_obs r) /\
  (pnp_camera_to_target r1 = pnp_camera_to_target r2 ->
   best_pose3 cs (pnp_camera_to_target r1) /\
   total_error 3 (List.length cs) (pnp_final_cost_per_obs r) =
     total_error 3 (List.length cs1) (pnp_final_cost_per_obs r1) + total_error 3 (List.length cs2) (pnp_final_cost_per_obs r2)).
Proof.
  intros C C1 C2 P. rewrite (estimated3_total _ _ C), (estimated3_total _ _ C1), (estimated3_total _ _ C2).
  apply estimated3_pose in C, C1, C2. destruct C as (RT & B), C1 as (RT1 & B1), C2 as (RT2 & B2).
  assert (Q : forall T, pose_error3 cs T = pose_error3 cs1 T + pose_error3 cs2 T) by (intros T; apply squares_pool, P). split.
  - rewrite Q. specialize (B1 _ RT). specialize (B2 _ RT). lra.
  - intros E. rewrite <- E in *. assert (B' : best_pose3 cs (pnp_camera_to_target r1)).
    { split; [ exact RT1 | ]. intros T' RT'. rewrite !Q. specialize (B1 _ RT'). specialize (B2 _ RT'). lra. }
    split; [ exact B' | ]. rewrite <- Q. apply Rle_antisym; [ apply B; assumption | apply (proj2 B'); assumption ].
Qed.
Lemma twice_picture k cs cs1 r r1 : estimated k cs r -> estimated k cs1 r1 -> cs1 <> [] -> pooled cs cs1 cs1 ->
  pnp_final_cost_per_obs r = pnp_final_cost_per_obs r1 /\ best_pose k cs (pnp_camera_to_target r1).
Proof.
  intros C C1 N P. destruct (pool_picture _ _ _ _ _ _ _ C C1 C1 P) as [_ H]. destruct (H eq_refl) as [B E]. split; [ | exact B ].
  refine (twice_per_obs 2 _ _ _ _ ltac:(lia) (length_pool _ _ _ P) _ E). destruct cs1; [ contradiction | discriminate ].
Qed.
Lemma twice_cloud cs cs1 r r1 : estimated3 cs r -> estimated3 cs1 r1 -> cs1 <> [] -> pooled cs cs1 cs1 ->
  pnp_final_cost_per_obs r = pnp_final_cost_per_obs r1 /\ best_pose3 cs (pnp_camera_to_target r1).
Proof.
  intros C C1 N P. destruct (pool_cloud _ _ _ _ _ _ C C1 C1 P) as [_ H]. destruct (H eq_refl) as [B E]. split; [ | exact B ].
  refine (twice_per_obs 3 _ _ _ _ ltac:(lia) (length_pool _ _ _ P) _ E). destruct cs1; [ contradiction | discriminate ].
Qed.

(** ** Several cameras: the images of the second session get later numbers. *)
Definition later (m : nat -> nat) (vs : list view) : list view := map (fun v => let '(c, i, x) := v in (c, (m c + i)%nat, x)) vs.
Lemma in_later m vs c i x : In (c, i, x) (later m vs) <-> exists j, i = (m c + j)%nat /\ In (c, j, x) vs.
Proof.
  unfold later. rewrite in_map_iff. split.
  - intros ([[c' j] x'] & E & H). injection E as <- <- <-. exists j. auto.
  - intros (j & -> & H). exists (c, j, x). auto.
Qed.
Lemma rig_pool k vs vs1 vs2 m T : Permutation vs (vs1 ++ later m vs2) ->
  rig_error k vs T = rig_error k vs1 T + rig_error k vs2 (fun c i => T c (m c + i)%nat) /\
  (rig_in_view vs T <-> rig_in_view vs1 T /\ rig_in_view vs2 (fun c i => T c (m c + i)%nat)).
Proof.
  intros P. split.
  - unfold rig_error at 1. rewrite (squares_pool _ _ _ _ P). f_equal. unfold rig_error, later. rewrite flat_map_map. f_equal.
    apply flat_map_same. intros [[c i] x] _. reflexivity.
  - unfold rig_in_view. split.
    + intros H. split; intros c i x Hx; apply (H c _ x), (in_pool _ _ _ _ P); [ left; exact Hx | right; apply in_later; eauto ].
    + intros [H1 H2] c i x Hx. apply (in_pool _ _ _ _ P) in Hx as [Hx|Hx]; [ apply (H1 c i x Hx) | ].
      apply in_later in Hx as (j & -> & Hx). apply (H2 c j x Hx).
Qed.
Section Pool.
  Variables (F F1 F2 : poses -> Prop) (k : nat -> intrinsics) (vs vs1 vs2 : list view) (m : nat -> nat).
  Hypothesis P : Permutation vs (vs1 ++ later m vs2).
  Hypothesis Parts : forall T, F T -> exists T1 T2, F1 T1 /\ F2 T2 /\
    (forall c i x, In (c, i, x) vs1 -> T c i = T1 c i) /\ (forall c i x, In (c, i, x) vs2 -> T c (m c + i)%nat = T2 c i).
  Variables (T1 T2 : poses).
  Hypothesis (B1 : best_of F1 k vs1 T1) (B2 : best_of F2 k vs2 T2).
  Lemma pool_le T : F T -> rig_in_view vs T -> rig_error k vs1 T1 + rig_error k vs2 T2 <= rig_error k vs T.
  Proof.
    intros HF V. destruct (Parts T HF) as (Ta & Tb & Fa & Fb & Ea & Eb). destruct (rig_pool k vs vs1 vs2 m T P) as [-> W].
    apply W in V as [Va Vb]. rewrite (rig_error_ext k vs1 T Ta Ea), (rig_error_ext k vs2 _ Tb Eb).
    apply (rig_in_view_ext _ _ _ Ea) in Va. apply (rig_in_view_ext _ _ _ Eb) in Vb.
    pose proof (proj2 (proj2 B1) Ta Fa Va). pose proof (proj2 (proj2 B2) Tb Fb Vb). lra.
  Qed.
  Lemma pool_best T : F T -> (forall c i x, In (c, i, x) vs1 -> T c i = T1 c i) -> (forall c i x, In (c, i, x) vs2 -> T c (m c + i)%nat = T2 c i) ->
    best_of F k vs T /\ rig_error k vs T = rig_error k vs1 T1 + rig_error k vs2 T2.
  Proof.
    intros HF E1 E2. assert (E : rig_error k vs T = rig_error k vs1 T1 + rig_error k vs2 T2).
    { destruct (rig_pool k vs vs1 vs2 m T P) as [-> _]. rewrite (rig_error_ext k vs1 T T1 E1), (rig_error_ext k vs2 _ T2 E2). reflexivity. }
    split; [ | exact E ]. split; [ exact HF | split ].
    - apply (rig_pool k vs vs1 vs2 m T P). split.
      + apply (rig_in_view_ext vs1 T1 T); [ intros c i x Hx; symmetry; apply (E1 c i x Hx) | apply B1 ].
      + apply (rig_in_view_ext vs2 T2); [ intros c i x Hx; symmetry; apply (E2 c i x Hx) | apply B2 ].
    - intros T' HF' V'. rewrite E. apply pool_le; assumption.
  Qed.
End Pool.

Lemma views_flat {A} images (h : A -> list (nat * nat)) l : views images (flat_map h l) = flat_map (fun a => views images (h a)) l.
Proof. unfold views. induction l as [|a l IH]; cbn [flat_map]; [ reflexivity | ]. rewrite flat_map_app, IH. reflexivity. Qed.
Lemma seq_later a n : seq a n = map (fun i => (a + i)%nat) (seq 0 n).
Proof.
  induction n as [|n IH]; [ reflexivity | ]. rewrite seq_S, IH, seq_S, map_app. reflexivity.
Qed.
Lemma later_flat {A} m (f : A -> list view) l : later m (flat_map f l) = flat_map (fun a => later m (f a)) l.
Proof. apply map_flat_map. Qed.
Lemma views_pool images images1 images2 l1 l2 n :
  (forall c, (c < n)%nat -> nth c images [] = nth c images1 [] ++ nth c images2 [] /\ List.length (nth c images1 []) = l1 c) ->
  Permutation (views images (camera_major (fun c => l1 c + l2 c)%nat n))
    (views images1 (camera_major l1 n) ++ later l1 (views images2 (camera_major l2 n))).
Proof.
  intros H. unfold camera_major. rewrite !views_flat, later_flat. etransitivity; [ | apply flat_map_two ].
  match goal with |- Permutation ?a ?b => replace a with b; [ apply Permutation_refl | ] end.
  apply flat_map_same. intros c Hc. apply in_seq in Hc. destruct (H c ltac:(lia)) as [E L].
  rewrite seq_app, map_app. unfold views. rewrite flat_map_app. f_equal.
  - rewrite !flat_map_map. apply flat_map_same. intros i Hi. apply in_seq in Hi. cbn [fst snd]. rewrite E, app_nth1 by lia. reflexivity.
  - cbn [Nat.add]. rewrite (seq_later (l1 c)). rewrite map_map. unfold later. rewrite !flat_map_map, map_flat_map. apply flat_map_same. intros i Hi.
    cbn [fst snd]. rewrite map_map, E, app_nth2 by lia. replace (l1 c + i - List.length (nth c images1 []))%nat with i by lia. reflexivity.
Qed.

Lemma static_total p r : static_best p r -> total_error 2 (List.length (static_views p)) (sr_final_cost_per_obs r) =
  rig_error (camera_of (sp_intr p)) (static_views p) (static_poses p r).
Proof.
  intros (u & solve & cov & Ho & E & Sz & PW & RC & RZ & B). rewrite (static_reported _ _ _ _ _ Ho E Sz PW RC (proj1 (proj2 B))).
  apply total_is; [ lia | apply rig_empty ].
Qed.
Lemma wrist_total p r : wrist_best p r -> total_error 2 (List.length (wrist_views p)) (wr_final_cost_per_obs r) =
  rig_error (camera_of (wp_intr p)) (wrist_views p) (wrist_poses p r).
Proof.
  intros (solve & Ho & E & Sz & PW & PC & RC & RZ & B). rewrite (proj1 (wrist_reported _ _ _ Ho E Sz PW PC RC (proj1 (proj2 B)))).
  apply total_is; [ lia | apply rig_empty ].
Qed.
Lemma only_total p r : only_best p r -> total_error 2 (List.length (only_views p)) (or_final_cost_per_obs r) =
  rig_error (camera_of (op_intr p)) (only_views p) (only_poses r).
Proof.
  intros (solve & Ho & Lo & E & Sz & PF & RC & RT & B). rewrite (only_reported _ _ _ Ho Lo E Sz PF RC (proj1 (proj2 B))).
  apply total_is; [ lia | apply rig_empty ].
Qed.
Lemma mpnp_total p r : mpnp_best p r -> total_error 2 (List.length (single_views p)) (mr_final_cost_per_obs r) =
  rig_error (camera_of (mp_intr p)) (single_views p) (mpnp_poses p r).
Proof.
  intros (solve & Ho & E & Sz & PC & RT & B). rewrite (mpnp_reported _ _ _ Ho E Sz PC (proj1 (proj2 B))).
  apply total_is; [ lia | apply rig_empty ].
Qed.
Lemma nth_pool {A} (a b l : list A) d i : l = a ++ b -> (i < List.length a)%nat -> nth i l d = nth i a d.
Proof. intros -> L. apply app_nth1. exact L. Qed.
Lemma nth_pool' {A} (a b l : list A) d i : l = a ++ b -> nth (List.length a + i) l d = nth i b d.
Proof. intros ->. rewrite app_nth2_plus. reflexivity. Qed.

Lemma static_views_pool p p1 p2 : static_sizes p1 -> pooled_static p p1 p2 ->
  Permutation (static_views p) (static_views p1 ++ later (fun c => List.length (nth c (sp_wrist_poses p1) [])) (static_views p2)).
Proof.
  intros (_ & _ & _ & Sz) (N1 & N2 & _ & _ & H). unfold static_views. rewrite N1, N2.
  erewrite (camera_major_ext (fun c => List.length (nth c (sp_wrist_poses p) []))).
  - apply views_pool. intros c Hc. split; [ apply H, Hc | apply Sz; rewrite N1; exact Hc ].
  - intros c Hc. rewrite (proj1 (H c Hc)), app_length. reflexivity.
Qed.
Lemma wrist_views_pool p p1 p2 : wrist_sizes p1 -> pooled_wrist p p1 p2 ->
  Permutation (wrist_views p) (wrist_views p1 ++ later (fun _ => List.length (wp_wrist_poses p1)) (wrist_views p2)).
Proof.
  intros (_ & _ & Sz) (N1 & N2 & _ & _ & W & H). unfold wrist_views. rewrite N1 in *. rewrite N2, W, app_length.
  apply (views_pool _ _ _ (fun _ => List.length (wp_wrist_poses p1)) (fun _ => List.length (wp_wrist_poses p2))).
  intros c Hc. split; [ apply H, Hc | apply Sz, Hc ].
Qed.
Lemma only_views_pool p p1 p2 : only_sizes p1 -> pooled_only p p1 p2 ->
  Permutation (only_views p) (only_views p1 ++ later (fun _ => List.length (op_base_to_target_guess p1)) (only_views p2)).
Proof.
  intros (_ & _ & Sz) (N1 & N2 & _ & _ & W & H). unfold only_views. rewrite N1 in *. rewrite N2, W.
  etransitivity; [ apply views_perm, Permutation_sym, majors | ].
  etransitivity; [ apply (views_pool _ (op_image_observations p1) (op_image_observations p2) (fun _ => List.length (op_base_to_target_guess p1)) (fun _ => List.length (op_base_to_target_guess p2))) | ].
  - intros c Hc. split; [ apply H, Hc | apply Sz, Hc ].
  - apply Permutation_app; [ apply views_perm, majors | ]. apply Permutation_map, views_perm, majors.
Qed.
Lemma mpnp_views_pool p p1 p2 : pooled_mpnp p p1 p2 ->
  Permutation (single_views p) (single_views p1 ++ later (fun _ => 0%nat) (single_views p2)).
Proof.
  intros (N1 & N2 & _ & _ & H).
  replace (later (fun _ => 0%nat) (single_views p2)) with (single_views p2)
    by (unfold later; rewrite <- (map_id (single_views p2)) at 1; apply map_ext; intros [[c i] x]; reflexivity).
  unfold single_views. rewrite <- map_app. apply Permutation_map. unfold mpnp_views. rewrite N1, N2.
  etransitivity; [ | apply flat_map_two ]. apply flat_map_perm_pointwise. intros c Hc. apply in_seq in Hc.
  rewrite <- map_app. apply Permutation_map, H. lia.
Qed.
Lemma in_wrist p c i x : In (c, i, x) (wrist_views p) -> (c < List.length (wp_base_to_camera_guess p))%nat /\ (i < List.length (wp_wrist_poses p))%nat.
Proof. unfold wrist_views. rewrite in_views, in_camera_major. tauto. Qed.
Lemma in_only p c i x : In (c, i, x) (only_views p) -> (c < List.length (op_base_to_camera_guess p))%nat /\ (i < List.length (op_base_to_target_guess p))%nat.
Proof. unfold only_views. rewrite in_views, in_image_major. tauto. Qed.

Lemma pool_static p p1 p2 r r1 r2 : static_best p r -> static_best p1 r1 -> static_best p2 r2 -> pooled_static p p1 p2 ->
  let e1 := total_error 2 (List.length (static_views p1)) (sr_final_cost_per_obs r1) in
  let e2 := total_error 2 (List.length (static_views p2)) (sr_final_cost_per_obs r2) in
  let e := total_error 2 (List.length (static_views p)) (sr_final_cost_per_obs r) in
  e1 + e2 <= e /\
  (sr_base_to_camera r1 = sr_base_to_camera r2 -> sr_wrist_to_target r1 = sr_wrist_to_target r2 ->
   best_of (cameras_and_wrist (List.length (sp_base_to_camera_guess p)) (static_wrist p)) (camera_of (sp_intr p)) (static_views p) (static_poses p r1) /\
   e = e1 + e2).
Proof.
  intros H H1 H2 Po. cbv zeta. rewrite (static_total _ _ H), (static_total _ _ H1), (static_total _ _ H2).
  destruct H as (u & solve & cov & Ho & E & Sz & PW & RC & RZ & B).
  destruct H1 as (u1 & solve1 & cov1 & Ho1 & E1 & Sz1 & PW1 & RC1 & RZ1 & B1).
  destruct H2 as (u2 & solve2 & cov2 & Ho2 & E2 & Sz2 & PW2 & RC2 & RZ2 & B2).
  pose proof (static_views_pool _ _ _ Sz1 Po) as P. destruct Po as (N1 & N2 & K1 & K2 & D). rewrite K1, K2, N1, N2 in *.
  set (n := List.length (sp_base_to_camera_guess p)) in *. set (m := fun c => List.length (nth c (sp_wrist_poses p1) [])) in *.
  assert (W1 : forall c i x, In (c, i, x) (static_views p1) -> (c < n)%nat /\ static_wrist p c i = static_wrist p1 c i).
  { intros c i x Hx. apply in_static_views in Hx as (Hc & Hi & _). rewrite N1 in Hc. split; [ exact Hc | ].
    unfold static_wrist. apply (nth_pool _ _ _ _ _ (proj1 (D c Hc)) Hi). }
  assert (W2 : forall c i x, In (c, i, x) (static_views p2) -> (c < n)%nat /\ static_wrist p c (m c + i)%nat = static_wrist p2 c i).
  { intros c i x Hx. apply in_static_views in Hx as (Hc & Hi & _). rewrite N2 in Hc. split; [ exact Hc | ].
    unfold static_wrist. apply (nth_pool' _ _ _ _ _ (proj1 (D c Hc))). }
  assert (Parts : forall T, cameras_and_wrist n (static_wrist p) T -> exists T1 T2,
    cameras_and_wrist n (static_wrist p1) T1 /\ cameras_and_wrist n (static_wrist p2) T2 /\
    (forall c i x, In (c, i, x) (static_views p1) -> T c i = T1 c i) /\
    (forall c i x, In (c, i, x) (static_views p2) -> T c (m c + i)%nat = T2 c i)).
  { intros T (C & Z & HC & HZ & HT).
    exists (fun c i => iso_mul (iso_inv (C c)) (iso_mul (static_wrist p1 c i) Z)), (fun c i => iso_mul (iso_inv (C c)) (iso_mul (static_wrist p2 c i) Z)).
    split; [ exists C, Z; auto | ]. split; [ exists C, Z; auto | ]. split; intros c i x Hx.
    - destruct (W1 c i x Hx) as [Hc Q]. rewrite HT, Q by exact Hc. reflexivity.
    - destruct (W2 c i x Hx) as [Hc Q]. rewrite HT, Q by exact Hc. reflexivity. }
  split; [ apply (pool_le _ _ _ _ _ _ _ _ P Parts _ _ B1 B2); apply B | ]. intros EC EZ.
  destruct (pool_best _ _ _ _ _ _ _ _ P Parts _ _ B1 B2 (static_poses p r1)) as [B' Q].
  - exists (fun c => nth c (sr_base_to_camera r1) iso_id), (sr_wrist_to_target r1). split; [ apply nth_rigid', RC1 | ]. split; [ exact RZ1 | ]. reflexivity.
  - intros c i x Hx. unfold static_poses. rewrite (proj2 (W1 c i x Hx)). reflexivity.
  - intros c i x Hx. unfold static_poses. rewrite (proj2 (W2 c i x Hx)), EC, EZ. reflexivity.
  - split; [ exact B' | ]. rewrite <- Q. apply (best_same _ _ _ _ _ B B').
Qed.
Lemma pool_wrist p p1 p2 r r1 r2 : wrist_best p r -> wrist_best p1 r1 -> wrist_best p2 r2 -> pooled_wrist p p1 p2 ->
  let e1 := total_error 2 (List.length (wrist_views p1)) (wr_final_cost_per_obs r1) in
  let e2 := total_error 2 (List.length (wrist_views p2)) (wr_final_cost_per_obs r2) in
  let e := total_error 2 (List.length (wrist_views p)) (wr_final_cost_per_obs r) in
  e1 + e2 <= e /\
  (wr_base_to_camera r1 = wr_base_to_camera r2 -> wr_wrist_to_target r1 = wr_wrist_to_target r2 ->
   best_of (rig_and_wrist (List.length (wp_base_to_camera_guess p)) (fun c => nth c (wp_base_to_camera_guess p) iso_id)
              (fun i => nth i (wp_wrist_poses p) iso_id)) (camera_of (wp_intr p)) (wrist_views p) (wrist_poses p r1) /\
   e = e1 + e2).
Proof.
  intros H H1 H2 Po. cbv zeta. rewrite (wrist_total _ _ H), (wrist_total _ _ H1), (wrist_total _ _ H2).
  destruct H as (solve & Ho & E & Sz & PW & PC & RC & RZ & B).
  destruct H1 as (solve1 & Ho1 & E1 & Sz1 & PW1 & PC1 & RC1 & RZ1 & B1).
  destruct H2 as (solve2 & Ho2 & E2 & Sz2 & PW2 & PC2 & RC2 & RZ2 & B2).
  destruct (wrist_carried _ _ _ E1 Sz1 PW1 PC1 RC1) as (K & RK & Carried).
  pose proof (wrist_views_pool _ _ _ Sz1 Po) as P. destruct Po as (N1 & N2 & K1 & K2 & Wp & D). rewrite K1, K2, N1, N2 in *.
  set (n := List.length (wp_base_to_camera_guess p)) in *. set (m := List.length (wp_wrist_poses p1)) in *.
  assert (W1 : forall c i x, In (c, i, x) (wrist_views p1) -> (c < n)%nat /\ nth i (wp_wrist_poses p) iso_id = nth i (wp_wrist_poses p1) iso_id).
  { intros c i x Hx. apply in_wrist in Hx as (Hc & Hi). rewrite N1 in Hc. split; [ exact Hc | ]. apply (nth_pool _ _ _ _ _ Wp Hi). }
  assert (W2 : forall c i x, In (c, i, x) (wrist_views p2) -> (c < n)%nat /\ nth (m + i) (wp_wrist_poses p) iso_id = nth i (wp_wrist_poses p2) iso_id).
  { intros c i x Hx. apply in_wrist in Hx as (Hc & Hi). rewrite N2 in Hc. split; [ exact Hc | ]. apply (nth_pool' _ _ _ _ _ Wp). }
  set (G := fun c => nth c (wp_base_to_camera_guess p) iso_id) in *.
  assert (Parts : forall T, rig_and_wrist n G (fun i => nth i (wp_wrist_poses p) iso_id) T -> exists T1 T2,
    rig_and_wrist n G (fun i => nth i (wp_wrist_poses p1) iso_id) T1 /\ rig_and_wrist n G (fun i => nth i (wp_wrist_poses p2) iso_id) T2 /\
    (forall c i x, In (c, i, x) (wrist_views p1) -> T c i = T1 c i) /\
    (forall c i x, In (c, i, x) (wrist_views p2) -> T c (m + i)%nat = T2 c i)).
  { intros T (C & Z & HC & HZ & HT).
    exists (fun c i => iso_mul (iso_inv (iso_mul C (G c))) (iso_mul (nth i (wp_wrist_poses p1) iso_id) Z)),
           (fun c i => iso_mul (iso_inv (iso_mul C (G c))) (iso_mul (nth i (wp_wrist_poses p2) iso_id) Z)).
    split; [ exists C, Z; auto | ]. split; [ exists C, Z; auto | ]. split; intros c i x Hx.
    - destruct (W1 c i x Hx) as [Hc Q]. rewrite HT, Q by exact Hc. reflexivity.
    - destruct (W2 c i x Hx) as [Hc Q]. rewrite HT, Q by exact Hc. reflexivity. }
  split; [ apply (pool_le _ _ _ _ _ _ _ (fun _ => m) P Parts _ _ B1 B2); apply B | ]. intros EC EZ.
  destruct (pool_best _ _ _ _ _ _ _ (fun _ => m) P Parts _ _ B1 B2 (wrist_poses p r1)) as [B' Q].
  - exists K, (wr_wrist_to_target r1). split; [ exact RK | ]. split; [ exact RZ1 | ]. intros c i Hc. unfold wrist_poses. rewrite (Carried c Hc). reflexivity.
  - intros c i x Hx. unfold wrist_poses. rewrite (proj2 (W1 c i x Hx)). reflexivity.
  - intros c i x Hx. unfold wrist_poses. rewrite (proj2 (W2 c i x Hx)), EC, EZ. reflexivity.
  - split; [ exact B' | ]. rewrite <- Q. apply (best_same _ _ _ _ _ B B').
Qed.

Lemma only_targets p r : only_best p r -> List.length (or_base_to_target r) = List.length (op_base_to_target_guess p).
Proof.
  intros (solve & Ho & Lo & E & Sz & PF & RC & RT & B). destruct (only_right p Sz PF) as (blocks & _ & Res).
  destruct (Res solve) as (m & s & r' & _ & Er & _ & Ht & _). rewrite Er in E. injection E as <-. rewrite Ht, map_length, seq_length. reflexivity.
Qed.
Lemma pool_only p p1 p2 r r1 r2 : only_best p r -> only_best p1 r1 -> only_best p2 r2 -> pooled_only p p1 p2 ->
  let e1 := total_error 2 (List.length (only_views p1)) (or_final_cost_per_obs r1) in
  let e2 := total_error 2 (List.length (only_views p2)) (or_final_cost_per_obs r2) in
  let e := total_error 2 (List.length (only_views p)) (or_final_cost_per_obs r) in
  e1 + e2 <= e /\
  (or_base_to_camera r1 = or_base_to_camera r2 ->
   best_of (cameras_and_targets (List.length (op_base_to_camera_guess p))) (camera_of (op_intr p)) (only_views p)
     (fun c i => iso_mul (iso_inv (nth c (or_base_to_camera r1) iso_id)) (nth i (or_base_to_target r1 ++ or_base_to_target r2) iso_id)) /\
   e = e1 + e2).
Proof.
  intros H H1 H2 Po. cbv zeta. rewrite (only_total _ _ H), (only_total _ _ H1), (only_total _ _ H2). pose proof (only_targets _ _ H1) as L1.
  destruct H as (solve & Ho & Lo & E & Sz & PF & RC & RT & B).
  destruct H1 as (solve1 & Ho1 & Lo1 & E1 & Sz1 & PF1 & RC1 & RT1 & B1).
  destruct H2 as (solve2 & Ho2 & Lo2 & E2 & Sz2 & PF2 & RC2 & RT2 & B2).
  pose proof (only_views_pool _ _ _ Sz1 Po) as P. destruct Po as (N1 & N2 & K1 & K2 & Wp & D). rewrite K1, K2, N1, N2 in *.
  set (n := List.length (op_base_to_camera_guess p)) in *. set (m := List.length (op_base_to_target_guess p1)) in *.
  assert (W1 : forall c i x, In (c, i, x) (only_views p1) -> (c < n)%nat /\ (i < m)%nat).
  { intros c i x Hx. apply in_only in Hx as (Hc & Hi). rewrite N1 in Hc. auto. }
  assert (W2 : forall c i x, In (c, i, x) (only_views p2) -> (c < n)%nat).
  { intros c i x Hx. apply in_only in Hx as (Hc & Hi). rewrite N2 in Hc. auto. }
  assert (Parts : forall T, cameras_and_targets n T -> exists T1 T2, cameras_and_targets n T1 /\ cameras_and_targets n T2 /\
    (forall c i x, In (c, i, x) (only_views p1) -> T c i = T1 c i) /\
    (forall c i x, In (c, i, x) (only_views p2) -> T c (m + i)%nat = T2 c i)).
  { intros T (C & Z & HC & HZ & HT).
    exists (fun c i => iso_mul (iso_inv (C c)) (Z i)), (fun c i => iso_mul (iso_inv (C c)) (Z (m + i)%nat)).
    split; [ exists C, Z; auto | ]. split; [ exists C, (fun i => Z (m + i)%nat); auto | ].
    split; intros c i x Hx; [ apply HT, (W1 c i x Hx) | apply HT, (W2 c i x Hx) ]. }
  split; [ apply (pool_le _ _ _ _ _ _ _ (fun _ => m) P Parts _ _ B1 B2); apply B | ]. intros EC.
  destruct (pool_best _ _ _ _ _ _ _ (fun _ => m) P Parts _ _ B1 B2
    (fun c i => iso_mul (iso_inv (nth c (or_base_to_camera r1) iso_id)) (nth i (or_base_to_target r1 ++ or_base_to_target r2) iso_id))) as [B' Q].
  - exists (fun c => nth c (or_base_to_camera r1) iso_id), (fun i => nth i (or_base_to_target r1 ++ or_base_to_target r2) iso_id).
    split; [ apply nth_rigid', RC1 | ]. split; [ | reflexivity ]. apply nth_rigid'. intros T HT. apply in_app_or in HT as [HT|HT]; auto.
  - intros c i x Hx. unfold only_poses. rewrite app_nth1 by (rewrite L1; apply (W1 c i x Hx)). reflexivity.
  - intros c i x Hx. unfold only_poses. rewrite <- L1, app_nth2_plus, EC. reflexivity.
  - split; [ exact B' | ]. rewrite <- Q. apply (best_same _ _ _ _ _ B B').
Qed.
Lemma pool_mpnp p p1 p2 r r1 r2 : mpnp_best p r -> mpnp_best p1 r1 -> mpnp_best p2 r2 -> pooled_mpnp p p1 p2 ->
  let e1 := total_error 2 (List.length (single_views p1)) (mr_final_cost_per_obs r1) in
  let e2 := total_error 2 (List.length (single_views p2)) (mr_final_cost_per_obs r2) in
  let e := total_error 2 (List.length (single_views p)) (mr_final_cost_per_obs r) in
  e1 + e2 <= e /\
  (mr_base_to_target r1 = mr_base_to_target r2 ->
   best_of (known_cameras (List.length (mp_base_to_camera p)) (fun c => nth c (mp_base_to_camera p) iso_id)) (camera_of (mp_intr p))
     (single_views p) (mpnp_poses p r1) /\
   e = e1 + e2).
Proof.
  intros H H1 H2 Po. cbv zeta. rewrite (mpnp_total _ _ H), (mpnp_total _ _ H1), (mpnp_total _ _ H2).
  destruct H as (solve & Ho & E & Sz & PC & RT & B).
  destruct H1 as (solve1 & Ho1 & E1 & Sz1 & PC1 & RT1 & B1).
  destruct H2 as (solve2 & Ho2 & E2 & Sz2 & PC2 & RT2 & B2).
  pose proof (mpnp_views_pool _ _ _ Po) as P. destruct Po as (N1 & N2 & K1 & K2 & D).
  unfold mpnp_poses in *. rewrite K1, K2, N1, N2 in *.
  set (n := List.length (mp_base_to_camera p)) in *. set (G := fun c => nth c (mp_base_to_camera p) iso_id) in *.
  assert (Parts : forall T, known_cameras n G T -> exists T1 T2, known_cameras n G T1 /\ known_cameras n G T2 /\
    (forall c i x, In (c, i, x) (single_views p1) -> T c i = T1 c i) /\
    (forall c i x, In (c, i, x) (single_views p2) -> T c (0 + i)%nat = T2 c i)).
  { intros T HT. exists T, T. auto. }
  split; [ apply (pool_le _ _ _ _ _ _ _ (fun _ => 0%nat) P Parts _ _ B1 B2); apply B | ]. intros ET.
  destruct (pool_best _ _ _ _ _ _ _ (fun _ => 0%nat) P Parts _ _ B1 B2 (fun c _ => iso_mul (iso_inv (nth c (mp_base_to_camera p) iso_id)) (mr_base_to_target r1))) as [B' Q].
  - apply B1.
  - reflexivity.
  - intros c i x Hx. rewrite ET. reflexivity.
  - split; [ exact B' | ]. rewrite <- Q. apply (best_same _ _ _ _ _ B B').
Qed.

(** The data listed twice *)
Lemma later_length m vs : List.length (later m vs) = List.length vs.
Proof. apply map_length. Qed.
Lemma nonempty {A} (l : list A) : l <> [] -> List.length l <> 0%nat.
Proof. destruct l; [ contradiction | discriminate ]. Qed.
Lemma twice_views (vs vs1 : list view) m : Permutation vs (vs1 ++ later m vs1) -> List.length vs = (List.length vs1 + List.length vs1)%nat.
Proof. intros P. rewrite (Permutation_length P), app_length, later_length. reflexivity. Qed.
Lemma twice_static p p1 r r1 : static_best p r -> static_best p1 r1 -> pooled_static p p1 p1 -> static_views p1 <> [] ->
  sr_final_cost_per_obs r = sr_final_cost_per_obs r1 /\
  best_of (cameras_and_wrist (List.length (sp_base_to_camera_guess p)) (static_wrist p)) (camera_of (sp_intr p)) (static_views p) (static_poses p r1).
Proof.
  intros H H1 Po N. destruct (pool_static _ _ _ _ _ _ H H1 H1 Po) as [_ Q]. destruct (Q eq_refl eq_refl) as [B E]. split; [ | exact B ].
  assert (Sz : static_sizes p1) by (destruct H1 as (? & ? & ? & ? & ? & Sz & _); exact Sz).
  refine (twice_per_obs 2 _ _ _ _ ltac:(lia) (twice_views _ _ _ (static_views_pool _ _ _ Sz Po)) (nonempty _ N) E).
Qed.
Lemma twice_wrist p p1 r r1 : wrist_best p r -> wrist_best p1 r1 -> pooled_wrist p p1 p1 -> wrist_views p1 <> [] ->
  wr_final_cost_per_obs r = wr_final_cost_per_obs r1 /\
  best_of (rig_and_wrist (List.length (wp_base_to_camera_guess p)) (fun c => nth c (wp_base_to_camera_guess p) iso_id)
             (fun i => nth i (wp_wrist_poses p) iso_id)) (camera_of (wp_intr p)) (wrist_views p) (wrist_poses p r1).
Proof.
  intros H H1 Po N. destruct (pool_wrist _ _ _ _ _ _ H H1 H1 Po) as [_ Q]. destruct (Q eq_refl eq_refl) as [B E]. split; [ | exact B ].
  assert (Sz : wrist_sizes p1) by (destruct H1 as (? & ? & ? & Sz & _); exact Sz).
  refine (twice_per_obs 2 _ _ _ _ ltac:(lia) (twice_views _ _ _ (wrist_views_pool _ _ _ Sz Po)) (nonempty _ N) E).
Qed.
Lemma twice_only p p1 r r1 : only_best p r -> only_best p1 r1 -> pooled_only p p1 p1 -> only_views p1 <> [] ->
  or_final_cost_per_obs r = or_final_cost_per_obs r1 /\
  best_of (cameras_and_targets (List.length (op_base_to_camera_guess p))) (camera_of (op_intr p)) (only_views p)
     (fun c i => iso_mul (iso_inv (nth c (or_base_to_camera r1) iso_id)) (nth i (or_base_to_target r1 ++ or_base_to_target r1) iso_id)).
Proof.
  intros H H1 Po N. destruct (pool_only _ _ _ _ _ _ H H1 H1 Po) as [_ Q]. destruct (Q eq_refl) as [B E]. split; [ | exact B ].
  assert (Sz : only_sizes p1) by (destruct H1 as (? & ? & ? & ? & Sz & _); exact Sz).
  refine (twice_per_obs 2 _ _ _ _ ltac:(lia) (twice_views _ _ _ (only_views_pool _ _ _ Sz Po)) (nonempty _ N) E).
Qed.
Lemma twice_mpnp p p1 r r1 : mpnp_best p r -> mpnp_best p1 r1 -> pooled_mpnp p p1 p1 -> single_views p1 <> [] ->
  mr_final_cost_per_obs r = mr_final_cost_per_obs r1 /\
  best_of (known_cameras (List.length (mp_base_to_camera p)) (fun c => nth c (mp_base_to_camera p) iso_id)) (camera_of (mp_intr p))
     (single_views p) (mpnp_poses p r1).
Proof.
  intros H H1 Po N. destruct (pool_mpnp _ _ _ _ _ _ H H1 H1 Po) as [_ Q]. destruct (Q eq_refl) as [B E]. split; [ | exact B ].
  refine (twice_per_obs 2 _ _ _ _ ltac:(lia) (twice_views _ _ _ (mpnp_views_pool _ _ _ Po)) (nonempty _ N) E).
Qed.
