(** C79: when a zero cost means that the rig found is the true one. *)
From Coq Require Import Reals Lra Psatz Arith Lia List.
From Verif.Base Require Import Geom Outcome Matrix.
From Verif.Model Require Import Pose Covariance Solver HandEye BlockSolver MultiCamera.
From Verif.Spec Require Import PinHole Frames HomographySpec PnpSpec MultiSpec UniqueSpec.
From Verif.Proofs Require Import GeomLemmas RotLemmas AngleAxisLemmas PoseProofs ListLemmas CovarianceProofs HandEyeProofs PnpProofs
  MultiCameraProofs UniqueLemmas UniqueProofs.
Import ListNotations.
Local Open Scope R_scope.

Lemma blocks_zero {V} (solve : block_solver) blocks m0 m s (err : V -> list R) vs : honest_blocks solve ->
  solve blocks m0 = (m, s) -> map (fun b => rb_eval b m) blocks = map err vs ->
  (final_cost s = 0 <-> forall v, In v vs -> forall e, In e (err v) -> e = 0).
Proof.
  intros H E M. specialize (H blocks m0). rewrite E in H. rewrite H.
  rewrite flat_map_concat_map, M, <- flat_map_concat_map. split.
  - intros Z v Iv e Ie. apply (half_squares_zero _ Z). apply in_flat_map. eauto.
  - intros Z. apply half_squares_all_zero. intros e Ie. apply in_flat_map in Ie as (v & Iv & Ie). eauto.
Qed.
Lemma seen_same k S T x : in_front (iso_app S (in_target x)) -> in_image x = pinhole k (iso_app T (in_target x)) ->
  (forall e, In e (seen_error k S x) -> e = 0) ->
  pinhole k (iso_app S (in_target x)) = pinhole k (iso_app T (in_target x)).
Proof.
  intros F I Q. unfold seen_error in Q. rewrite arr_pinhole, I in Q by (apply front_pos in F; lra).
  pose proof (Q _ (or_introl eq_refl)). pose proof (Q _ (or_intror (or_introl eq_refl))).
  apply vec2_ext; lra.
Qed.
Lemma usable_same k S T cs : rigid S -> rigid T -> usable k T cs -> perfect_image k T cs -> all_in_front S cs ->
  (forall x, In x cs -> forall e, In e (seen_error k S x) -> e = 0) -> S = T.
Proof.
  intros RS RT (Fx & Fy & FF & NE) PI AF Q. apply (image_pose k _ _ cs); auto. intros c Hc.
  destruct (PI c Hc) as [F1 I1]. pose proof (AF c Hc) as F2.
  split; [ apply front_pos, F2 | split; [ apply front_pos, F1 | apply (seen_same k S T c F2 I1 (Q c Hc)) ] ].
Qed.
Lemma perfect_zero k T cs x : perfect_image k T cs -> In x cs -> forall e, In e (seen_error k T x) -> e = 0.
Proof.
  intros PI Hx e He. destruct (PI x Hx) as [F1 I1]. unfold seen_error in He.
  rewrite arr_pinhole, I1 in He by (apply front_pos in F1; lra). cbn [In] in He. destruct He as [<-|[<-|[]]]; lra.
Qed.
Lemma usable_nonempty k T cs : usable k T cs -> exists x, In x cs.
Proof. intros (_ & _ & FF & _). apply four_flat_nonempty, FF. Qed.

(** ** Multi-camera PnP *)
Lemma in_mpnp_views p c x : In (c, x) (mpnp_views p) <->
  (c < List.length (mp_base_to_camera p))%nat /\ In x (nth c (mp_image_observations p) []).
Proof.
  unfold mpnp_views. rewrite in_flat_map. split.
  - intros (c' & Hc & H). apply in_map_iff in H as (x' & [= -> ->] & H). apply in_seq in Hc. split; [ lia | exact H ].
  - intros [Hc H]. exists c. split; [ apply in_seq; lia | apply in_map, H ].
Qed.
Lemma mpnp_unique solve p r B0 :
  let n := List.length (mp_base_to_camera p) in
  let k c := nth c (mp_intr p) intr0 in
  let image c := nth c (mp_image_observations p) [] in
  let seen B c := iso_mul (iso_inv (nth c (mp_base_to_camera p) iso_id)) B in
  honest_blocks solve -> optimizeMpnp solve p = Ok r -> mpnp_sizes p ->
  (forall T, In T (mp_base_to_camera p) -> plain_pose T) ->
  rigid B0 -> rigid (mr_base_to_target r) ->
  (forall c, (c < n)%nat -> perfect_image (k c) (seen B0 c) (image c) /\
                       all_in_front (seen (mr_base_to_target r) c) (image c)) ->
  (exists c, (c < n)%nat /\ usable (k c) (seen B0 c) (image c)) ->
  (mr_final_cost_per_obs r = 0 <-> mr_base_to_target r = B0).
Proof.
  intros n k image seen Ho E Sz PC RB RR D (c & Hc & Us).
  destruct (mpnp_right p Sz PC) as (blocks & Ev & Res).
  destruct (Res solve) as (m0 & m & s & r' & _ & Es & Er & _ & Ht & _ & Hf).
  rewrite Er in E. injection E as ->. specialize (Ev m). rewrite <- Ht in Ev.
  destruct (usable_nonempty _ _ _ Us) as [x0 Hx0].
  rewrite Hf, per_obs_zero.
  2:{ pose proof (nonempty_in _ _ (proj2 (in_mpnp_views p c x0) (conj Hc Hx0))). lia. }
  rewrite (blocks_zero _ _ _ _ _ _ _ Ho Es Ev). split.
  - intros Z. assert (RC : rigid (nth c (mp_base_to_camera p) iso_id)) by (apply plain_rigid, PC, nth_In, Hc).
    destruct (D c Hc) as [PI AF].
    apply (cancel_l (iso_inv (nth c (mp_base_to_camera p) iso_id))); [ apply rigid_inv, RC | ].
    apply (usable_same (k c) _ _ (image c)); auto; try (apply rigid_mul; [ apply rigid_inv, RC | assumption ]).
    intros x Hx. apply (Z (c, x)). apply in_mpnp_views. auto.
  - intros EB [c' x] Hv. apply in_mpnp_views in Hv as [Hc' Hx]. destruct (D c' Hc') as [PI _].
    unfold mpnp_error. cbn [fst snd]. rewrite EB. apply (perfect_zero _ _ _ _ PI Hx).
Qed.

(** ** Multi-static-camera calibration *)
Lemma in_static_views p c i x : In (c, i, x) (static_views p) <->
  (c < List.length (sp_base_to_camera_guess p))%nat /\ (i < List.length (nth c (sp_wrist_poses p) []))%nat /\
  In x (nth i (nth c (sp_image_observations p) []) []).
Proof. unfold static_views. rewrite in_views, in_camera_major. tauto. Qed.
Lemma in_wrist_views p c i x : In (c, i, x) (wrist_views p) <->
  (c < List.length (wp_base_to_camera_guess p))%nat /\ (i < List.length (wp_wrist_poses p))%nat /\
  In x (nth i (nth c (wp_image_observations p) []) []).
Proof. unfold wrist_views. rewrite in_views, in_camera_major. tauto. Qed.
Lemma in_only_views p c i x : In (c, i, x) (only_views p) <->
  (c < List.length (op_base_to_camera_guess p))%nat /\ (i < List.length (op_base_to_target_guess p))%nat /\
  In x (nth i (nth c (op_image_observations p) []) []).
Proof. unfold only_views. rewrite in_views, in_image_major. tauto. Qed.
Lemma list_by_nth {A} (l : list A) n f d : List.length l = n -> (forall c, (c < n)%nat -> nth c l d = f c) -> l = map f (seq 0 n).
Proof.
  intros L H. apply (nth_ext _ _ d d); [ rewrite map_length, seq_length; exact L | ].
  intros c Hc. rewrite L in Hc. rewrite H by exact Hc.
  rewrite (nth_indep _ d (f 0%nat)) by (rewrite map_length, seq_length; exact Hc).
  rewrite map_nth, seq_nth by exact Hc. reflexivity.
Qed.
Lemma nth_map_seq' {A} (f : nat -> A) n c d : (c < n)%nat -> nth c (map f (seq 0 n)) d = f c.
Proof.
  intros H. rewrite (nth_indep _ d (f 0%nat)) by (rewrite map_length, seq_length; exact H).
  rewrite map_nth, seq_nth by exact H. reflexivity.
Qed.

Lemma static_unique u solve cov p r C0 Z0 :
  let n := List.length (sp_base_to_camera_guess p) in
  let k c := nth c (sp_intr p) intr0 in
  let wrist c i := nth i (nth c (sp_wrist_poses p) []) iso_id in
  let images c := List.length (nth c (sp_wrist_poses p) []) in
  let image c i := nth i (nth c (sp_image_observations p) []) [] in
  let seen C Z c i := iso_mul (iso_inv (C c)) (iso_mul (wrist c i) Z) in
  let found c := nth c (sr_base_to_camera r) iso_id in
  honest_blocks solve -> optimizeStatic u solve cov p = Ok r -> static_sizes p -> plain_wrists p ->
  (forall c, (c < n)%nat -> rigid (C0 c)) -> rigid Z0 ->
  (forall T, In T (sr_base_to_camera r) -> rigid T) -> rigid (sr_wrist_to_target r) ->
  (forall c i, (c < n)%nat -> (i < images c)%nat ->
     perfect_image (k c) (seen C0 Z0 c i) (image c i) /\
     all_in_front (seen found (sr_wrist_to_target r) c i) (image c i)) ->
  (exists c chosen, (c < n)%nat /\
     (forall i, In i chosen -> (i < images c)%nat /\ usable (k c) (seen C0 Z0 c i) (image c i)) /\
     two_axes (motions_of (map (wrist c) chosen))) ->
  (forall c, (c < n)%nat -> exists i, (i < images c)%nat /\ usable (k c) (seen C0 Z0 c i) (image c i)) ->
  (sr_final_cost_per_obs r = 0 <->
   sr_base_to_camera r = map C0 (seq 0 n) /\ sr_wrist_to_target r = Z0).
Proof.
  intros n k wrist images image seen found Ho E Sz PW RC0 RZ0 RC RZ D (c0 & chosen & Hc0 & Us0 & TA) Us.
  destruct (static_right p Sz PW) as (blocks & Ev & Res).
  destruct (Res u solve cov r E) as (m & s & Es & _ & Hz & Hl & Hcam & _ & Hf). fold n in Ev, Hz, Hl.
  assert (FD : forall c, (c < n)%nat -> found c = iso_inv (poseCalToEigen (read_pose m c)) /\ rigid (found c)).
  { intros c Hc. unfold found. rewrite <- Hl in Hc. split; [ | apply RC, nth_In, Hc ].
    apply Hcam. apply nth_error_nth'. exact Hc. }
  assert (RM : forall c, (c < n)%nat -> rigid (poseCalToEigen (read_pose m c))).
  { intros c Hc. apply rigid_of_inv. destruct (FD c Hc) as [<- R]. exact R. }
  specialize (Ev m RM).
  assert (Ev' : map (fun b => rb_eval b m) blocks = map (static_error p found (sr_wrist_to_target r)) (static_views p)).
  { rewrite Ev. apply map_ext_in. intros [[c i] x] Hv. apply in_static_views in Hv as (Hc & _). unfold static_error.
    rewrite Hz. destruct (FD c Hc) as [-> _]. reflexivity. }
  assert (RW : forall c i, (i < images c)%nat -> rigid (wrist c i)).
  { intros c i Hi. apply plain_rigid, (PW c), nth_In, Hi. }
  rewrite Hf, per_obs_zero.
  2:{ destruct (Us c0 Hc0) as (i & Hi & U). destruct (usable_nonempty _ _ _ U) as [x Hx].
      assert (L : List.length (static_views p) <> 0%nat) by exact (nonempty_in _ _ (proj2 (in_static_views p c0 i x) (conj Hc0 (conj Hi Hx)))). lia. }
  rewrite (blocks_zero _ _ _ _ _ _ _ Ho Es Ev'). split.
  - intros Z.
    assert (Same : forall c i, (c < n)%nat -> (i < images c)%nat -> usable (k c) (seen C0 Z0 c i) (image c i) ->
      seen found (sr_wrist_to_target r) c i = seen C0 Z0 c i).
    { intros c i Hc Hi U. destruct (D c i Hc Hi) as [PI AF]. destruct (FD c Hc) as [_ RF].
      apply (usable_same (k c) _ _ (image c i)); auto.
      - apply rigid_mul; [ apply rigid_inv, RF | apply rigid_mul; auto ].
      - apply rigid_mul; [ apply rigid_inv; auto | apply rigid_mul; auto ].
      - intros x Hx. apply (Z (c, i, x)). apply in_static_views. auto. }
    destruct (hand_eye_unique (found c0) (sr_wrist_to_target r) (C0 c0) Z0 (map (wrist c0) chosen)) as [_ EZ]; auto.
    { apply FD, Hc0. }
    { intros W HW. apply in_map_iff in HW as (i & <- & Hi). apply RW, Us0, Hi. }
    { intros W HW. apply in_map_iff in HW as (i & <- & Hi). destruct (Us0 i Hi) as [Hi' U]. apply (Same c0 i); auto. }
    split; [ | exact EZ ].
    apply (list_by_nth _ _ _ iso_id Hl). intros c Hc. fold (found c). destruct (Us c Hc) as (i & Hi & U).
    pose proof (Same c i Hc Hi U) as Q. unfold seen in Q. rewrite EZ in Q. apply cancel_r in Q; [ | apply rigid_mul; auto ].
    destruct (FD c Hc) as [_ RF]. rewrite <- (iso_inv_inv (found c)), Q by exact RF. apply iso_inv_inv; auto.
  - intros [EC EZ] [[c i] x] Hv. apply in_static_views in Hv as (Hc & Hi & Hx). destruct (D c i Hc Hi) as [PI _].
    unfold static_error. assert (EF : found c = C0 c) by (unfold found; rewrite EC; apply nth_map_seq', Hc).
    rewrite EF, EZ. apply (perfect_zero _ _ _ _ PI Hx).
Qed.

(** ** Wrist-only calibration *)
Lemma wrist_unique solve p r K0 Z0 :
  let n := List.length (wp_base_to_camera_guess p) in
  let k c := nth c (wp_intr p) intr0 in
  let wrist i := nth i (wp_wrist_poses p) iso_id in
  let image c i := nth i (nth c (wp_image_observations p) []) [] in
  let truth c := iso_mul K0 (nth c (wp_base_to_camera_guess p) iso_id) in
  let found c := nth c (wr_base_to_camera r) iso_id in
  let seen C Z c i := iso_mul (iso_inv (C c)) (iso_mul (wrist i) Z) in
  honest_blocks solve -> optimizeWrist solve p = Ok r -> wrist_sizes p ->
  (forall T, In T (wp_wrist_poses p) -> plain_pose T) -> (forall T, In T (wp_base_to_camera_guess p) -> plain_pose T) ->
  rigid K0 -> rigid Z0 ->
  (forall T, In T (wr_base_to_camera r) -> rigid T) -> rigid (wr_wrist_to_target r) ->
  (forall c i, (c < n)%nat -> (i < List.length (wp_wrist_poses p))%nat ->
     perfect_image (k c) (seen truth Z0 c i) (image c i) /\
     all_in_front (seen found (wr_wrist_to_target r) c i) (image c i)) ->
  (exists c chosen, (c < n)%nat /\
     (forall i, In i chosen -> (i < List.length (wp_wrist_poses p))%nat /\ usable (k c) (seen truth Z0 c i) (image c i)) /\
     two_axes (motions_of (map wrist chosen))) ->
  (wr_final_cost_per_obs r = 0 <->
   wr_base_to_camera r = map truth (seq 0 n) /\ wr_wrist_to_target r = Z0).
Proof.
  intros n k wrist image truth found seen Ho E Sz PW PC RK0 RZ0 RC RZ D (c0 & chosen & Hc0 & Us0 & TA).
  destruct (wrist_right p Sz PW PC) as (blocks & Ev & Res).
  destruct (Res solve) as (m & s & r' & Es & Er & _ & Hz & Hcam & _ & Hf). rewrite Er in E. injection E as ->.
  set (K := poseCalToEigen (read_pose m key_correction)) in *.
  assert (FD : forall c, (c < n)%nat -> found c = iso_mul (iso_inv K) (nth c (wp_base_to_camera_guess p) iso_id)).
  { intros c Hc. unfold found. rewrite Hcam.
    rewrite (nth_indep _ iso_id (iso_mul (iso_inv K) iso_id)) by (rewrite map_length; exact Hc). apply map_nth. }
  assert (RG : forall c, (c < n)%nat -> rigid (nth c (wp_base_to_camera_guess p) iso_id)) by (intros c Hc; apply plain_rigid, PC, nth_In, Hc).
  assert (Hl : List.length (wr_base_to_camera r) = n) by (rewrite Hcam, map_length; reflexivity).
  assert (RF : forall c, (c < n)%nat -> rigid (found c)) by (intros c Hc; apply RC, nth_In; rewrite Hl; exact Hc).
  assert (RK : rigid K).
  { apply rigid_of_inv. pose proof (RF c0 Hc0) as R. rewrite FD in R by exact Hc0.
    pose proof (rigid_mul _ _ R (rigid_inv _ (RG c0 Hc0))) as R'. rewrite iso_mul_assoc, iso_inv_r, iso_mul_id_r in R' by auto. exact R'. }
  specialize (Ev m RK). fold K in Ev. rewrite <- Hz in Ev.
  assert (Ev' : map (fun b => rb_eval b m) blocks = map (wrist_error p found (wr_wrist_to_target r)) (wrist_views p)).
  { rewrite Ev. apply map_ext_in. intros [[c i] x] Hv. apply in_wrist_views in Hv as (Hc & _). unfold wrist_error.
    rewrite FD by exact Hc. reflexivity. }
  assert (RW : forall i, (i < List.length (wp_wrist_poses p))%nat -> rigid (wrist i)) by (intros i Hi; apply plain_rigid, PW, nth_In, Hi).
  assert (RT : forall c, (c < n)%nat -> rigid (truth c)) by (intros c Hc; apply rigid_mul; auto).
  rewrite Hf, per_obs_zero.
  2:{ destruct (two_axes_nonempty _ TA) as [A HA]. apply in_motions_of in HA as (W & _ & IW & _).
      apply in_map_iff in IW as (i & _ & Hi). destruct (Us0 i Hi) as [Hi' U]. destruct (usable_nonempty _ _ _ U) as [x Hx].
      assert (L : List.length (wrist_views p) <> 0%nat) by exact (nonempty_in _ _ (proj2 (in_wrist_views p c0 i x) (conj Hc0 (conj Hi' Hx)))). lia. }
  rewrite (blocks_zero _ _ _ _ _ _ _ Ho Es Ev'). split.
  - intros Z.
    assert (Same : forall i, (i < List.length (wp_wrist_poses p))%nat -> usable (k c0) (seen truth Z0 c0 i) (image c0 i) ->
      seen found (wr_wrist_to_target r) c0 i = seen truth Z0 c0 i).
    { intros i Hi U. destruct (D c0 i Hc0 Hi) as [PI AF].
      apply (usable_same (k c0) _ _ (image c0 i)); auto.
      - apply rigid_mul; [ apply rigid_inv, RF, Hc0 | apply rigid_mul; auto ].
      - apply rigid_mul; [ apply rigid_inv, RT, Hc0 | apply rigid_mul; auto ].
      - intros x Hx. apply (Z (c0, i, x)). apply in_wrist_views. auto. }
    destruct (hand_eye_unique (found c0) (wr_wrist_to_target r) (truth c0) Z0 (map wrist chosen)) as [EX EZ]; auto.
    { intros W HW. apply in_map_iff in HW as (i & <- & Hi). apply RW, Us0, Hi. }
    { intros W HW. apply in_map_iff in HW as (i & <- & Hi). destruct (Us0 i Hi) as [Hi' U]. apply (Same i); auto. }
    split; [ | exact EZ ].
    assert (EK : iso_inv K = K0).
    { apply (cancel_r (nth c0 (wp_base_to_camera_guess p) iso_id)); [ apply RG, Hc0 | ]. rewrite <- FD by exact Hc0. exact EX. }
    apply (list_by_nth _ _ _ iso_id Hl). intros c Hc. fold (found c). rewrite FD, EK by exact Hc. reflexivity.
  - intros [EC EZ] [[c i] x] Hv. apply in_wrist_views in Hv as (Hc & Hi & Hx). destruct (D c i Hc Hi) as [PI _].
    unfold wrist_error. assert (EF : found c = truth c) by (unfold found; rewrite EC; apply nth_map_seq', Hc).
    rewrite EF, EZ. apply (perfect_zero _ _ _ _ PI Hx).
Qed.

(** ** Camera-only calibration *)
Scheme linked_camera_mut := Minimality for linked_camera Sort Prop
  with linked_image_mut := Minimality for linked_image Sort Prop.
Combined Scheme linked_both from linked_camera_mut, linked_image_mut.

Section CameraOnly.
  Variables (solve : block_solver) (p : only_problem) (r : only_result) (C0 B0 : nat -> iso).
  Let n := List.length (op_base_to_camera_guess p).
  Let images := List.length (op_base_to_target_guess p).
  Let k c := nth c (op_intr p) intr0.
  Let image c i := nth i (nth c (op_image_observations p) []) [].
  Let camera c := nth c (or_base_to_camera r) iso_id.
  Let target i := nth i (or_base_to_target r) iso_id.
  Let seen (C B : nat -> iso) c i := iso_mul (iso_inv (C c)) (B i).
  Let good c i := (c < n)%nat /\ (i < images)%nat /\ usable (k c) (seen C0 B0 c i) (image c i).

  Hypothesis Ho : honest_blocks solve.
  Hypothesis Lo : leaves_others solve.
  Hypothesis E : optimizeOnly solve p = Ok r.
  Hypothesis Sz : only_sizes p.
  Hypothesis PF : op_fix_first_camera p = true -> forall T, nth_error (op_base_to_camera_guess p) 0 = Some T -> plain_pose T.
  Hypothesis RC0 : forall c, (c < n)%nat -> rigid (C0 c).
  Hypothesis RB0 : forall i, (i < images)%nat -> rigid (B0 i).
  Hypothesis RC : forall T, In T (or_base_to_camera r) -> rigid T.
  Hypothesis RB : forall T, In T (or_base_to_target r) -> rigid T.
  Hypothesis D : forall c i, (c < n)%nat -> (i < images)%nat ->
    perfect_image (k c) (seen C0 B0 c i) (image c i) /\ all_in_front (seen camera target c i) (image c i).

  Lemma only_zero : only_views p <> [] ->
    (or_final_cost_per_obs r = 0 <->
     forall c i x, In (c, i, x) (only_views p) -> forall e, In e (only_error p camera target (c, i, x)) -> e = 0) /\
    List.length (or_base_to_camera r) = n /\ List.length (or_base_to_target r) = images.
  Proof.
    intros NE. destruct (only_right p Sz PF) as (blocks & Ev & Res).
    destruct (Res solve) as (m & s & r' & Es & Er & _ & Ht & Hc & _ & Hf). rewrite Er in E. injection E as Err.
    rewrite Err in *. fold n images in Ht, Hc, Ev.
    assert (Lc : List.length (or_base_to_camera r) = n) by (rewrite Hc, map_length, seq_length; reflexivity).
    assert (Lt : List.length (or_base_to_target r) = images) by (rewrite Ht, map_length, seq_length; reflexivity).
    assert (FC : forall c, (c < n)%nat -> camera c = iso_inv (poseCalToEigen (read_pose m c))).
    { intros c Hc'. unfold camera. rewrite Hc. apply (nth_map_seq' (fun c => iso_inv (poseCalToEigen (read_pose m c)))), Hc'. }
    assert (FT : forall i, (i < images)%nat -> target i = poseCalToEigen (read_pose m (n + i)%nat)).
    { intros i Hi. unfold target. rewrite Ht. apply (nth_map_seq' (fun i => poseCalToEigen (read_pose m (n + i)%nat))), Hi. }
    split; [ | auto ].
    assert (RM : forall c, (c < n)%nat -> rigid (poseCalToEigen (read_pose m c))).
    { intros c Hc'. apply rigid_of_inv. rewrite <- FC by exact Hc'. apply RC, nth_In. rewrite Lc. exact Hc'. }
    specialize (Ev m RM).
    assert (GN : op_base_to_target_guess p <> []) by (intros Q; apply NE, no_views, Q).
    assert (Ev' : map (fun b => rb_eval b m) blocks = map (only_error p camera target) (only_views p)).
    { rewrite Ev. apply map_ext_in. intros [[c i] x] Hv. apply in_only_views in Hv as (Hc' & Hi & _). unfold only_error.
      rewrite <- FT by exact Hi. f_equal. f_equal. f_equal.
      destruct (op_fix_first_camera p) eqn:Ff; cbn [andb]; [ | symmetry; apply FC, Hc' ].
      destruct (Nat.eqb_spec c 0) as [->|_]; [ | symmetry; apply FC, Hc' ].
      pose proof (nth_error_nth' _ iso_id Hc') as G.
      assert (PG : plain_pose (nth 0 (op_base_to_camera_guess p) iso_id)) by (apply (PF eq_refl _ G)).
      pose proof (only_first_fixed p solve r _ Sz Lo Ff GN G PG Er) as Q.
      unfold camera. symmetry. apply nth_error_nth. exact Q. }
    rewrite Hf, per_obs_zero.
    2:{ assert (L : List.length (only_views p) <> 0%nat) by (destruct (only_views p); [ contradiction | discriminate ]). lia. }
    rewrite (blocks_zero _ _ _ _ _ _ _ Ho Es Ev'). split.
    - intros Q c i x. apply Q.
    - intros Q [[c i] x]. apply Q.
  Qed.

  Lemma only_unique a : (a < n)%nat -> or_final_cost_per_obs r = 0 ->
    let M := iso_mul (camera a) (iso_inv (C0 a)) in
    (forall c, linked_camera good a c -> (c < n)%nat -> camera c = iso_mul M (C0 c)) /\
    (forall i, linked_image good a i -> (i < images)%nat -> target i = iso_mul M (B0 i)).
  Proof.
    intros Ha Z M.
    assert (Len : List.length (or_base_to_camera r) = n /\ List.length (or_base_to_target r) = images).
    { destruct (only_right p Sz PF) as (blocks & _ & Res).
      destruct (Res solve) as (m & s & r' & Es & Er & _ & Ht & Hc & _). rewrite Er in E. injection E as Err.
      rewrite Err in *. rewrite Ht, Hc, !map_length, !seq_length. auto. }
    destruct Len as [Lc Lt].
    assert (RF : forall c, (c < n)%nat -> rigid (camera c)) by (intros c Hc; apply RC, nth_In; rewrite Lc; exact Hc).
    assert (RT : forall i, (i < images)%nat -> rigid (target i)) by (intros i Hi; apply RB, nth_In; rewrite Lt; exact Hi).
    assert (Same : forall c i, good c i -> seen camera target c i = seen C0 B0 c i).
    { intros c i (Hc & Hi & U). destruct (D c i Hc Hi) as [PI AF]. destruct (usable_nonempty _ _ _ U) as [x0 Hx0].
      assert (NE : only_views p <> []).
      { intros Q. assert (V : In (c, i, x0) (only_views p)) by (apply in_only_views; auto). rewrite Q in V. exact V. }
      apply (usable_same (k c) _ _ (image c i)); auto.
      - apply rigid_mul; [ apply rigid_inv; auto | auto ].
      - apply rigid_mul; [ apply rigid_inv; auto | auto ].
      - intros x Hx. apply (proj1 (proj1 (only_zero NE)) Z c i x). apply in_only_views. auto. }
    assert (Both : (forall c, linked_camera good a c -> (c < n)%nat /\ camera c = iso_mul M (C0 c)) /\
                   (forall i, linked_image good a i -> (i < images)%nat /\ target i = iso_mul M (B0 i))).
    { apply linked_both.
      - split; [ exact Ha | ]. unfold M. rewrite iso_mul_assoc, iso_inv_l, iso_mul_id_r by auto. reflexivity.
      - intros c i _ [Hi IH] G. pose proof G as (Hc & _ & _). split; [ exact Hc | ].
        pose proof (Same c i G) as Q. unfold seen in Q. rewrite IH in Q.
        (* camera^-1 M B0 = C0^-1 B0 *)
        rewrite <- iso_mul_assoc in Q. apply cancel_r in Q; [ | auto ].
        apply (f_equal (iso_mul (camera c))) in Q. rewrite <- iso_mul_assoc, iso_inv_r, iso_mul_id_l in Q by auto.
        rewrite Q, iso_mul_assoc, iso_inv_l, iso_mul_id_r by auto. reflexivity.
      - intros c i _ [Hc IH] G. pose proof G as (_ & Hi & _). split; [ exact Hi | ].
        pose proof (Same c i G) as Q. unfold seen in Q.
        apply (f_equal (iso_mul (camera c))) in Q. rewrite <- !iso_mul_assoc, iso_inv_r, iso_mul_id_l in Q by auto.
        rewrite Q, IH. rewrite !iso_mul_assoc. f_equal. rewrite <- iso_mul_assoc, iso_inv_r, iso_mul_id_l by auto. reflexivity. }
    split; intros x Hx _; apply Both, Hx.
  Qed.
End CameraOnly.

(** Moving the whole rig, cameras and targets, changes no error. *)
Lemma only_common_motion p C B M v : rigid M -> (forall c, (c < List.length (op_base_to_camera_guess p))%nat -> rigid (C c)) ->
  In v (only_views p) ->
  only_error p (fun c => iso_mul M (C c)) (fun i => iso_mul M (B i)) v = only_error p C B v.
Proof.
  intros RM RC Hv. destruct v as [[c i] x]. apply in_only_views in Hv as (Hc & _). unfold only_error.
  rewrite iso_inv_mul by exact RM. rewrite iso_mul_assoc, <- (iso_mul_assoc (iso_inv M)), iso_inv_l, iso_mul_id_l by exact RM. reflexivity.
Qed.
Lemma only_unique_fixed solve p r C0 B0 :
  let n := List.length (op_base_to_camera_guess p) in
  let images := List.length (op_base_to_target_guess p) in
  let k c := nth c (op_intr p) intr0 in
  let image c i := nth i (nth c (op_image_observations p) []) [] in
  let camera c := nth c (or_base_to_camera r) iso_id in
  let target i := nth i (or_base_to_target r) iso_id in
  let seen (C B : nat -> iso) c i := iso_mul (iso_inv (C c)) (B i) in
  let good c i := (c < n)%nat /\ (i < images)%nat /\ usable (k c) (seen C0 B0 c i) (image c i) in
  honest_blocks solve -> leaves_others solve -> optimizeOnly solve p = Ok r -> only_sizes p ->
  op_fix_first_camera p = true -> nth_error (op_base_to_camera_guess p) 0 = Some (C0 0%nat) -> plain_pose (C0 0%nat) ->
  op_base_to_target_guess p <> [] ->
  (forall c, (c < n)%nat -> rigid (C0 c)) -> (forall i, (i < images)%nat -> rigid (B0 i)) ->
  (forall T, In T (or_base_to_camera r) -> rigid T) -> (forall T, In T (or_base_to_target r) -> rigid T) ->
  (forall c i, (c < n)%nat -> (i < images)%nat ->
    perfect_image (k c) (seen C0 B0 c i) (image c i) /\ all_in_front (seen camera target c i) (image c i)) ->
  or_final_cost_per_obs r = 0 ->
  (forall c, linked_camera good 0 c -> (c < n)%nat -> camera c = C0 c) /\
  (forall i, linked_image good 0 i -> (i < images)%nat -> target i = B0 i).
Proof.
  intros n images k image camera target seen good Ho Lo E Sz Ff G PG GN RC0 RB0 RC RB D Z.
  assert (L0 : (0 < n)%nat) by (apply nth_error_Some; congruence).
  assert (PF : op_fix_first_camera p = true -> forall T, nth_error (op_base_to_camera_guess p) 0 = Some T -> plain_pose T)
    by (intros _ T HT; rewrite G in HT; injection HT as <-; exact PG).
  destruct (only_unique solve p r C0 B0 Ho Lo E Sz PF RC0 RB0 RC RB D 0%nat L0 Z) as [QC QB].
  pose proof (only_first_fixed p solve r _ Sz Lo Ff GN G PG E) as F0. apply (nth_error_nth _ _ iso_id) in F0.
  rewrite F0, iso_inv_r in QC, QB by apply plain_rigid, PG.
  split; [ intros c Lc Hc; rewrite <- (iso_mul_id_l (C0 c)); apply QC; assumption
         | intros i Li Hi; rewrite <- (iso_mul_id_l (B0 i)); apply QB; assumption ].
Qed.
