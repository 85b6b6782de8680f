(** Simulated observations of kinematic chains *)
From Coq Require Import Reals ZArith List Lia Lra.
From Verif.Base Require Import Geom Outcome Matrix.
From Verif.Model Require Import Pose Solver HandEye DhChain LocalParam Kinematic Simulation.
From Verif.Spec Require Import PinHole PnpSpec Frames DhSpec KinSpec KinReport KinExampleSpec UniqueSpec KinUniqueSpec SimulationSpec.
From Verif.Proofs Require Import GeomLemmas DhProofs PoseProofs KinematicProofs UniqueLemmas SimulationProofs SimHandEyeProofs.
Import ListNotations.
Local Open Scope R_scope.

Section chains.
  Context {G : Type} (seeded : nat -> G) (uniform : R -> R -> G -> R * G) (cam tgt : dh_chain) (C T B : iso).
  Hypothesis Hcam : usable_chain cam.
  Hypothesis Htgt : usable_chain tgt.
  Hypothesis HU : in_bounds uniform.

  Lemma usable_fk c q : usable_chain c -> within_limits c q -> exists F, getFK0 c q = Ok F.
  Proof.
    intros H [L _]. unfold getFK0. apply fk_ok_iff. rewrite L. split; [ lia | ]. split; [ cbn; lia | ].
    intros i t _ E. apply H. apply nth_error_In in E. exact E.
  Qed.
  Lemma draws st : exists qc st1 qt st2 Fc Ft,
    createUniformlyRandomPose seeded uniform cam st = Ok (qc, st1) /\
    createUniformlyRandomPose seeded uniform tgt st1 = Ok (qt, st2) /\
    getFK0 cam qc = Ok Fc /\ getFK0 tgt qt = Ok Ft /\ both_within cam tgt qc qt /\ tips cam tgt qc qt Fc Ft.
  Proof.
    destruct (random_in_limits seeded uniform cam st HU (fun t Ht => proj1 (Hcam t Ht))) as (qc & st1 & E1 & L1).
    destruct (random_in_limits seeded uniform tgt st1 HU (fun t Ht => proj1 (Htgt t Ht))) as (qt & st2 & E2 & L2).
    destruct (usable_fk cam qc Hcam L1) as (Fc & F1). destruct (usable_fk tgt qt Htgt L2) as (Ft & F2).
    exists qc, st1, qt, st2, Fc, Ft. repeat (split; [ first [ assumption | split; assumption ] | ]). exact F2.
  Qed.

  Lemma scene_places e qc qt cp tp : e = as_designed cam tgt C T B -> scene cam tgt C T B qc qt cp tp ->
    places cam tgt e (qc, qt) (iso_mul (iso_inv cp) tp).
  Proof.
    intros -> (Fc & Ft & [E1 E2] & -> & ->). exists Fc, Ft. split; [ exact E1 | ]. split; [ exact E2 | reflexivity ].
  Qed.
  Lemma scene_intro qc qt Fc Ft : tips cam tgt qc qt Fc Ft -> scene cam tgt C T B qc qt (iso_mul Fc C) (iso_mul (iso_mul B Ft) T).
  Proof. intros H. exists Fc, Ft. split; [ exact H | ]. split; [ reflexivity | apply iso_mul_assoc ]. Qed.

  Definition good3 (target : sim_target) (o : kin_observation vec3) : Prop :=
    let qc := ko_camera_chain_joints o in let qt := ko_target_chain_joints o in
    both_within cam tgt qc qt /\
    exists P, places cam tgt (as_designed cam tgt C T B) (qc, qt) P /\ ko_correspondence_set o = measured P (sim_points target).
  Lemma kin3_ok target n st : exists os st',
    createKinematicObservations3D seeded uniform cam tgt C T B target n st = Ok (os, st') /\ length os = n /\
    Forall (good3 target) os.
  Proof.
    unfold createKinematicObservations3D. match goal with |- context [foldM ?f _ _] => set (step := f) end.
    assert (forall (l : list nat) acc s, exists os s', foldM step l (acc, s) = Ok (acc ++ os, s') /\ length os = length l /\ Forall (good3 target) os) as K.
    { induction l as [ | i l IH]; intros acc s; cbn [foldM].
      - exists [], s. rewrite app_nil_r. auto.
      - destruct (draws s) as (qc & s1 & qt & s2 & Fc & Ft & E1 & E2 & F1 & F2 & W & TP).
        unfold step at 1. rewrite E1. cbn [bind]. rewrite E2. cbn [bind]. rewrite F1. cbn [bind]. rewrite F2. cbn [bind].
        match goal with |- context [(acc ++ [?o], s2)] => set (o1 := o); destruct (IH (acc ++ [o1]) s2) as (os & s' & E & L & F) end.
        exists (o1 :: os), s'. rewrite E, <- app_assoc. split; [ reflexivity | ]. split; [ cbn; congruence | ]. constructor; [ | exact F ].
        split; [ exact W | ]. eexists. split; [ apply scene_places; [ reflexivity | apply scene_intro; exact TP ] | ].
        apply correspondences_points. }
    destruct (K (seq 0 n) [] st) as (os & s' & E & L & F). rewrite seq_length in L. exists os, s'. auto.
  Qed.

  Definition good_measurement (m : kin_measurement) : Prop :=
    both_within cam tgt (km_camera_chain_joints m) (km_target_chain_joints m) /\
    predicts cam tgt (as_designed cam tgt C T B) m (km_camera_to_target m).
  Lemma measurements_ok n st : exists ms st',
    createKinematicMeasurements seeded uniform cam tgt C T B n st = Ok (ms, st') /\ length ms = n /\ Forall good_measurement ms.
  Proof.
    unfold createKinematicMeasurements. match goal with |- context [foldM ?f _ _] => set (step := f) end.
    assert (forall (l : list nat) acc s, exists os s', foldM step l (acc, s) = Ok (acc ++ os, s') /\ length os = length l /\ Forall good_measurement os) as K.
    { induction l as [ | i l IH]; intros acc s; cbn [foldM].
      - exists [], s. rewrite app_nil_r. auto.
      - destruct (draws s) as (qc & s1 & qt & s2 & Fc & Ft & E1 & E2 & F1 & F2 & W & TP).
        unfold step at 1. rewrite E1. cbn [bind]. rewrite E2. cbn [bind]. rewrite F1. cbn [bind]. rewrite F2. cbn [bind].
        match goal with |- context [(acc ++ [?o], s2)] => set (o1 := o); destruct (IH (acc ++ [o1]) s2) as (os & s' & E & L & F) end.
        exists (o1 :: os), s'. rewrite E, <- app_assoc. split; [ reflexivity | ]. split; [ cbn; congruence | ]. constructor; [ | exact F ].
        split; [ exact W | ]. destruct TP as [T1 T2]. exists Fc, Ft. split; [ exact T1 | ]. split; [ exact T2 | ].
        cbn [o1 km_camera_to_target]. unfold kin_target_in_camera. rewrite (iso_mul_assoc B). reflexivity. }
    destruct (K (seq 0 n) [] st) as (os & s' & E & L & F). rewrite seq_length in L. exists os, s'. auto.
  Qed.

  Variable target : sim_target.
  Variable camera : sim_camera.
  Definition good2 (o : kin_observation vec2) : Prop :=
    let qc := ko_camera_chain_joints o in let qt := ko_target_chain_joints o in
    both_within cam tgt qc qt /\ ko_correspondence_set o <> [] /\
    exists cp tp, scene cam tgt C T B qc qt cp tp /\ faces cp tp /\
      seen camera (iso_mul (iso_inv cp) tp) (sim_points target) (ko_correspondence_set o).
  Lemma all_correspondences_app {I} (a b : list (kin_observation I)) :
    all_correspondences (a ++ b) = (all_correspondences a + all_correspondences b)%nat.
  Proof. unfold all_correspondences. rewrite map_app, list_sum_app. reflexivity. Qed.
  (** One attempt *)
  Lemma one_attempt n remaining os k st : (k < n * length (sim_points target))%nat ->
    exists st', (kin_attempts seeded uniform cam tgt C T B target camera n (S remaining) os k st =
                 kin_attempts seeded uniform cam tgt C T B target camera n remaining os k st' /\
                 ~ (sim_points target <> [] /\ always_in_view camera target cam tgt C T B)) \/
    exists o, good2 o /\ kin_attempts seeded uniform cam tgt C T B target camera n (S remaining) os k st =
      kin_attempts seeded uniform cam tgt C T B target camera n remaining (os ++ [o]) (k + length (ko_correspondence_set o)) st' /\
      (always_in_view camera target cam tgt C T B -> length (ko_correspondence_set o) = length (sim_points target)).
  Proof.
    intros Hk. destruct (draws st) as (qc & s1 & qt & s2 & Fc & Ft & E1 & E2 & F1 & F2 & W & TP). exists s2.
    cbn [kin_attempts]. destruct (Nat.ltb_spec k (n * length (sim_points target))); [ | lia ].
    rewrite E1. cbn [bind]. rewrite E2. cbn [bind]. rewrite F1. cbn [bind]. rewrite F2. cbn [bind].
    pose proof (scene_intro qc qt Fc Ft TP) as SC.
    set (cp := iso_mul Fc C) in *. set (tp := iso_mul (iso_mul B Ft) T) in *.
    destruct (Rlt_dec (dot (col2 (lin cp)) (col2 (lin tp))) (- (2 / 10))) as [D | D].
    - destruct (correspondences_seen cp tp camera target) as (cs & E & SN). rewrite E. destruct cs as [ | c cs].
      + left. split; [ reflexivity | ]. intros [NE V]. destruct (V qc qt cp tp W SC) as [_ V'].
        destruct (sim_points target) as [ | p ps]; [ congruence | ]. inversion SN; subst. pose proof (V' p (or_introl eq_refl)). contradiction.
      + right. exists (KObs qc qt (c :: cs)). split; [ | split ].
        * split; [ exact W | ]. split; [ discriminate | ]. exists cp, tp. split; [ exact SC | ]. split; [ unfold faces; lra | exact SN ].
        * reflexivity.
        * intros V. destruct (V qc qt cp tp W SC) as [_ V']. cbn [ko_correspondence_set].
          destruct (correspondences_all cp tp camera target V') as (cs' & _ & SN' & M). rewrite <- (seen_unique _ _ _ _ _ SN SN') in M.
          rewrite <- M, map_length. reflexivity.
    - left. split; [ reflexivity | ]. intros [_ V]. destruct (V qc qt cp tp W SC) as [V' _]. unfold faces in V'. lra.
  Qed.
  (** All attempts: enough correspondences, and not before the last observation, or all attempts are used up *)
  Lemma attempts_ok n remaining : forall os k st, k = all_correspondences os ->
    exists more st', kin_attempts seeded uniform cam tgt C T B target camera n remaining os k st =
      Ok (os ++ more, all_correspondences (os ++ more), st') /\
      Forall good2 more /\ (length more <= remaining)%nat /\
      (forall init last, more = init ++ [last] -> (all_correspondences (os ++ init) < n * length (sim_points target))%nat).
  Proof.
    induction remaining as [ | r IH]; intros os k st Hk.
    - exists [], st. rewrite app_nil_r, <- Hk. split; [ reflexivity | ]. split; [ constructor | ]. split; [ cbn; lia | ].
      intros init last E. destruct init; discriminate.
    - destruct (Nat.lt_ge_cases k (n * length (sim_points target))) as [L | L].
      + destruct (one_attempt n r os k st L) as (s' & [[E _] | (o & Ho & E & _)]).
        * rewrite E. destruct (IH os k s' Hk) as (more & st' & E' & F & Le & St). exists more, st'. split; [ exact E' | ]. split; [ exact F | ]. split; [ lia | exact St ].
        * rewrite E. destruct (IH (os ++ [o]) (k + length (ko_correspondence_set o))%nat s') as (more & st' & E' & F & Le & St).
          { rewrite all_correspondences_app, Hk. unfold all_correspondences. cbn. lia. }
          exists (o :: more), st'. rewrite E', <- app_assoc. split; [ reflexivity | ]. split; [ constructor; assumption | ].
          split; [ cbn; lia | ]. intros init last EQ. destruct init as [ | x init]; [ rewrite app_nil_r, <- Hk; exact L | ].
          injection EQ as <- EQ. specialize (St init last EQ). rewrite <- app_assoc in St. exact St.
      + exists [], st. cbn [kin_attempts]. destruct (Nat.ltb_spec k (n * length (sim_points target))); [ lia | ].
        rewrite app_nil_r, <- Hk. split; [ reflexivity | ]. split; [ constructor | ]. split; [ cbn; lia | ].
        intros init last E. destruct init; discriminate.
  Qed.
  Definition enough n (os : list (kin_observation vec2)) := (n * length (sim_points target) <= all_correspondences os)%nat.
  Lemma kin2_ok n st :
    createKinematicObservations2D seeded uniform cam tgt C T B target camera n st = Throw RuntimeError \/
    exists os st', createKinematicObservations2D seeded uniform cam tgt C T B target camera n st = Ok (os, st') /\
      Forall good2 os /\ (length os <= 10 ^ 4)%nat /\ (n * length (sim_points target) <= all_correspondences os)%nat /\
      (forall init last, os = init ++ [last] -> (all_correspondences init < n * length (sim_points target))%nat).
  Proof.
    unfold createKinematicObservations2D. destruct (attempts_ok n max_attempts [] 0 st eq_refl) as (os & st' & E & F & Le & St).
    rewrite E. cbn [bind app]. destruct (Nat.ltb_spec (all_correspondences os) (n * length (sim_points target))); [ left; reflexivity | ].
    right. exists os, st'. split; [ reflexivity | ]. split; [ exact F | ]. split; [ | split; [ assumption | exact St ] ].
    apply Nat2Z.inj_le. apply Nat2Z.inj_le in Le. unfold max_attempts in Le. rewrite Z2Nat.id in Le by lia.
    rewrite Nat2Z.inj_pow. exact Le.
  Qed.
  Lemma good2_length os : Forall good2 os -> (all_correspondences os <= length os * length (sim_points target))%nat.
  Proof.
    induction 1 as [ | o os (_ & _ & cp & tp & _ & _ & SN) F IH]; [ cbn; lia | ].
    apply seen_length in SN. unfold all_correspondences in *. cbn [map list_sum fold_right length]. cbn. unfold list_sum in *. lia.
  Qed.
  Lemma kin2_count n os : sim_points target <> [] -> Forall good2 os -> (n * length (sim_points target) <= all_correspondences os)%nat ->
    (n <= length os)%nat.
  Proof.
    intros NE F H. apply good2_length in F. destruct (sim_points target); [ congruence | ]. cbn [length] in *.
    apply (Nat.mul_le_mono_pos_r _ _ (S (length l))); lia.
  Qed.
  (** With everything in view every attempt succeeds *)
  Lemma attempts_view (n : nat) : sim_points target <> [] -> always_in_view camera target cam tgt C T B -> forall j remaining os st, (j <= remaining)%nat ->
    (length os + j = n)%nat -> all_correspondences os = (length os * length (sim_points target))%nat ->
    exists os' st', kin_attempts seeded uniform cam tgt C T B target camera n remaining os (all_correspondences os) st = Ok (os', (n * length (sim_points target))%nat, st') /\
      length os' = n.
  Proof.
    intros NE V. assert (0 < length (sim_points target))%nat as P by (destruct (sim_points target); [ congruence | cbn; lia ]).
    induction j as [ | j IH]; intros remaining os st Hj Hn Hc.
    - exists os, st. rewrite Nat.add_0_r in Hn. destruct remaining; cbn [kin_attempts]; rewrite Hc, Hn.
      + auto.
      + rewrite Nat.ltb_irrefl. auto.
    - destruct remaining as [ | r]; [ lia | ].
      destruct (one_attempt n r os (all_correspondences os) st) as (s' & [[_ N] | (o & Ho & E & L)]).
      + rewrite Hc. apply Nat.mul_lt_mono_pos_r; [ exact P | lia ].
      + exfalso. apply N. auto.
      + rewrite E. specialize (L V).
        assert (all_correspondences (os ++ [o]) = all_correspondences os + length (ko_correspondence_set o))%nat as A by (rewrite all_correspondences_app; unfold all_correspondences; cbn; lia).
        rewrite <- A. apply IH; [ lia | rewrite app_length; cbn; lia | ]. rewrite A, Hc, L, app_length. cbn. lia.
  Qed.
  Lemma kin2_view n st : sim_points target <> [] -> (n <= 10 ^ 4)%nat -> always_in_view camera target cam tgt C T B ->
    exists os st', createKinematicObservations2D seeded uniform cam tgt C T B target camera n st = Ok (os, st') /\ length os = n.
  Proof.
    intros NE Hn V. unfold createKinematicObservations2D.
    destruct (attempts_view n NE V n max_attempts [] st) as (os & st' & E & L); [ | reflexivity | reflexivity | ].
    - apply Nat2Z.inj_le. unfold max_attempts. rewrite Z2Nat.id by lia. apply Nat2Z.inj_le in Hn. rewrite Nat2Z.inj_pow in Hn. exact Hn.
    - change (all_correspondences []) with 0%nat in E. rewrite E. cbn [bind]. rewrite Nat.ltb_irrefl. eauto.
  Qed.
End chains.

(** ** The truth leaves no error *)

Lemma truth_fk c m p q F : (forall i, (i < 4 * dof c)%nat -> m p i = 0) -> getFK c q (no_offsets (dof c)) = Ok F ->
  getFK c q (map_offsets m p (dof c)) = Ok F.
Proof.
  intros Z E. rewrite <- E. apply fk_same; [ | reflexivity ]. split; [ reflexivity | ]. split; [ reflexivity | ].
  intros i j Hi Hj. cbn [map_offsets rows cols ent no_offsets] in *. apply Z. nia.
Qed.
Lemma truth_kin2 cam tgt C T B m p0 p1 p2 p3 p4 p5 p6 p7 qc qt P intr c :
  holds_truth cam tgt C T B m p0 p1 p2 p3 p4 p5 p6 p7 -> places cam tgt (as_designed cam tgt C T B) (qc, qt) P ->
  in_front (iso_app P (in_target c)) -> in_image c = pinhole intr (iso_app P (in_target c)) ->
  dualCost2D3D (in_image c) (in_target c) intr cam tgt qc qt (constructParameters p0 p1 p2 p3 p4 p5 p6 p7) m = Ok [0; 0].
Proof.
  intros (Z0 & Z1 & E2 & E4 & E6) (Fc & Ft & F1 & F2 & ->) D I. cbn [as_designed ke_camera_offsets ke_target_offsets ke_camera_mount_to_camera ke_target_mount_to_target ke_camera_base_to_target_base fst snd] in *.
  apply (kin_cost2_zero cam tgt m p0 p1 p2 p3 p4 p5 p6 p7 _ _ _ _ _ Fc Ft); [ apply truth_fk; assumption | apply truth_fk; assumption | ].
  rewrite E2, E4, E6, I. symmetry. apply eig_pinhole. exact D.
Qed.
Lemma truth_kinP cam tgt C T B m p0 p1 p2 p3 p4 p5 p6 p7 o w :
  rigid (base_offset cam) -> rigid (base_offset tgt) -> rigid C -> rigid T -> rigid B -> w <> 0 ->
  holds_truth cam tgt C T B m p0 p1 p2 p3 p4 p5 p6 p7 -> predicts cam tgt (as_designed cam tgt C T B) o (km_camera_to_target o) ->
  dualCostPose6D o cam tgt w (constructParameters p0 p1 p2 p3 p4 p5 p6 p7) m = Ok [0; 0; 0; 0].
Proof.
  intros Rc Rt RC RT RB Hw (Z0 & Z1 & E2 & E4 & E6) (Fc & Ft & F1 & F2 & E). cbn [as_designed ke_camera_offsets ke_target_offsets ke_camera_mount_to_camera ke_target_mount_to_target ke_camera_base_to_target_base fst snd] in *.
  apply (kin_costP_zero cam tgt m p0 p1 p2 p3 p4 p5 p6 p7 _ _ Fc Ft); try assumption; try (apply truth_fk; assumption).
  - rewrite E. unfold kin_target_in_camera. apply rigid_mul; [ apply rigid_inv, rigid_mul; [ exact (fk_rigid _ _ _ _ Rc F1) | exact RC ] | ].
    apply rigid_mul; [ exact RB | ]. apply rigid_mul; [ exact (fk_rigid _ _ _ _ Rt F2) | exact RT ].
  - rewrite E2, E4, E6. exact E.
Qed.

Section truth.
  Context {G : Type} (seeded : nat -> G) (uniform : R -> R -> G -> R * G) (cam tgt : dh_chain) (C T B : iso).
  Hypothesis Hcam : usable_chain cam.
  Hypothesis Htgt : usable_chain tgt.
  Hypothesis HU : in_bounds uniform.
  Lemma kin2_truth target camera n st os st' o c P m p0 p1 p2 p3 p4 p5 p6 p7 :
    createKinematicObservations2D seeded uniform cam tgt C T B target camera n st = Ok (os, st') ->
    In o os -> In c (ko_correspondence_set o) ->
    places cam tgt (as_designed cam tgt C T B) (ko_camera_chain_joints o, ko_target_chain_joints o) P ->
    in_front (iso_app P (in_target c)) -> holds_truth cam tgt C T B m p0 p1 p2 p3 p4 p5 p6 p7 ->
    dualCost2D3D (in_image c) (in_target c) (sim_intr camera) cam tgt (ko_camera_chain_joints o) (ko_target_chain_joints o)
      (constructParameters p0 p1 p2 p3 p4 p5 p6 p7) m = Ok [0; 0].
  Proof.
    intros E Ho Hc HP D H. destruct (kin2_ok seeded uniform cam tgt C T B Hcam Htgt HU target camera n st) as [E' | (os' & s' & E' & F & _)]; [ congruence | ].
    rewrite E in E'. injection E' as <- <-. rewrite Forall_forall in F. destruct (F o Ho) as (_ & _ & cp & tp & SC & _ & SN).
    apply (truth_kin2 cam tgt C T B _ _ _ _ _ _ _ _ _ _ _ P); try assumption.
    pose proof (scene_places cam tgt C T B _ _ _ _ _ eq_refl SC) as (Fc & Ft & A1 & A2 & A3).
    destruct HP as (Fc' & Ft' & B1 & B2 & B3). rewrite A1 in B1. rewrite A2 in B2. injection B1 as <-. injection B2 as <-. rewrite <- B3 in A3.
    apply (seen_in _ _ _ _ SN) in Hc. destruct Hc as (p & _ & _ & ->). cbn [in_image in_target]. rewrite A3. reflexivity.
  Qed.
  Lemma measurements_truth n st ms st' o w m p0 p1 p2 p3 p4 p5 p6 p7 :
    rigid (base_offset cam) -> rigid (base_offset tgt) -> rigid C -> rigid T -> rigid B -> w <> 0 ->
    createKinematicMeasurements seeded uniform cam tgt C T B n st = Ok (ms, st') -> In o ms ->
    holds_truth cam tgt C T B m p0 p1 p2 p3 p4 p5 p6 p7 ->
    dualCostPose6D o cam tgt w (constructParameters p0 p1 p2 p3 p4 p5 p6 p7) m = Ok [0; 0; 0; 0].
  Proof.
    intros Rc Rt RC RT RB Hw E Ho H. destruct (measurements_ok seeded uniform cam tgt C T B Hcam Htgt HU n st) as (ms' & s' & E' & _ & F).
    rewrite E in E'. injection E' as <- <-. rewrite Forall_forall in F. destruct (F o Ho) as [_ K]. apply (truth_kinP cam tgt C T B); assumption.
  Qed.

  (** ** In Cartesian form *)

  Lemma to_cartesian_mapM {I} (ks : list (kin_observation I)) : to_cartesian cam tgt ks =
    mapM (fun k => do cm <- getFK0 cam (ko_camera_chain_joints k); do tm <- getFK0 tgt (ko_target_chain_joints k);
                   Ok (Obs (ko_correspondence_set k) cm tm)) ks.
  Proof.
    unfold to_cartesian. etransitivity; [ apply TargetProofs.foldM_ext with (g := fun s k => do b <- (fun k => do cm <- getFK0 cam (ko_camera_chain_joints k); do tm <- getFK0 tgt (ko_target_chain_joints k);
                   Ok (Obs (ko_correspondence_set k) cm tm)) k; Ok (s ++ [b])) | ].
    - intros s a _. destruct (getFK0 cam _); [ | reflexivity | reflexivity ]. cbn [bind]. destruct (getFK0 tgt _); reflexivity.
    - rewrite TargetProofs.foldM_push. destruct (mapM _ ks); reflexivity.
  Qed.
  (** One observation of the same joint positions *)
  Definition same_moment {I} (k : kin_observation I) (o : observation I) : Prop :=
    tips cam tgt (ko_camera_chain_joints k) (ko_target_chain_joints k) (to_camera_mount o) (to_target_mount o) /\
    correspondence_set o = ko_correspondence_set k.
  Lemma to_cartesian_ok {I} (ks : list (kin_observation I)) :
    (forall k, In k ks -> both_within cam tgt (ko_camera_chain_joints k) (ko_target_chain_joints k)) ->
    exists os, to_cartesian cam tgt ks = Ok os /\ Forall2 same_moment ks os.
  Proof.
    rewrite to_cartesian_mapM. induction ks as [ | k ks IH]; intros H; [ exists []; split; [ reflexivity | constructor ] | ].
    destruct IH as (os & E & F); [ intros; apply H; right; assumption | ]. destruct (H k (or_introl eq_refl)) as [W1 W2].
    destruct (usable_fk cam _ Hcam W1) as (Fc & E1). destruct (usable_fk tgt _ Htgt W2) as (Ft & E2).
    cbn [mapM]. rewrite E1. cbn [bind]. rewrite E2. cbn [bind]. rewrite E. eexists. split; [ reflexivity | ].
    constructor; [ split; [ split; assumption | reflexivity ] | exact F ].
  Qed.
  Lemma chain3_ok target n st : exists os st',
    chainObservations3D seeded uniform cam tgt C T B target n st = Ok (os, st') /\ length os = n /\
    Forall (fun o => exists qc qt, both_within cam tgt qc qt /\ tips cam tgt qc qt (to_camera_mount o) (to_target_mount o) /\
      correspondence_set o = measured (kin_target_in_camera (to_camera_mount o) C B (to_target_mount o) T) (sim_points target)) os.
  Proof.
    unfold chainObservations3D. destruct (kin3_ok seeded uniform cam tgt C T B Hcam Htgt HU target n st) as (ks & s' & E & L & F).
    rewrite E. cbn [bind]. rewrite Forall_forall in F. destruct (to_cartesian_ok ks) as (os & E' & F2); [ intros k Hk; exact (proj1 (F k Hk)) | ].
    rewrite E'. cbn [bind]. exists os, s'. split; [ reflexivity | ]. split; [ rewrite <- L; clear - F2; induction F2; cbn; congruence | ].
    apply Forall_forall. intros o Ho. destruct (Forall2_in_r _ _ _ _ F2 Ho) as (k & Hk & [TP CS]). destruct (F k Hk) as (W & P & HP & M).
    exists (ko_camera_chain_joints k), (ko_target_chain_joints k). split; [ exact W | ]. split; [ exact TP | ]. rewrite CS, M.
    destruct HP as (Fc & Ft & A1 & A2 & ->). destruct TP as [B1 B2]. cbn [as_designed ke_camera_offsets ke_target_offsets fst snd] in *.
    rewrite A1 in B1. rewrite A2 in B2. injection B1 as <-. injection B2 as <-. reflexivity.
  Qed.
  Lemma chain2_ok target camera n st :
    chainObservations2D seeded uniform cam tgt C T B target camera n st = Throw RuntimeError \/
    exists os st', chainObservations2D seeded uniform cam tgt C T B target camera n st = Ok (os, st') /\
    Forall (fun o => exists qc qt, both_within cam tgt qc qt /\ tips cam tgt qc qt (to_camera_mount o) (to_target_mount o) /\
      correspondence_set o <> [] /\
      seen camera (kin_target_in_camera (to_camera_mount o) C B (to_target_mount o) T) (sim_points target) (correspondence_set o)) os.
  Proof.
    unfold chainObservations2D. destruct (kin2_ok seeded uniform cam tgt C T B Hcam Htgt HU target camera n st) as [E | (ks & s' & E & F & _)]; rewrite E; cbn [bind]; [ left; reflexivity | right ].
    rewrite Forall_forall in F. destruct (to_cartesian_ok ks) as (os & E' & F2); [ intros k Hk; exact (proj1 (F k Hk)) | ].
    rewrite E'. cbn [bind]. exists os, s'. split; [ reflexivity | ].
    apply Forall_forall. intros o Ho. destruct (Forall2_in_r _ _ _ _ F2 Ho) as (k & Hk & [TP CS]). destruct (F k Hk) as (W & NE & cp & tp & SC & _ & SN).
    exists (ko_camera_chain_joints k), (ko_target_chain_joints k). split; [ exact W | ]. split; [ exact TP | ]. rewrite CS. split; [ exact NE | ].
    destruct SC as (Fc & Ft & [A1 A2] & -> & ->). destruct TP as [B1 B2].
    rewrite A1 in B1. rewrite A2 in B2. injection B1 as <-. injection B2 as <-. exact SN.
  Qed.
  Hypothesis Rcam : rigid (base_offset cam).
  Hypothesis Rtgt : rigid (base_offset tgt).
  Hypothesis RC : rigid C.
  Hypothesis RT : rigid T.
  Hypothesis RB : rigid B.
  Lemma without_base Fc Ft : rigid Fc -> rigid Ft ->
    target_in_camera C Fc Ft T = kin_target_in_camera Fc C B Ft T <-> B = iso_id.
  Proof.
    intros R1 R2. unfold target_in_camera, kin_target_in_camera. split.
    - intros E. apply (f_equal (iso_mul (iso_mul Fc C))) in E. rewrite <- !iso_mul_assoc, iso_inv_r in E by (apply rigid_mul; assumption).
      rewrite !iso_mul_id_l in E.
      apply (f_equal (fun x => iso_mul x (iso_inv (iso_mul Ft T)))) in E.
      rewrite !iso_mul_assoc in E. rewrite <- (iso_mul_assoc Ft T) in E. rewrite !iso_inv_r in E by (apply rigid_mul; assumption).
      rewrite iso_mul_id_r in E. symmetry. exact E.
    - intros ->. rewrite iso_mul_id_l. reflexivity.
  Qed.
  Lemma chain3_fits target n st os st' o : not_on_a_line (sim_points target) ->
    chainObservations3D seeded uniform cam tgt C T B target n st = Ok (os, st') -> In o os ->
    (perfect_points (target_in_camera C (to_camera_mount o) (to_target_mount o) T) (correspondence_set o) <-> B = iso_id).
  Proof.
    intros NL E Ho. destruct (chain3_ok target n st) as (os' & s' & E' & _ & F). rewrite E in E'. injection E' as <- <-.
    rewrite Forall_forall in F. destruct (F o Ho) as (qc & qt & _ & [T1 T2] & CS).
    pose proof (fk_rigid _ _ _ _ Rcam T1) as R1. pose proof (fk_rigid _ _ _ _ Rtgt T2) as R2.
    rewrite <- (without_base _ _ R1 R2), CS. split; [ | intros ->; apply measured_perfect ].
    intros PP. apply (points_pose _ _ (measured (kin_target_in_camera (to_camera_mount o) C B (to_target_mount o) T) (sim_points target))).
    - unfold target_in_camera. apply rigid_mul; [ apply rigid_inv | ]; apply rigid_mul; assumption.
    - unfold kin_target_in_camera. apply rigid_mul; [ apply rigid_inv, rigid_mul; assumption | apply rigid_mul; [ assumption | apply rigid_mul; assumption ] ].
    - unfold measured. rewrite map_map. cbn [in_target]. rewrite map_id. exact NL.
    - intros c Hc. rewrite <- (PP c Hc). apply in_map_iff in Hc. destruct Hc as (p & <- & _). reflexivity.
  Qed.
  Lemma chain2_fits target camera n st os st' o :
    let Q := kin_target_in_camera (to_camera_mount o) C B (to_target_mount o) T in
    fx (sim_intr camera) <> 0 -> fy (sim_intr camera) <> 0 ->
    chainObservations2D seeded uniform cam tgt C T B target camera n st = Ok (os, st') -> In o os ->
    usable (sim_intr camera) Q (correspondence_set o) -> all_in_front Q (correspondence_set o) ->
    (perfect_image (sim_intr camera) (target_in_camera C (to_camera_mount o) (to_target_mount o) T) (correspondence_set o) <-> B = iso_id).
  Proof.
    intros Q Fx Fy E Ho (_ & _ & FF & NE) AF. destruct (chain2_ok target camera n st) as [E' | (os' & s' & E' & F)]; [ congruence | ]. rewrite E in E'. injection E' as <- <-.
    rewrite Forall_forall in F. destruct (F o Ho) as (qc & qt & _ & [T1 T2] & _ & SN). fold Q in SN.
    pose proof (fk_rigid _ _ _ _ Rcam T1) as R1. pose proof (fk_rigid _ _ _ _ Rtgt T2) as R2.
    assert (forall c, In c (correspondence_set o) -> in_image c = pinhole (sim_intr camera) (iso_app Q (in_target c))) as IM.
    { intros c Hc. apply (seen_in _ _ _ _ SN) in Hc. destruct Hc as (p & _ & _ & ->). reflexivity. }
    rewrite <- (without_base _ _ R1 R2). fold Q. split; [ | intros ->; intros c Hc; split; [ exact (AF c Hc) | exact (IM c Hc) ] ].
    intros PP. apply (image_pose (sim_intr camera) _ _ (correspondence_set o)); try assumption.
    - unfold target_in_camera. apply rigid_mul; [ apply rigid_inv | ]; apply rigid_mul; assumption.
    - unfold Q, kin_target_in_camera. apply rigid_mul; [ apply rigid_inv, rigid_mul; assumption | apply rigid_mul; [ assumption | apply rigid_mul; assumption ] ].
    - intros c Hc. destruct (PP c Hc) as [D I]. pose proof (AF c Hc) as D'. unfold in_front in *. assert (0 < 1 / 10 ^ 10) by (apply Rdiv_lt_0_compat; [ lra | apply pow_lt; lra ]).
      split; [ lra | ]. split; [ lra | ]. rewrite <- I. apply IM. exact Hc.
  Qed.
End truth.
