(** C81: the kinematic calibration example. *)
From Coq Require Import Reals Lra ZArith Arith Lia String List.
From Verif.Base Require Import Geom Outcome Matrix.
From Verif.Model Require Import Pose Covariance Solver HandEye DhChain LocalParam Kinematic Yaml Loaders KinematicExample.
From Verif.Spec Require Import FreezeSpec KinSpec KinReport OracleSpec KinExampleSpec UniqueSpec RedundancySpec.
From Verif.Proofs Require Import GeomLemmas YamlProofs DhProofs KinematicProofs KinematicCall KinFileProofs KinRunProofs RedundancyProofs.
Import ListNotations.
Local Open Scope R_scope.

Lemma example_first_joint load server f s1 s2 run1 run2 rep ms :
  lists_blocks (run_cov run1) ->
  kinematicExample load server (Some f) s1 s2 run1 run2 = Ok (Some rep) -> loadMeasurements load f = Ok ms ->
  (forall o, In o ms -> all_joints fixed_camera (createTwoAxisPositioner s1 s2) o) ->
  exists com residuals p,
    right_problem com (fun e => map (pose_error 100 com e) ms) residuals p /\
    forall m s, run_solve run1 residuals p (kin_memory0 com) = (m, s) -> best residuals p m ->
    ent (kr_target_chain_dh_offsets (rp_optimal rep)) 0 0 = 0 /\ ent (kr_target_chain_dh_offsets (rp_optimal rep)) 0 1 = 0.
Proof.
  intros L E Em J. destruct (example_asks _ _ _ _ _ _ _ _ E) as (ms' & g1 & g2 & pb & _ & Em' & _ & _ & A & O & _).
  rewrite Em in Em'. injection Em' as <-. pose proof A as A'. destruct A' as (Eo & _ & _ & Et & _ & _ & _ & _ & Mf & _).
  destruct (kin6_right (run_cov run1) pb 100 L Mf) as (residuals & p & Rp & K).
  exists (k6_common pb), residuals, p. rewrite Eo in Rp. split; [ exact Rp | ].
  intros m s Es Hb. destruct (K _ _ _ _ _ Es O) as (S & _). destruct S as (_ & _ & _ & _ & (R & Cl & S)).
  assert (Z : forall j, (j < 2)%nat -> ent (ke_target_offsets (stored_estimate (k6_common pb) m)) 0 j = 0).
  { apply (first_joint_zero ms (createTwoAxisPositioner s1 s2) g1 g2 (fun row => row = 1%nat) pb 100 residuals p A); try assumption.
    - rewrite Eo. exact Rp.
    - apply positioner_rigid.
    - cbn. lia.
    - discriminate. }
  assert (D : rows (kr_target_chain_dh_offsets (rp_optimal rep)) = 2%nat).
  { transitivity (rows (ke_target_offsets (stored_estimate (k6_common pb) m))); [ exact R | ]. cbn. rewrite Et. reflexivity. }
  assert (D' : cols (kr_target_chain_dh_offsets (rp_optimal rep)) = 4%nat) by exact Cl.
  cbn [ke_target_offsets result_estimate] in S. rewrite D, D' in S.
  split; rewrite S by lia; apply Z; lia.
Qed.

(** A measurement that the guesses predict. *)
Definition sc_tip : iso := positioner_tip 0 0.
Definition sc_exact : kin_measurement := KMeas sc_tip [] [0; 0].
Definition sc_problem : kin_problemPose6D := run_problem 0 0 [sc_exact] iso_id iso_id last_row.
Lemma sc_asks : asks [sc_exact] (createTwoAxisPositioner 0 0) iso_id iso_id (fun row => row = 1%nat) sc_problem.
Proof. apply run_asks, last_row_iff. Qed.
Lemma sc_joints o : In o [sc_exact] -> all_joints fixed_camera (createTwoAxisPositioner 0 0) o.
Proof. intros [<- | []]. split; reflexivity. Qed.
Lemma squares_nonneg l : 0 <= half_squares l.
Proof.
  unfold half_squares. apply Rmult_le_pos; [ lra | ]. induction l as [|x l IH]; cbn [fold_right]; [ lra | ]. pose proof (Rle_0_sqr x). unfold Rsqr in *. lra.
Qed.
Lemma squares_zero l : (forall x, In x l -> x = 0) -> half_squares l = 0.
Proof.
  intros H. unfold half_squares. replace (fold_right _ _ _) with 0; [ ring | ]. induction l as [|x l IH]; [ reflexivity | ].
  cbn [fold_right]. rewrite <- IH by (intros; apply H; right; assumption). rewrite (H x (or_introl eq_refl)). ring.
Qed.
Lemma tip_rigid a b : rigid (positioner_tip a b).
Proof. apply (fk_rigid (createTwoAxisPositioner 0 0) [a; b] (Mat 2 4 (fun _ _ => 0))); [ apply positioner_rigid | apply positioner_fk ]. Qed.
Lemma sc_best : exists residuals p, right_problem (k6_common sc_problem) (fun e => map (pose_error 100 (k6_common sc_problem) e) [sc_exact]) residuals p /\
  best residuals p (kin_memory0 (k6_common sc_problem)) /\ cost_is residuals (kin_memory0 (k6_common sc_problem)) 0.
Proof.
  destruct still_well as (L & _). destruct (kin6_right (run_cov still_run) sc_problem 100 L (run_masks _ _ _ _ _ _)) as (residuals & p & Rp & _).
  exists residuals, p. split; [ exact Rp | ].
  assert (Z : cost_is residuals (kin_memory0 (k6_common sc_problem)) 0).
  { destruct Rp as (_ & _ & obs & pr1 & pr2 & -> & Ho & P1 & P2).
    set (com := k6_common sc_problem) in *. set (m0 := kin_memory0 com) in *.
    assert (G : guesses_plain com) by (repeat split; first [ apply rigid_id | left; reflexivity ]).
    assert (Ob : mapM (fun f : kin_residual => f m0) obs = Ok [[0; 0; 0; 0]]).
    { rewrite mapM_map_id, Ho. unfold m0. cbn [k6_observations sc_problem run_problem pose6D_problem map].
      rewrite (pose_error_same 100 com _ _ sc_exact (start_estimate com G)) by reflexivity. unfold pose_error.
      change (km_camera_chain_joints sc_exact) with (@nil R). change (km_target_chain_joints sc_exact) with [0; 0].
      cbn [ke_camera_offsets ke_target_offsets guess_estimate ke_camera_mount_to_camera ke_target_mount_to_target ke_camera_base_to_target_base].
      change (getFK (kc_camera_chain com) [] (no_offsets (dof (kc_camera_chain com)))) with (Ok iso_id).
      pose proof (positioner_fk 0 0 0 0) as F. unfold getFK0 in F. change (kc_target_chain com) with (createTwoAxisPositioner 0 0). unfold no_offsets. rewrite F. cbn [bind].
      change (kc_camera_mount_to_camera_guess com) with iso_id. change (kc_target_mount_to_target_guess com) with iso_id.
      change (kc_camera_base_to_target_base_guess com) with iso_id. change (km_camera_to_target sc_exact) with sc_tip.
      assert (Pr : kin_target_in_camera iso_id iso_id iso_id (positioner_tip 0 0) iso_id = sc_tip).
      { unfold kin_target_in_camera. rewrite !iso_mul_id_r, !iso_mul_id_l. replace (iso_inv iso_id) with iso_id; [ apply iso_mul_id_l | ].
        rewrite <- (iso_mul_id_r (iso_inv iso_id)). symmetry. apply iso_inv_l, rigid_id. }
      rewrite Pr, iso_inv_r by apply tip_rigid. rewrite (proj2 (angular_distance_zero (lin sc_tip) (lin sc_tip) (tip_rigid 0 0) (tip_rigid 0 0)) eq_refl).
      cbn. rewrite Rmult_0_r. reflexivity. }
    assert (Pz : forall c k sd, k = 0%nat \/ k = 1%nat -> forall x, In x (offset_prior c k sd m0) -> x = 0).
    { intros c k sd Hk x Hx. unfold offset_prior in Hx. apply in_map_iff in Hx as (e & <- & _). unfold m0, kin_memory0. destruct Hk as [-> | ->]; apply Rmult_0_l. }
    assert (P : forall k c sd pr, k = 0%nat \/ k = 1%nat ->
      (pr = [] /\ (forall i, (i < block_size com k)%nat -> held com k i) \/
      (exists i, (i < block_size com k)%nat /\ ~ held com k i) /\ forall m, map (fun f : kin_residual => f m) pr = [Ok (offset_prior c k sd m)]) ->
      exists vs, mapM (fun f : kin_residual => f m0) pr = Ok vs /\ forall x, In x (concat vs) -> x = 0).
    { intros k c sd pr Hk [[-> _] | (_ & V)].
      - exists []. split; [ reflexivity | intros x [] ].
      - exists [offset_prior c k sd m0]. rewrite mapM_map_id, V. split; [ reflexivity | ]. cbn [concat]. rewrite app_nil_r. apply Pz, Hk. }
    destruct (P _ _ _ _ (or_introl eq_refl) P1) as (v1 & E1 & Z1). destruct (P _ _ _ _ (or_intror eq_refl) P2) as (v2 & E2 & Z2).
    exists ([[0; 0; 0; 0]] ++ v1 ++ v2)%list. split.
    - apply mapM_app_ok. exists [[0; 0; 0; 0]], (v1 ++ v2)%list. split; [ exact Ob | split; [ | reflexivity ] ]. apply mapM_app_ok. eauto.
    - symmetry. apply squares_zero. intros x Hx. rewrite !concat_app in Hx. apply in_app_iff in Hx as [Hx | Hx]; [ cbn in Hx; intuition | ].
      apply in_app_iff in Hx as [Hx | Hx]; auto. }
  split; [ | exact Z ]. exists 0. split; [ exact Z | ]. intros m' c' _ (vs & _ & ->). apply squares_nonneg.
Qed.
