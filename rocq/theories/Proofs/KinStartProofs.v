(** Proofs about the initial error that a kinematic calibration reports. *)
From Coq Require Import Reals Lra ZArith Arith Lia List.
From Verif.Base Require Import Geom Outcome Matrix.
From Verif.Model Require Import Pose Covariance Solver HandEye DhChain LocalParam Kinematic.
From Verif.Spec Require Import CovarianceSpec FreezeSpec KinSpec KinReport OracleSpec KinExampleSpec UniqueSpec RedundancySpec KinUniqueSpec KinFitSpec KinStartSpec.
From Verif.Proofs Require Import CovarianceProofs HandEyeProofs KinematicProofs KinematicCall KinFitProofs UniqueKinematicExample KinFitExample.
Import ListNotations.
Local Open Scope R_scope.

Lemma run_start com errors per N residuals p solve u cov blocks r :
  stable errors -> (forall e v, In (Ok v) (errors e) -> length v = per) -> (forall e, length (errors e) = N) ->
  honest_start_kin solve -> guesses_plain com ->
  right_problem com errors residuals p ->
  kin_optimize u solve cov com blocks = Ok r ->
  (forall u solve m s r, solve residuals p (kin_memory0 com) = (m, s) ->
    kin_optimize u solve cov com blocks = Ok r ->
    same_estimate (result_estimate r) (stored_estimate com m) /\ kr_converged r = term_convergence s /\
    exists vs, mapM (fun f : kin_residual => f (kin_memory0 com)) residuals = Ok vs /\
      let n := INR (length (concat vs)) in
      kr_initial_cost_per_obs r = initial_cost s / n /\ kr_final_cost_per_obs r = final_cost s / n) ->
  reports_start com errors (per * N) r.
Proof.
  intros St HL HN Ho G RP E Run. destruct (solve residuals p (kin_memory0 com)) as [m s] eqn:Es.
  destruct (Run u solve m s r Es E) as (_ & _ & vs & Ev & Ei & _).
  assert (M : may_choose com (kin_memory0 com)) by (intros k i Hk Hi H; reflexivity).
  assert (CI : cost_is residuals (kin_memory0 com) (initial_cost s)) by (apply (Ho _ _ _ _ _ Es); eauto).
  exists (length (concat vs)), (initial_cost s). split; [ | split; [ | exact Ei ] ].
  - rewrite <- (HN (stored_estimate com (kin_memory0 com))). apply (count_residuals com errors residuals p RP per HL _ _ Ev).
  - apply (whole_same _ _ _ _ _ St (start_estimate com G) eq_refl eq_refl). apply (cost_whole com errors residuals p RP _ _ M), CI.
Qed.
Lemma images_start u solve cov p r : honest_start_kin solve -> lists_blocks cov -> masks_fit (k2_common p) -> guesses_plain (k2_common p) ->
  kin_optimize2D3D u solve cov p = Ok r -> reports_start (k2_common p) (image_errors p) (2 * length (kin_pairs (k2_observations p))) r.
Proof.
  intros Ho HL HM G E. destruct (kin2_right cov p HL HM) as (residuals & pr & RP & Run).
  refine (run_start _ _ 2 (length (kin_pairs (k2_observations p))) residuals pr solve u cov _ r (image_stable p) (image_two p) _ Ho G RP E Run).
  intros e. apply map_length.
Qed.
Lemma poses_start u solve cov p w r : honest_start_kin solve -> lists_blocks cov -> masks_fit (k6_common p) -> guesses_plain (k6_common p) ->
  kin_optimizePose6D u solve cov p w = Ok r -> reports_start (k6_common p) (pose_errors w p) (4 * length (k6_observations p)) r.
Proof.
  intros Ho HL HM G E. destruct (kin6_right cov p w HL HM) as (residuals & pr & RP & Run).
  refine (run_start _ _ 4 (length (k6_observations p)) residuals pr solve u cov _ r (pose_stable w p) (pose_four w p) _ Ho G RP E Run).
  intros e. apply map_length.
Qed.

Lemma sc_kin_start : honest_start_kin sc_kin_still.
Proof. intros rs p m0 m s E (vs & Ev). injection E as <- <-. exists vs. split; [ exact Ev | ]. cbn. rewrite Ev. reflexivity. Qed.
Lemma kin_start_case : exists u solve cov p r q w s,
  honest_start_kin solve /\ lists_blocks cov /\
  masks_fit (k2_common p) /\ guesses_plain (k2_common p) /\ kin_optimize2D3D u solve cov p = Ok r /\ k2_observations p <> [] /\
  masks_fit (k6_common q) /\ guesses_plain (k6_common q) /\ kin_optimizePose6D u solve cov q w = Ok s /\ k6_observations q <> [].
Proof.
  assert (M : either free_masks) by (right; reflexivity).
  destruct (fit_images_ok free_masks M) as [r E], (fit_poses_ok free_masks 1 M) as [s F].
  exists sc_u, sc_kin_still, ex_cov_oracle, (fit_images free_masks), r, (fit_poses free_masks), 1, s.
  split; [ apply sc_kin_start | split; [ apply ex_oracle_lists | split; [ apply (fit_masks _ M) | split; [ apply (fit_guesses free_masks) | split; [ exact E | split; [ discriminate | ] ] ] ] ] ].
  split; [ apply (fit_masks _ M) | split; [ apply (fit_guesses free_masks) | split; [ exact F | discriminate ] ] ].
Qed.
