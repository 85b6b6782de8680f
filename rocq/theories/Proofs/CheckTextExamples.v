(** C118, C119: what the tools say of examples. *)
From Coq Require Import Reals Lra Lia Arith Ascii String List.
From Verif.Base Require Import Geom Outcome Matrix.
From Verif.Model Require Import Pose Covariance Solver HandEye Pnp IntrinsicValidation NoiseQualification DataSet ExampleTools CheckText.
From Verif.Spec Require Import PinHole Frames HomographySpec StatSpec ValidationSpec ToolSpec UniqueSpec PnpSpec NearSpec CheckSpec MessageSpec.
From Verif.Proofs Require KinematicProofs SceneProofs ScenesProofs.
From Verif.Proofs Require Import GeomLemmas RotLemmas HandEyeProofs PnpProofs NoiseProofs IntrinsicValidationProofs HandEyeToolProofs LoopProofs UniqueProofs UniqueExamples NearBest NearExamples NearChecks NearCheckExamples CheckTextProofs.
Import ListNotations.
Local Open Scope R_scope.

Definition ex_files (name : string) : list (correspondence vec2) := if String.eqb name "a" then ex_shot 0 else ex_shot (-1 / 2).
Definition ex_first : iso := iso_trans (V3 0 0 1).
Lemma ex_sees a : sees_shown ex_eyes (ex_shot a, iso_id) (ex_shot a).
Proof. exists (ex_shot a). repeat split. Qed.
Lemma ex_flat a : four_flat_points (map in_target (ex_shot a)).
Proof.
  exists (V3 0 0 0), (V3 1 0 0), (V3 0 1 0), (V3 1 1 0). unfold general_position, not_collinear. cbn. repeat split; auto 8; lra.
Qed.
Lemma ex_problems : noiseProblems ex_eyes ex_files ex_k ex_first ["a"; "b"]%string =
  Ok [PnP2 ex_k (ex_shot 0) ex_first default_pnp_label; PnP2 ex_k (ex_shot 0) ex_first default_pnp_label].
Proof. reflexivity. Qed.
Lemma ex_noise_runs : exists s, noiseTool ex_eyes (fun _ => quat_of_mat (lin ex_first)) (fun _ => ex_still) ex_files ex_k ex_first ["a"; "b"]%string = Ok s /\
  forall ps, noiseProblems ex_eyes ex_files ex_k ex_first ["a"; "b"]%string = Ok ps ->
    right_for (fun _ => quat_of_mat (lin ex_first)) (fun _ p => optimizePnP (run_u ex_still) (run_solve ex_still) (run_cov ex_still) p) ps.
Proof.
  set (p := PnP2 ex_k (ex_shot 0) ex_first default_pnp_label).
  assert (RT : rigid ex_first) by apply rigid_trans.
  destruct (pnp_succeeds2 (fun _ _ => 0) sc_stay ex_cov_oracle p) as [r E]; try reflexivity; [ apply ex_oracle_sym | discriminate | ].
  assert (C : pnp_converged r = true).
  { destruct (pnp_result2 p) as (b & _ & Y). destruct (Y _ _ _ _ E) as (_ & x & s & Es & C & _). rewrite C. injection Es as <- <-. reflexivity. }
  destruct (qualify_succeeds (fun _ => quat_of_mat (lin ex_first)) (fun _ q => optimizePnP (run_u ex_still) (run_solve ex_still) (run_cov ex_still) q) [p; p] [r; r]) as [s Es].
  { reflexivity. }
  { intros [|[|i]] q r' Hq Hr; cbn [nth_error] in Hq, Hr; [ injection Hq as <-; injection Hr as <-; exact E | injection Hq as <-; injection Hr as <-; exact E | destruct i; discriminate ]. }
  { unfold solutions. cbn [filter]. rewrite C. cbn. lia. }
  exists s. split.
  - unfold noiseTool. rewrite ex_problems. cbn [bind]. exact Es.
  - intros ps Eps. rewrite ex_problems in Eps. injection Eps as <-. apply still_right; [ exact RT | ]. intros i q r' Hq Er.
    apply two_nth in Hq as [->| ->]; exact (pnp_unmoved2 _ _ _ _ _ sc_stay_stays Er RT).
Qed.
Lemma noise_spread_refuted : exists (v : vision (list (correspondence vec2)) (list (correspondence vec2))) read k T1 T2 cs1 cs2,
  fx k <> 0 /\ fy k <> 0 /\ rigid T1 /\ rigid T2 /\ norm (vsub (tr T1) (tr T2)) = 1 / 2 /\
  sees_shown v (read "a"%string, iso_id) cs1 /\ four_flat_points (map in_target cs1) /\ perfect_image k T1 cs1 /\
  sees_shown v (read "b"%string, iso_id) cs2 /\ four_flat_points (map in_target cs2) /\ perfect_image k T2 cs2 /\
  (exists svd run s, noiseTool v svd (fun _ => run) read k T1 ["a"; "b"]%string = Ok s) /\
  forall g svd run s, noiseTool v svd (fun _ => run) read k g ["a"; "b"]%string = Ok s ->
    (forall ps, noiseProblems v read k g ["a"; "b"]%string = Ok ps ->
       right_for svd (fun _ p => optimizePnP (run_u run) (run_solve run) (run_cov run) p) ps) ->
    ps_stdev (ns_p_stat s) = vzero /\ qs_stdev (ns_q_stat s) = 0.
Proof.
  exists ex_eyes, ex_files, ex_k, ex_first, (iso_trans (V3 (-1 / 2) 0 1)), (ex_shot 0), (ex_shot (-1 / 2)).
  split; [ cbn; lra | split; [ cbn; lra | split; [ apply rigid_trans | split; [ apply rigid_trans | split ] ] ] ].
  { unfold norm, norm2, dot, vsub, ex_first, iso_trans. cbn [tr vx vy vz]. replace (_ + _ + _) with (1 / 2 * (1 / 2)) by lra. apply sqrt_square; lra. }
  split; [ apply ex_sees | split; [ apply ex_flat | split; [ apply ex_shot_perfect | ] ] ].
  split; [ apply ex_sees | split; [ apply ex_flat | split; [ apply ex_shot_perfect | split ] ] ].
  - destruct ex_noise_runs as (s & E & _). eauto.
  - intros g svd run s E D. destruct (noise_tool_result _ _ _ _ _ _ _ _ E D) as (n0 & rest & cs & r & _ & _ & _ & _ & _ & _ & _ & H). exact H.
Qed.
Lemma ex_noise_ordinary s : noiseTool ex_eyes (fun _ => quat_of_mat (lin ex_first)) (fun _ => ex_still) ex_files ex_k ex_first ["a"; "b"]%string = Ok s -> ordinary_stats s.
Proof.
  intros E. destruct ex_noise_runs as (s' & E' & D). destruct (noise_tool_result _ _ _ _ _ _ _ _ E D) as (n0 & rest & cs & r & _ & _ & _ & Er & _ & Hm & Hq & Hs & Hd).
  rewrite (pnp_unmoved2 _ _ _ _ _ sc_stay_stays Er (rigid_trans _)) in Hm, Hq. cbn [pnp_guess] in Hm, Hq.
  assert (B : 1 <= 2 ^ 1000) by (apply pow_R1_Rle; lra).
  assert (Q : qnorm2 (qs_mean (ns_q_stat s)) = 1).
  { assert (U : qnorm2 (quat_of_mat (lin ex_first)) = 1) by (apply quat_of_mat_unit, (rigid_trans (V3 0 0 1))).
    destruct Hq as [Hq|Hq]; rewrite Hq; [ exact U | ]. rewrite <- U. generalize (quat_of_mat (lin ex_first)). intros q. unfold qnorm2, qneg. cbn [qw qx qy qz]. ring. }
  assert (X : forall x, x * x <= 1 -> Rabs x <= 2 ^ 1000). { intros x Hx. apply Rabs_le. nra. }
  unfold ordinary_stats. rewrite Hm, Hs, Hd. unfold qnorm2 in Q. unfold three, four. cbn [app tr ex_first iso_trans vx vy vz vzero].
  repeat (apply Forall_cons; [ apply X; nra | ]). apply Forall_nil.
Qed.

(** ** A camera that is not valid: both halves of the target are fitted, one metre apart. *)
Definition ex_at (T : iso) : pnp_run := Run (fun _ _ => 0) (fun _ _ => (pnp_start T, Summary true 0 0)) ex_cov_oracle.
Lemma at_fits T k g cs : cs <> [] -> exists r, fitted (ex_at T) k g cs r /\ good_fit 1 r.
Proof.
  intros N. destruct (pnp_succeeds2 (run_u (ex_at T)) (run_solve (ex_at T)) (run_cov (ex_at T)) (PnP2 k cs g "camera_to_target")) as [r E];
    try reflexivity; [ apply ex_oracle_sym | exact N | ].
  exists r. split; [ exact E | ]. destruct (pnp_result2 (PnP2 k cs g "camera_to_target")) as (b & _ & X).
  destruct (X _ _ _ _ E) as (_ & x & s & Es & C & _ & _ & Fc & _). cbn [ex_at run_solve] in Es. injection Es as <- <-.
  split; [ exact C | ]. rewrite Fc. cbn [final_cost]. unfold Rdiv. rewrite Rmult_0_l. lra.
Qed.
Lemma at_pose T k g cs fit : rigid T -> fitted (ex_at T) k g cs fit -> pnp_camera_to_target fit = T.
Proof.
  intros RT F. destruct (pnp_result2 (PnP2 k cs g "camera_to_target")) as (b & _ & X).
  destruct (X _ _ _ _ F) as (_ & x & s & Es & _ & P & _). cbn [ex_at run_solve] in Es. injection Es as <- <-.
  rewrite P. apply pnp_start_stored, RT.
Qed.
Definition ex_apart : pnp_run * pnp_run := (ex_at (iso_trans (V3 0 0 1)), ex_at (iso_trans (V3 1 0 1))).
Lemma apart_errors cs k g d : measureVirtualTargetDiff (fst ex_apart) (snd ex_apart) cs k g 1 = Ok d -> vr_positional_error d = 1 /\ vr_angular_error d = 0.
Proof.
  intros E. apply virtual_result_spec in E. destruct E as (s1 & s2 & p1 & p2 & _ & _ & F1 & _ & F2 & _ & H).
  rewrite (at_pose _ _ _ _ _ (rigid_trans _) F1), (at_pose _ _ _ _ _ (rigid_trans _) F2) in H. destruct H as (_ & _ & -> & -> & A & _). split.
  - unfold norm, norm2, dot, iso_mul, iso_inv, iso_trans. cbn. match goal with |- sqrt ?x = 1 => replace x with 1 by ring end. apply sqrt_1.
  - refine (KinematicProofs.angle_between_unique _ _ _ _ _ A (KinematicProofs.angle_between_self _)). apply (rigid_trans (V3 1 0 1)).
Qed.
Lemma apart_tool : exists b, validationTool SceneProofs.sc_vision (fun _ => ex_apart) SceneProofs.sc_intr SceneProofs.sc_target iso_id (Some (data_of SceneProofs.sc_data)) = Ok b.
Proof.
  unfold validationTool. destruct (validation_succeeds SceneProofs.sc_vision SceneProofs.sc_data) as [obs E]; [ intros p _; apply ScenesProofs.sc_quiet | ].
  rewrite E. cbn [bind]. apply validation_images in E. destruct E as (sel & Ch & ->).
  assert (sel = SceneProofs.sc_sel) as ->.
  { refine (chosen_unique _ _ _ _ ScenesProofs.sc_shown_sel _ Ch). intros a b b' (f & F & _ & _ & X) (f' & F' & _ & _ & X'). congruence. }
  match goal with |- context [measureIntrinsicCalibrationAccuracy ?a ?b ?c ?d ?e ?f ?g] =>
    destruct (accuracy_succeeds a c d e f g b) as [r ->] end; [ discriminate | | | cbn [bind]; eauto ].
  - intros o o' Ho Ho'. cbn in Ho, Ho'. destruct Ho as [<- | [<- | []]], Ho' as [<- | [<- | []]]; reflexivity.
  - intros i o Ho. apply nth_error_In in Ho. unfold ex_apart. cbn [fst snd].
    assert (L : List.length (correspondence_set o) = 12%nat) by (destruct Ho as [<- | [<- | []]]; reflexivity).
    match goal with |- exists v, measureVirtualTargetDiff (ex_at ?A) (ex_at ?B) _ ?k ?g _ = _ =>
      destruct (at_fits A k g (firstn 6 (correspondence_set o))) as (p1 & F1 & G1); [ | destruct (at_fits B k g (skipn 6 (correspondence_set o))) as (p2 & F2 & G2) ] end.
    + intros N. apply (f_equal (@List.length _)) in N. rewrite firstn_length, L in N. discriminate.
    + intros N. apply (f_equal (@List.length _)) in N. rewrite skipn_length, L in N. discriminate.
    + refine (virtual_succeeds _ _ _ _ _ 1 _ _ p1 p2 _ _ F1 G1 F2 G2); [ apply firstn_skipn | ].
      rewrite firstn_length, L. reflexivity.
Qed.
Lemma ordinary_same l x : l <> [] -> (forall y, In y l -> y = x) -> Rabs x <= 1 -> ordinary_errors l.
Proof.
  intros N H B. destruct (average_same l x N H) as [E1 E2]. unfold ordinary_errors. rewrite E1, E2.
  assert (1 <= 2 ^ 990) by (apply pow_R1_Rle; lra). split; lra.
Qed.
(** The messages about the scene of C61 *)
Lemma warned : exists a b t, validationMessages SceneProofs.sc_vision (fun _ => ex_apart) SceneProofs.sc_intr SceneProofs.sc_target iso_id
    (Some (data_of SceneProofs.sc_data)) = Ok [Info a; Info b; Warn t] /\
  says_mean "Positional Error:" "m" a 1 0 /\ says_mean "Angular Error:" "rad" b 0 0 /\ says_exceeded t 1 (1 / 1000) 0 (5 / 100 * PI / 180).
Proof.
  pose proof (messages_verdict SceneProofs.sc_vision (fun _ => ex_apart) SceneProofs.sc_intr SceneProofs.sc_target iso_id (Some (data_of SceneProofs.sc_data))) as M.
  destruct apart_tool as [b E]. destruct (validationMessages _ _ _ _ _ _) as [ms| |] eqn:Em; [ | congruence | congruence ]. clear M.
  destruct (validation_says _ _ _ _ _ _ _ Em) as (sel & vs & _ & N & L & V & W). cbv zeta in W.
  assert (Z : forall d, In d vs -> vr_positional_error d = 1 /\ vr_angular_error d = 0).
  { intros d Hd. apply In_nth_error in Hd as [i Hi]. destruct (nth_other sel vs i d L Hi) as [s Hs]. exact (apart_errors _ _ _ _ (V i s d Hs Hi)). }
  assert (Nv : vs <> []) by (intros ->; destruct sel; [ contradiction | discriminate ]).
  assert (Z1 : forall y, In y (map vr_positional_error vs) -> y = 1) by (intros y Hy; apply in_map_iff in Hy as (d & <- & Hd); apply Z, Hd).
  assert (Z2 : forall y, In y (map vr_angular_error vs) -> y = 0) by (intros y Hy; apply in_map_iff in Hy as (d & <- & Hd); apply Z, Hd).
  assert (N1 : map vr_positional_error vs <> []) by (destruct vs; [ contradiction | discriminate ]).
  assert (N2 : map vr_angular_error vs <> []) by (destruct vs; [ contradiction | discriminate ]).
  destruct (average_same _ _ N1 Z1) as [A1 A2]. destruct (average_same _ _ N2 Z2) as [A3 A4].
  destruct W as (a & b' & c & -> & S1 & S2 & W).
  { apply (ordinary_same _ 1 N1 Z1). rewrite Rabs_R1. lra. } { apply (ordinary_same _ 0 N2 Z2). rewrite Rabs_R0. lra. }
  rewrite A1, A2 in S1. rewrite A3, A4 in S2. rewrite A1, A2, A3, A4 in W. replace (1 + 2 * 0) with 1 in W by ring. replace (0 + 2 * 0) with 0 in W by ring.
  destruct W as [(X & _)|(_ & t & -> & T)]; [ lra | ]. exists a, b', t. repeat split; assumption.
Qed.
Lemma praised : exists a b, validationMessages SceneProofs.sc_vision (fun _ => (ex_run, ex_run)) SceneProofs.sc_intr SceneProofs.sc_target iso_id
    (Some (data_of SceneProofs.sc_data)) = Ok [a; b; Info "Camera intrinsic calibration is valid!"%string].
Proof.
  pose proof (messages_verdict SceneProofs.sc_vision (fun _ => (ex_run, ex_run)) SceneProofs.sc_intr SceneProofs.sc_target iso_id (Some (data_of SceneProofs.sc_data))) as M.
  rewrite ScenesProofs.sc_validated in M. destruct (validationMessages _ _ _ _ _ _) as [ms| |]; [ | discriminate | discriminate ].
  destruct M as (a & b & [[-> _]|(t & _ & X)]); [ exists a, b; reflexivity | discriminate ].
Qed.
