(** Proofs comparing the intrinsic calibration with locating the target in every picture. *)
From Coq Require Import Reals Arith String List Permutation Lra Lia.
From Verif.Base Require Import Geom Outcome.
From Verif.Model Require Import Pose Covariance Solver HandEye BlockSolver Pnp Intrinsic.
From Verif.Spec Require Import Frames PinHole PnpSpec UniqueSpec SameDataSpec ToolsAgreeSpec RigChoicesSpec IntrinsicSpec LensChoicesSpec LensAgreeSpec RestartSpec.
From Verif.Proofs Require Import GeomLemmas HandEyeProofs PnpProofs UniqueProofs SameDataProofs ToolsAgreeProofs RigChoicesProofs IntrinsicProofs LensChoicesProofs.
Import ListNotations.
Local Open Scope R_scope.

Lemma residuals_sum p : INR (2 * List.length (image_views p (seq 0 (List.length (ip_image_observations p))))) = all_residuals p.
Proof.
  unfold all_residuals, number_of_images. generalize (seq 0 (List.length (ip_image_observations p))) as l. intros l.
  induction l as [|i l IH]; [ reflexivity | ]. rewrite sum_cons, <- IH. unfold image_views. cbn [flat_map]. rewrite app_length, map_length.
  unfold residuals_of, picture. rewrite <- plus_INR. f_equal. lia.
Qed.
Lemma picture_error_plain k T cs : picture_error k no_distortion T cs = pose_error k cs T.
Proof.
  unfold picture_error, pose_error. f_equal. apply flat_map_ext. intros x. unfold lens_error, pixel_error. rewrite lens_none. reflexivity.
Qed.
Lemma pnp_error_total u solve cov k cs guess label r : honest solve -> optimizePnP u solve cov (PnP2 k cs guess label) = Ok r ->
  (forall c, In c cs -> in_front (iso_app (pnp_camera_to_target r) (in_target c))) ->
  pnp_final_cost_per_obs r * INR (2 * List.length cs) = pose_error k cs (pnp_camera_to_target r).
Proof.
  intros Ho E AF. rewrite (pnp_error2 _ _ _ _ _ Ho E AF). cbn [pnp_correspondences pnp_intr]. destruct cs as [|c cs].
  - cbn. unfold pose_error, half_squares. cbn. unfold Rdiv. ring.
  - field. apply not_0_INR. cbn. lia.
Qed.
Lemma lens_total u psolve pcov solve cov p r :
  honest_blocks solve -> (forall blocks start, ends_at_best p (fst (solve blocks start))) ->
  optimizeIntrinsic u psolve pcov solve cov p = Ok r ->
  exists T, best_lens p (ir_intrinsics r) (lens_with (ir_distortions r)) T /\
    ir_final_cost_per_obs r * all_residuals p = lens_sum p (ir_intrinsics r) (lens_with (ir_distortions r)) T.
Proof.
  intros Ho B E. destruct (lens_reported _ _ _ _ _ _ _ Ho B E) as (T & BT & Q). exists T. split; [ exact BT | ]. rewrite Q, residuals_sum.
  rewrite <- residuals_sum. destruct (image_views p (seq 0 (List.length (ip_image_observations p)))) as [|v vs] eqn:V.
  - cbn. rewrite lens_by_view, V. unfold half_squares. cbn. unfold Rdiv. ring.
  - field. apply not_0_INR. cbn. lia.
Qed.
Lemma located_sum p k rs : target_located p k rs ->
  (forall i, (i < number_of_images p)%nat -> all_in_front (pnp_camera_to_target (rs i)) (picture p i)) ->
  located_error p rs = lens_sum p k no_distortion (fun i => pnp_camera_to_target (rs i)).
Proof.
  intros L AF. rewrite lens_by_picture. apply sum_eq. intros i Hi. apply in_seq in Hi. assert (Hi' : (i < number_of_images p)%nat) by (unfold number_of_images in *; lia).
  rewrite picture_error_plain. destruct (L i Hi') as (u & solve & cov & guess & label & Ho & E). exact (pnp_error_total u solve cov k _ guess label _ Ho E (AF i Hi')).
Qed.

Lemma lens_no_worse u psolve pcov solve cov p r k rs :
  honest_blocks solve -> (forall blocks start, ends_at_best p (fst (solve blocks start))) ->
  optimizeIntrinsic u psolve pcov solve cov p = Ok r ->
  target_located p k rs ->
  (forall i, (i < number_of_images p)%nat -> all_in_front (pnp_camera_to_target (rs i)) (picture p i)) ->
  ir_final_cost_per_obs r * all_residuals p <= located_error p rs.
Proof.
  intros Ho B E L V. destruct (lens_total _ _ _ _ _ _ _ Ho B E) as (T & [_ BT] & ->). rewrite (located_sum p k rs L) by (intros i Hi; apply V, Hi).
  apply BT. intros i Hi. split; [ | intros c Hc; apply front_pos, (V i Hi c Hc) ].
  destruct (L i Hi) as (u1 & solve1 & cov1 & guess & label & _ & E1). rewrite optimizePnP_unfold in E1. apply (pnp_finish_rigid _ _ _ _ _ _ _ E1).
Qed.
Lemma lens_found_camera u psolve pcov solve cov p r rs :
  honest_blocks solve -> (forall blocks start, ends_at_best p (fst (solve blocks start))) ->
  optimizeIntrinsic u psolve pcov solve cov p = Ok r -> ir_distortions r = [0; 0; 0; 0; 0] ->
  target_located p (ir_intrinsics r) rs ->
  (forall i, (i < number_of_images p)%nat -> all_in_front (pnp_camera_to_target (rs i)) (picture p i) /\
     best_pose (ir_intrinsics r) (picture p i) (pnp_camera_to_target (rs i))) ->
  located_error p rs = ir_final_cost_per_obs r * all_residuals p.
Proof.
  intros Ho B E D L V. apply Rle_antisym.
  - destruct (lens_total _ _ _ _ _ _ _ Ho B E) as (T & [VT _] & ->). rewrite (located_sum p _ rs L) by (intros i Hi; apply V, Hi).
    rewrite D. change (lens_with [0; 0; 0; 0; 0]) with no_distortion. rewrite !lens_by_picture. apply sum_le. intros i Hi. apply in_seq in Hi.
    assert (Hi' : (i < List.length (ip_image_observations p))%nat) by lia. rewrite !picture_error_plain.
    destruct (V i Hi') as (_ & _ & _ & BP). destruct (VT i Hi') as [RT FT]. apply BP; assumption.
  - apply (lens_no_worse u psolve pcov solve cov p r (ir_intrinsics r) rs Ho B E L). intros i Hi. apply (V i Hi).
Qed.

(** ** The initial error *)
Lemma evaluate_views blocks (views : list (nat * correspondence vec2)) n m k d T :
  List.length blocks = List.length views ->
  (forall m j b i x, nth_error blocks j = Some b -> nth_error views j = Some (i, x) ->
    let T := poseCalToEigen (read_pose m i) in
    vz (iso_app T (in_target x)) <> 0 -> rb_eval b m = lens_error (camera_of (m n)) (lens_of (m n)) T x) ->
  camera_of (m n) = k -> lens_of (m n) = d ->
  (forall i x, In (i, x) views -> poseCalToEigen (read_pose m i) = T i /\ vz (iso_app (T i) (in_target x)) <> 0) ->
  flat_map (fun b => rb_eval b m) blocks = flat_map (fun ix => lens_error k d (T (fst ix)) (snd ix)) views.
Proof.
  intros Len Eval Hk Hd V. revert views Len Eval V. induction blocks as [|b blocks IH]; intros [|[i x] views] Len Eval V; try discriminate; [ reflexivity | ].
  cbn [flat_map fst snd]. destruct (V i x (or_introl eq_refl)) as [E NZ]. f_equal.
  - rewrite <- Hk, <- Hd, <- E. apply (Eval m 0%nat b i x eq_refl eq_refl). cbv zeta. rewrite E. exact NZ.
  - apply IH; [ cbn in Len; lia | | intros i' x' I; apply V; right; exact I ].
    intros m' j b' i' x' H1 H2. apply (Eval m' (S j) b' i' x' H1 H2).
Qed.
Lemma lens_initial u psolve pcov solve cov p r rs :
  honest_start_blocks solve -> (forall i, honest (psolve i)) ->
  optimizeIntrinsic u psolve pcov solve cov p = Ok r ->
  (forall i, (i < number_of_images p)%nat -> optimizePnP u (psolve i) (pcov i) (image_pnp p (picture p i)) = Ok (rs i) /\
     pnp_converged (rs i) = true /\
     plain_pose (pnp_camera_to_target (rs i)) /\ all_in_front (pnp_camera_to_target (rs i)) (picture p i)) ->
  ir_initial_cost_per_obs r * all_residuals p = located_error p rs.
Proof.
  intros Hon Hps E L. destruct (intrinsic_result_right u psolve pcov p) as (blocks & Len & Eval & Res).
  destruct (Res solve cov r E) as (_ & _ & start & m & s & Es & Sk & Sd & Sp & _ & _ & _ & Fi & _).
  rewrite (located_sum p (ip_intrinsics_guess p)); cycle 1.
  { intros i Hi. destruct (L i Hi) as (Ei & _). exists u, (psolve i), (pcov i), half_metre_ahead, "camera_to_target"%string. split; [ apply Hps | exact Ei ]. }
  { intros i Hi. apply (L i Hi). }
  assert (C : initial_cost s = lens_sum p (ip_intrinsics_guess p) no_distortion (fun i => pnp_camera_to_target (rs i))).
  { specialize (Hon blocks start). rewrite Es in Hon. cbn [snd] in Hon. rewrite Hon, lens_by_view. f_equal.
    refine (evaluate_views blocks _ _ start _ _ (fun i => pnp_camera_to_target (rs i)) Len Eval Sk Sd _). intros i x I.
    unfold image_views in I. apply in_flat_map in I as (i' & Hi & I). apply in_map_iff in I as (x' & [= -> ->] & I). apply in_seq in Hi.
    assert (Hi' : (i < number_of_images p)%nat) by (unfold number_of_images; lia).
    destruct (L i Hi') as (Ei & Cv & PP & AF). split.
    - rewrite (Sp i (pnp_camera_to_target (rs i))); [ apply plain_stored, PP | ]. exists (picture p i), (rs i).
      split; [ apply nth_error_nth'; exact Hi' | split; [ exact Ei | split; [ exact Cv | reflexivity ] ] ].
    - pose proof (front_pos _ (AF x I)). lra. }
  rewrite <- C, Fi, <- residuals_sum. destruct (image_views p (seq 0 (List.length (ip_image_observations p)))) as [|v vs] eqn:V.
  - rewrite C, lens_by_view, V. unfold half_squares. cbn. unfold Rdiv. ring.
  - field. apply not_0_INR. cbn. lia.
Qed.
