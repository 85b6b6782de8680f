(** C47, C48, C53: the whole kinematic calibration call. *)
From Coq Require Import Reals Lra ZArith Arith Lia String List Permutation.
From Verif.Base Require Import Geom Outcome Matrix.
From Verif.Model Require Import Pose Covariance Solver HandEye DhChain LocalParam MaxLikelihood Kinematic.
From Verif.Spec Require Import CovarianceSpec PinHole DhSpec FreezeSpec KinSpec KinReport.
From Verif.Proofs Require Import GeomLemmas RotLemmas AngleAxisLemmas PoseProofs ListLemmas CovarianceProofs
  HandEyeProofs DhProofs LocalParamProofs MaxLikelihoodProofs KinematicProofs.
Import ListNotations.
Local Open Scope R_scope.

(** ** Initial memory *)
Lemma memory0_read com :
  createTransform (read3 (kin_memory0 com) 2) (read3 (kin_memory0 com) 3) =
    createTransform (tr (kc_camera_mount_to_camera_guess com)) (guess_aa (kc_camera_mount_to_camera_guess com)) /\
  createTransform (read3 (kin_memory0 com) 4) (read3 (kin_memory0 com) 5) =
    createTransform (tr (kc_target_mount_to_target_guess com)) (guess_aa (kc_target_mount_to_target_guess com)) /\
  createTransform (read3 (kin_memory0 com) 6) (read3 (kin_memory0 com) 7) =
    createTransform (tr (kc_camera_base_to_target_base_guess com)) (guess_aa (kc_camera_base_to_target_base_guess com)).
Proof.
  unfold read3, kin_memory0. cbn -[guess_aa createTransform].
  repeat split; f_equal; match goal with |- V3 (vx ?v) _ _ = _ => destruct v; reflexivity end.
Qed.
Lemma memory0_guesses com : guesses_plain com ->
  createTransform (read3 (kin_memory0 com) 2) (read3 (kin_memory0 com) 3) = kc_camera_mount_to_camera_guess com /\
  createTransform (read3 (kin_memory0 com) 4) (read3 (kin_memory0 com) 5) = kc_target_mount_to_target_guess com /\
  createTransform (read3 (kin_memory0 com) 6) (read3 (kin_memory0 com) 7) = kc_camera_base_to_target_base_guess com.
Proof.
  intros (G1 & G2 & G3). destruct (memory0_read com) as (-> & -> & ->). rewrite !guess_stored by assumption. auto.
Qed.
Lemma memory0_offsets com k n : k = 0%nat \/ k = 1%nat -> same_matrix (map_offsets (kin_memory0 com) k n) (Mat n 4 (fun _ _ => 0)).
Proof. intros [->| ->]; repeat split; reflexivity. Qed.

(** ** Masks *)
Lemma kin_size_max com k : kin_size com k = block_size com k.
Proof.
  assert (R : forall c, offset_rows c = Nat.max 1 (dof c)) by (intros c; unfold offset_rows; destruct (dof c); reflexivity).
  destruct k as [|[|k]]; cbn [kin_size block_size]; rewrite ?R; reflexivity.
Qed.
Lemma keys_lt k : In k kin_keys <-> (k < 8)%nat.
Proof.
  split; [ intros Hk; repeat (destruct Hk as [<-|Hk]; [ lia | ]); destruct Hk | ].
  intros H. do 8 (destruct k as [|k]; [ cbn; auto 10 | ]). lia.
Qed.
Lemma kin_mask_find com k : length (kc_mask com) = 8%nat -> In k kin_keys ->
  find_key k (kin_masks com) = Some (nth k (kc_mask com) []).
Proof.
  intros H Hk. unfold kin_masks. destruct (eight _ H) as (a & b & c & d & e & f & g & h & ->).
  repeat (destruct Hk as [<-|Hk]; [ reflexivity | ]). destruct Hk.
Qed.
Lemma kin_masks_range com : masks_fit com -> forall k, In k kin_keys ->
  mask_in_range (kin_masks com) k (kin_size com k).
Proof.
  intros [H8 H] k Hk m z Hm Hz. rewrite kin_mask_find in Hm by assumption. injection Hm as <-.
  assert (Lk : (k < 8)%nat) by (repeat (destruct Hk as [<-|Hk]; [ lia | ]); destruct Hk).
  assert (K : nth_error (kc_mask com) k = Some (nth k (kc_mask com) [])) by (apply nth_error_nth'; lia).
  specialize (H k _ z K Hz). rewrite kin_size_max. exact H.
Qed.
Lemma frozen0_iff com k : kin_frozen0 com k = true <->
  (k = 0%nat /\ dof (kc_camera_chain com) = 0%nat) \/ (k = 1%nat /\ dof (kc_target_chain com) = 0%nat).
Proof.
  unfold kin_frozen0. rewrite Bool.orb_true_iff, !Bool.andb_true_iff, !Nat.eqb_eq. reflexivity.
Qed.
Lemma kin_subset cov com : lists_blocks cov -> masks_fit com ->
  exists p', addSubsetParameterization (kin_prepared cov com) (kin_masks com) = Ok p' /\
    p_blocks p' = p_blocks (kin_prepared cov com) /\
    forall k i, In k kin_keys -> (i < kin_size com k)%nat ->
      (frozen p' k i <-> held com k i).
Proof.
  intros H M.
  destruct (subset_exact (kin_prepared cov com) (kin_masks com)) as (p' & E & B & F).
  - apply prepared_nodup, H.
  - intros b _. reflexivity.
  - intros b n Hb. apply prepared_block in Hb as [Hk ->]; [ | exact H ]. apply kin_masks_range; assumption.
  - exists p'. split; [ exact E | split; [ exact B | ] ]. intros k i Hk Hi.
    rewrite (F k (kin_size com k) i) by (first [ exact Hi | apply prepared_block; auto ]).
    unfold frozen, listed. cbn [p_state kin_prepared bs_constant bs_subset].
    rewrite kin_mask_find by (first [ apply M | exact Hk ]). split.
    + intros [[X|(m & X & _)]|(m & [= <-] & X)]; [ right; apply frozen0_iff, X | discriminate | left; exact X ].
    + intros [X|X]; [ right; eauto | left; left; apply frozen0_iff, X ].
Qed.

(** ** Priors *)
Lemma prior_ok p c key sd n : find_key key (p_blocks p) = Some n ->
  exists pr, chain_prior p c key sd = Ok pr /\
    (pr = [] \/ forall m, exists l, pr = [fun m => ml_residual (ML (Mat (offset_rows c) 4 (fun _ _ => 0)) (Mat (offset_rows c) 4 (fun _ _ => sd))) (m key)] /\
       ml_residual (ML (Mat (offset_rows c) 4 (fun _ _ => 0)) (Mat (offset_rows c) 4 (fun _ _ => sd))) (m key) = Ok l).
Proof.
  intros F. unfold chain_prior. destruct (Nat.eqb (dof c) 0); [ eauto | ].
  unfold IsParameterBlockConstant. rewrite F. cbn [bind]. destruct (bs_constant (p_state p key)); [ eauto | ].
  rewrite ml_accepts by reflexivity. cbn [bind]. eexists. split; [ reflexivity | right ].
  intros m. rewrite ml_residual_eq by (split; reflexivity). eauto.
Qed.
Lemma prior_eval p c key sd pr : chain_prior p c key sd = Ok pr -> 
  forall m, Forall (fun f : kin_residual => exists l, f m = Ok l) pr.
Proof.
  unfold chain_prior. destruct (Nat.eqb (dof c) 0); [ intros [= <-] m; constructor | ].
  destruct (IsParameterBlockConstant p key) as [b| |]; cbn [bind]; try discriminate.
  destruct b; [ intros [= <-] m; constructor | ]. rewrite ml_accepts by reflexivity. cbn [bind]. intros [= <-] m.
  constructor; [ | constructor ]. rewrite ml_residual_eq by (split; reflexivity). eauto.
Qed.
Lemma prior_value p c key sd pr : chain_prior p c key sd = Ok pr -> dof c <> 0%nat ->
  (pr = [] /\ bs_constant (p_state p key) = true) \/
  (bs_constant (p_state p key) = false /\
   exists f, pr = [f] /\ forall m, exists l, f m = Ok l /\ length l = (dof c * 4)%nat /\
    forall e, (e < dof c * 4)%nat -> nth_error l e = Some (m key e / sd)).
Proof.
  unfold chain_prior. destruct (Nat.eqb_spec (dof c) 0) as [E0|N]; [ congruence | ].
  unfold IsParameterBlockConstant. destruct (find_key key (p_blocks p)) as [n|]; cbn [bind]; try discriminate.
  destruct (bs_constant (p_state p key)); [ intros [= <-] _; auto | ].
  rewrite ml_accepts by reflexivity. cbn [bind]. intros [= <-] _. right. split; [ reflexivity | ].
  eexists. split; [ reflexivity | ]. intros m0.
  assert (O : offset_rows c = dof c) by (unfold offset_rows; destruct (Nat.eqb_spec (dof c) 0); congruence).
  destruct (ml_value (Mat (offset_rows c) 4 (fun _ _ => 0)) (Mat (offset_rows c) 4 (fun _ _ => sd))) as (ml & E & V);
    [ split; reflexivity | ].
  rewrite ml_accepts in E by reflexivity. injection E as <-.
  destruct (V (m0 key)) as (l & -> & Ln & Hl). exists l. cbn [rows cols ent] in *. rewrite O in *.
  split; [ reflexivity | split; [ exact Ln | ] ]. intros e He.
  specialize (Hl (e mod dof c)%nat (e / dof c)%nat).
  assert (E : e = (e / dof c * dof c + e mod dof c)%nat) by (pose proof (Nat.div_mod e (dof c) N); nia).
  rewrite <- E in Hl. rewrite Hl; [ f_equal; unfold Rdiv; ring | apply Nat.mod_upper_bound, N | apply Nat.div_lt_upper_bound; lia ].
Qed.

(** ** Unmoved and frozen parameters *)
Lemma kin_unmoved u solve cov com blocks r : lists_blocks cov -> length (kc_mask com) = 8%nat -> guesses_plain com ->
  (forall bl p m m' s, solve bl p m = (m', s) -> m' = m) ->
  kin_optimize u solve cov com blocks = Ok r ->
  kr_camera_mount_to_camera r = kc_camera_mount_to_camera_guess com /\
  kr_target_mount_to_target r = kc_target_mount_to_target_guess com /\
  kr_camera_base_to_target_base r = kc_camera_base_to_target_base_guess com /\
  same_matrix (kr_camera_chain_dh_offsets r) (no_offsets (dof (kc_camera_chain com))) /\
  same_matrix (kr_target_chain_dh_offsets r) (no_offsets (dof (kc_target_chain com))).
Proof.
  intros H H8 G S E. destruct (kin_ok_inv _ _ _ _ _ _ H H8 E)
    as (p' & pr1 & pr2 & m & s & n & c & _ & _ & _ & _ & Es & _ & ->).
  apply S in Es. subst m. unfold kin_read.
  cbn [kr_camera_chain_dh_offsets kr_target_chain_dh_offsets kr_camera_mount_to_camera kr_target_mount_to_target kr_camera_base_to_target_base].
  destruct (memory0_guesses com G) as (-> & -> & ->). do 3 (split; [ reflexivity | ]).
  split; (destruct (read_offsets_same (kc_camera_chain com) (kin_memory0 com) 0) as (A1 & A2 & A3);
          destruct (read_offsets_same (kc_target_chain com) (kin_memory0 com) 1) as (B1 & B2 & B3)).
  - split; [ exact A1 | split; [ exact A2 | ] ]. intros i j Hi Hj. rewrite A3 by assumption. reflexivity.
  - split; [ exact B1 | split; [ exact B2 | ] ]. intros i j Hi Hj. rewrite B3 by assumption. reflexivity.
Qed.

Lemma kin_keeps u solve cov com blocks r : lists_blocks cov -> masks_fit com -> keeps_frozen solve ->
  kin_optimize u solve cov com blocks = Ok r ->
  exists m, (forall k i, In k kin_keys -> (i < kin_size com k)%nat -> masked com k i -> m k i = kin_memory0 com k i) /\
    kr_camera_mount_to_camera r = createTransform (read3 m 2) (read3 m 3) /\
    kr_target_mount_to_target r = createTransform (read3 m 4) (read3 m 5) /\
    kr_camera_base_to_target_base r = createTransform (read3 m 6) (read3 m 7) /\
    same_matrix (kr_camera_chain_dh_offsets r) (map_offsets m 0 (dof (kc_camera_chain com))) /\
    same_matrix (kr_target_chain_dh_offsets r) (map_offsets m 1 (dof (kc_target_chain com))).
Proof.
  intros H M K E. destruct (kin_ok_inv _ _ _ _ _ _ H (proj1 M) E)
    as (p' & pr1 & pr2 & m & s & n & c & _ & Ep & _ & _ & Es & _ & ->).
  destruct (kin_subset cov com H M) as (p2 & E2 & _ & F). rewrite Ep in E2. injection E2 as <-.
  exists m. split; [ | repeat (split; [ reflexivity | ]); split; apply read_offsets_same ].
  intros k i Hk Hi Hm. apply (K _ _ _ _ _ Es). apply F; [ exact Hk | exact Hi | left; exact Hm ].
Qed.
Lemma masked_offsets_zero_aux u solve cov com blocks r : lists_blocks cov -> masks_fit com -> keeps_frozen solve ->
  kin_optimize u solve cov com blocks = Ok r ->
  (forall i j, (i < dof (kc_camera_chain com))%nat -> (j < 4)%nat ->
     masked com 0 (j * dof (kc_camera_chain com) + i) -> ent (kr_camera_chain_dh_offsets r) i j = 0) /\
  (forall i j, (i < dof (kc_target_chain com))%nat -> (j < 4)%nat ->
     masked com 1 (j * dof (kc_target_chain com) + i) -> ent (kr_target_chain_dh_offsets r) i j = 0).
Proof.
  intros H M K E. destruct (kin_keeps _ _ _ _ _ _ H M K E) as (m & F & _ & _ & _ & (A1 & A2 & A3) & (B1 & B2 & B3)).
  split; intros i j Hi Hj Hm.
  - rewrite A3 by (rewrite ?A1, ?A2; assumption). cbn [map_offsets ent].
    rewrite F; [ reflexivity | left; reflexivity | rewrite kin_size_max; cbn [block_size]; nia | exact Hm ].
  - rewrite B3 by (rewrite ?B1, ?B2; assumption). cbn [map_offsets ent].
    rewrite F; [ reflexivity | right; left; reflexivity | rewrite kin_size_max; cbn [block_size]; nia | exact Hm ].
Qed.
Lemma dh_masked_zero u solve cov com blocks r cm tm : lists_blocks cov -> masks_fit com -> keeps_frozen solve ->
  nth 0 (kc_mask com) [] = createDHMask (dof (kc_camera_chain com)) cm ->
  nth 1 (kc_mask com) [] = createDHMask (dof (kc_target_chain com)) tm ->
  kin_optimize u solve cov com blocks = Ok r ->
  (forall i j, (i < dof (kc_camera_chain com))%nat -> (j < 4)%nat -> cm i j = true -> ent (kr_camera_chain_dh_offsets r) i j = 0) /\
  (forall i j, (i < dof (kc_target_chain com))%nat -> (j < 4)%nat -> tm i j = true -> ent (kr_target_chain_dh_offsets r) i j = 0).
Proof.
  intros H M K E1 E2 E. destruct (masked_offsets_zero_aux _ _ _ _ _ _ H M K E) as [A B].
  split; intros i j Hi Hj Ht; [ apply A | apply B ]; try assumption; unfold masked; rewrite ?E1, ?E2; apply mask_in; assumption.
Qed.
(** A mount whose three positions and three rotations are masked keeps its guess. *)
Lemma masked_pose_kept u solve cov com blocks r : lists_blocks cov -> masks_fit com -> keeps_frozen solve -> guesses_plain com ->
  kin_optimize u solve cov com blocks = Ok r ->
  ((forall k i, k = 2%nat \/ k = 3%nat -> (i < 3)%nat -> masked com k i) ->
     kr_camera_mount_to_camera r = kc_camera_mount_to_camera_guess com) /\
  ((forall k i, k = 4%nat \/ k = 5%nat -> (i < 3)%nat -> masked com k i) ->
     kr_target_mount_to_target r = kc_target_mount_to_target_guess com) /\
  ((forall k i, k = 6%nat \/ k = 7%nat -> (i < 3)%nat -> masked com k i) ->
     kr_camera_base_to_target_base r = kc_camera_base_to_target_base_guess com).
Proof.
  intros H M K G E. destruct (kin_keeps _ _ _ _ _ _ H M K E) as (m & F & -> & -> & -> & _ & _).
  destruct (memory0_guesses com G) as (<- & <- & <-).
  assert (Rd : forall k, In k kin_keys -> (2 <= k)%nat -> (forall i, (i < 3)%nat -> masked com k i) -> read3 m k = read3 (kin_memory0 com) k).
  { intros k Hk H2 Hm. assert (S3 : kin_size com k = 3%nat) by (destruct k as [|[|k]]; [ lia | lia | reflexivity ]).
    unfold read3. rewrite !F by (first [ exact Hk | rewrite S3; lia | apply Hm; lia ]). reflexivity. }
  split; [ | split ]; intros Hm; f_equal; apply Rd; try (cbn; auto 10; fail); try lia; intros i Hi; apply Hm; auto.
Qed.

(** ** When the call succeeds *)
Lemma mapM_ok_in {A B} (f : A -> res B) l : (forall a, In a l -> exists b, f a = Ok b) -> exists bs, mapM f l = Ok bs.
Proof.
  intros H. destruct (mapM_Forall2 f (fun _ _ => True) l) as (bs & E & _); [ | eauto ].
  intros a Ha. destruct (H a Ha) as (b & E). eauto.
Qed.
Lemma kin_labels_sizes com k : In k kin_keys -> exists l, find_key k (kin_labels com) = Some l /\ length l = kin_size com k.
Proof.
  intros Hk. 
  repeat (destruct Hk as [<-|Hk]; [ eexists; split; [ reflexivity | ] | ]); try destruct Hk;
    try reflexivity; rewrite colmajor_length, chain_labels_length; cbn [kin_size]; lia.
Qed.
Lemma kin_names_all k : In k kin_keys -> exists nm, find_key k kin_names = Some nm.
Proof. intros Hk. repeat (destruct Hk as [<-|Hk]; [ eexists; reflexivity | ]). destruct Hk. Qed.
Lemma kin_prints cov com p' : lists_blocks cov -> masks_fit com ->
  addSubsetParameterization (kin_prepared cov com) (kin_masks com) = Ok p' ->
  exists lines, printOptimizationLabels p' kin_names (kin_labels com) (kin_masks com) = Ok lines /\
    Forall2 (prints_free p' kin_names (kin_labels com)) (p_blocks (kin_prepared cov com)) lines.
Proof.
  intros H M E. apply prints_exactly_free; [ apply prepared_nodup, H | intros b _; reflexivity | | exact E ].
  intros b n Hb. apply prepared_block in Hb as [Hk ->]; [ | exact H ].
  split; [ apply kin_names_all, Hk | split; [ apply kin_labels_sizes, Hk | ] ].
  exists (nth b (kc_mask com) []). rewrite kin_mask_find by (first [ apply M | exact Hk ]). split; [ reflexivity | ].
  intros z Hz. refine (kin_masks_range com M b Hk _ z _ Hz). apply kin_mask_find; [ apply M | exact Hk ].
Qed.
Lemma kin_cov_inputs cov com : lists_blocks cov -> (forall b, co_compute cov b = true) -> (forall b, co_get cov b = true) ->
  let pb := mk_cov_problem cov (map (fun k => (k, kin_size com k)) kin_keys) in
  cov_inputs_ok pb (pb_blocks pb) (kin_labels com).
Proof.
  intros H C G pb. unfold pb, mk_cov_problem. cbn [pb_blocks pb_size pb_compute pb_get]. rewrite kin_blocks_keys.
  split; [ | split; [ | split; [ apply C | apply G ] ] ].
  - rewrite <- (Permutation_length (H kin_keys)). reflexivity.
  - intros b Hb. apply order_in_inv in Hb; [ | exact H ]. destruct (kin_labels_sizes com b Hb) as (l & E & L).
    exists l. split; [ exact E | ]. cbn [pb_size]. rewrite kin_find by exact Hb. rewrite L. reflexivity.
Qed.
Lemma kin_succeeds u solve cov com (blocks : list nat -> list kin_residual) : lists_blocks cov -> masks_fit com ->
  (forall b, co_compute cov b = true) -> (forall b, co_get cov b = true) ->
  (forall b i c j, co_cov cov b i c j = co_cov cov c j b i) ->
  blocks kin_params <> [] -> (forall f, In f (blocks kin_params) -> exists l, f (kin_memory0 com) = Ok l) ->
  exists r, kin_optimize u solve cov com blocks = Ok r.
Proof.
  intros H M C G Sy NE Ev. rewrite kin_optimize_eq by (first [ exact H | apply M | exact NE ]).
  destruct (kin_subset cov com H M) as (p' & Ep & Bp & _). rewrite Ep. cbn [bind]. unfold kin_rest.
  assert (Fk : forall k, In k kin_keys -> find_key k (p_blocks p') = Some (kin_size com k)).
  { intros k Hk. rewrite Bp. cbn [p_blocks kin_prepared]. apply kin_find, order_in; assumption. }
  destruct (prior_ok p' (kc_camera_chain com) 0 (kc_camera_chain_offset_stdev com) _ (Fk 0%nat (or_introl eq_refl))) as (pr1 & E1 & _).
  destruct (prior_ok p' (kc_target_chain com) 1 (kc_target_chain_offset_stdev com) _ (Fk 1%nat (or_intror (or_introl eq_refl)))) as (pr2 & E2 & _).
  rewrite E1, E2. cbn [bind]. destruct (kin_prints cov com p' H M Ep) as (lines & -> & _). cbn [bind]. cbv zeta.
  match goal with |- context [mapM ?f ?l] => destruct (mapM_ok_in f l) as (vals & Ev') end.
  { intros f Hf. apply in_app_iff in Hf as [Hf|Hf]; [ apply Ev, Hf | ]. apply in_app_iff in Hf as [Hf|Hf].
    - exact (proj1 (Forall_forall _ _) (prior_eval _ _ _ _ _ E1 (kin_memory0 com)) f Hf).
    - exact (proj1 (Forall_forall _ _) (prior_eval _ _ _ _ _ E2 (kin_memory0 com)) f Hf). }
  rewrite Ev'.
  destruct (solve _ _ _) as [m s].
  pose proof (kin_cov_inputs cov com H C G) as I.
  destruct (covariance_ok u (mk_cov_problem cov (map (fun k => (k, kin_size com k)) kin_keys)) _ _ (kin_masks com) Sy I) as (c & Ec & _).
  unfold computeCovariance_names. rewrite Ec. cbn [bind]. eauto.
Qed.

(** ** The covariance report *)
Lemma flat_map_ext_in {A B} (f g : A -> list B) l : (forall a, In a l -> f a = g a) -> flat_map f l = flat_map g l.
Proof. induction l as [|a r IH]; intros H; cbn; [ reflexivity | ]. rewrite H by (left; reflexivity). rewrite IH; [ reflexivity | ]. intros x Hx. apply H. right. exact Hx. Qed.
Lemma kin_reported u solve cov com blocks r : lists_blocks cov -> masks_fit com ->
  (forall b i c j, co_cov cov b i c j = co_cov cov c j b i) ->
  kin_optimize u solve cov com blocks = Ok r ->
  map (fun p => fst (np_names p)) (standard_deviations (kr_covariance r)) =
  map (label_of (kin_labels com))
    (free_elems (kin_size com) (fun k => nth k (kc_mask com) []) (co_order cov kin_keys)).
Proof.
  intros H M Sy E. destruct (kin_ok_inv _ _ _ _ _ _ H (proj1 M) E)
    as (p' & pr1 & pr2 & m & s & n & c & _ & Ep & _ & _ & Es & Ec & ->).
  cbn [kr_covariance kin_read].
  rewrite (covariance_sd_names u (mk_cov_problem cov (map (fun k => (k, kin_size com k)) kin_keys)) _ _ _ _ Sy Ec).
  f_equal. unfold mk_cov_problem. cbn [pb_blocks pb_size]. rewrite kin_blocks_keys.
  unfold free_elems. apply flat_map_ext_in. intros b Hb. apply order_in_inv in Hb; [ | exact H ].
  rewrite kin_find by exact Hb. unfold mask_of. rewrite kin_mask_find by (first [ apply M | exact Hb ]). reflexivity.
Qed.

(** ** Estimates *)
Lemma same_matrix_sym A B : same_matrix A B -> same_matrix B A.
Proof. intros (E1 & E2 & E). split; [ auto | split; [ auto | ] ]. intros i j Hi Hj. symmetry. apply E; congruence. Qed.
Lemma same_estimate_fk e e' c q q' com : same_estimate e e' -> cols (ke_camera_offsets e) = 4%nat -> cols (ke_target_offsets e) = 4%nat ->
  c = kc_camera_chain com ->
  getFK c q (ke_camera_offsets e) = getFK c q (ke_camera_offsets e') /\
  getFK (kc_target_chain com) q' (ke_target_offsets e) = getFK (kc_target_chain com) q' (ke_target_offsets e').
Proof. intros (_ & _ & _ & H1 & H2) C1 C2 _. split; apply fk_same; assumption. Qed.
Lemma reproject_same k com e e' oc : same_estimate e e' -> cols (ke_camera_offsets e) = 4%nat -> cols (ke_target_offsets e) = 4%nat ->
  reproject k com e oc = reproject k com e' oc.
Proof.
  intros H C1 C2. unfold reproject. destruct (same_estimate_fk e e' _ (ko_camera_chain_joints (fst oc)) (ko_target_chain_joints (fst oc)) com H C1 C2 eq_refl) as [-> ->].
  destruct H as (-> & -> & -> & _). reflexivity.
Qed.
Lemma pose_error_same w com e e' o : same_estimate e e' -> cols (ke_camera_offsets e) = 4%nat -> cols (ke_target_offsets e) = 4%nat ->
  pose_error w com e o = pose_error w com e' o.
Proof.
  intros H C1 C2. unfold pose_error. destruct (same_estimate_fk e e' _ (km_camera_chain_joints o) (km_target_chain_joints o) com H C1 C2 eq_refl) as [-> ->].
  destruct H as (-> & -> & -> & _). reflexivity.
Qed.
Lemma blk2_stored params oc m : kin_blk2 params kin_params oc m =
  reproject (k2_intr params) (k2_common params) (stored_estimate (k2_common params) m) oc.
Proof. unfold kin_blk2, kin_params. rewrite cost2D3D_eq. reflexivity. Qed.
Lemma blk6_stored com o w m : dualCostPose6D o (kc_camera_chain com) (kc_target_chain com) w kin_params m =
  pose_error w com (stored_estimate com m) o.
Proof. unfold kin_params. rewrite costPose_eq. reflexivity. Qed.
Lemma read_estimate com m s n c : same_estimate (result_estimate (kin_read com m s n c)) (stored_estimate com m).
Proof. repeat (split; [ reflexivity | ]). split; apply read_offsets_same. Qed.

Lemma prior_right cov com p' c key sd pr : lists_blocks cov -> masks_fit com ->
  addSubsetParameterization (kin_prepared cov com) (kin_masks com) = Ok p' ->
  (key = 0%nat /\ c = kc_camera_chain com) \/ (key = 1%nat /\ c = kc_target_chain com) ->
  (forall k i, In k kin_keys -> (i < kin_size com k)%nat -> (frozen p' k i <-> held com k i)) ->
  chain_prior p' c key sd = Ok pr ->
  (pr = [] /\ (forall i, (i < block_size com key)%nat -> held com key i)) \/
  (exists i, (i < block_size com key)%nat /\ ~ held com key i) /\
  forall m, map (fun f : kin_residual => f m) pr = [Ok (offset_prior c key sd m)].
Proof.
  intros H M Ep Hc F E.
  assert (Kk : In key kin_keys) by (destruct Hc as [[-> _]|[-> _]]; cbn; auto).
  destruct (Nat.eq_dec (dof c) 0) as [D|D].
  - left. unfold chain_prior in E. rewrite D in E. cbn in E. injection E as <-. split; [ reflexivity | ].
    intros i _. right. destruct Hc as [[-> ->]|[-> ->]]; auto.
  - destruct (prior_value _ _ _ _ _ E D) as [[-> C]|(C & f & -> & V)].
    + left. split; [ reflexivity | ]. intros i Hi. apply F; [ exact Kk | rewrite kin_size_max; exact Hi | left; exact C ].
    + right. split.
      * destruct (subset_free _ _ _ key (kin_size com key) (prepared_nodup cov com H) (fun b _ => eq_refl)
          (fun b n Hb => ltac:(apply prepared_block in Hb as [Hk ->]; [ exact (kin_masks_range com M b Hk) | exact H ])) Ep) as (i & Hi & Fi).
        -- apply prepared_block; auto.
        -- rewrite kin_size_max. destruct key as [|[|key]]; cbn [block_size]; lia.
        -- exact C.
        -- exists i. rewrite kin_size_max in Hi. split; [ exact Hi | ]. rewrite <- F; [ exact Fi | exact Kk | rewrite kin_size_max; exact Hi ].
      * intros m. cbn [map]. destruct (V m) as (l & -> & Ln & Hl). do 2 f_equal. unfold offset_prior.
        apply nth_ext with (d := 0) (d' := 0); [ rewrite map_length, seq_length; exact Ln | ]. intros e He. rewrite Ln in He.
        rewrite (nth_error_nth _ _ _ (Hl e He)). symmetry. apply nth_error_nth.
        rewrite nth_error_map, (nth_error_nth' _ 0%nat) by (rewrite seq_length; exact He). rewrite seq_nth by exact He. reflexivity.
Qed.
Lemma chain_prior_ok_in p c key sd n : find_key key (p_blocks p) = Some n -> exists pr, chain_prior p c key sd = Ok pr.
Proof. intros H. destruct (prior_ok p c key sd n H) as (pr & E & _). eauto. Qed.

(** The solver is given the right problem and its answer is what is reported. *)
Lemma kin_right cov com (blocks : list nat -> list kin_residual) errors :
  lists_blocks cov -> masks_fit com ->
  (forall m, map (fun f : kin_residual => f m) (blocks kin_params) = errors (stored_estimate com m)) ->
  exists residuals p, right_problem com errors residuals p /\
  forall u solve m s r, solve residuals p (kin_memory0 com) = (m, s) ->
    kin_optimize u solve cov com blocks = Ok r ->
    same_estimate (result_estimate r) (stored_estimate com m) /\ kr_converged r = term_convergence s /\
    exists vs, mapM (fun f : kin_residual => f (kin_memory0 com)) residuals = Ok vs /\
      let n := INR (length (concat vs)) in
      kr_initial_cost_per_obs r = initial_cost s / n /\ kr_final_cost_per_obs r = final_cost s / n.
Proof.
  intros H M Er. destruct (kin_subset cov com H M) as (p' & Ep & Bp & F).
  assert (Fk : forall k, In k kin_keys -> find_key k (p_blocks p') = Some (kin_size com k)).
  { intros k Hk. rewrite Bp. cbn [p_blocks kin_prepared]. apply kin_find, order_in; assumption. }
  destruct (chain_prior_ok_in p' (kc_camera_chain com) 0 (kc_camera_chain_offset_stdev com) _ (Fk 0%nat (or_introl eq_refl))) as (pr1 & E1).
  destruct (chain_prior_ok_in p' (kc_target_chain com) 1 (kc_target_chain_offset_stdev com) _ (Fk 1%nat (or_intror (or_introl eq_refl)))) as (pr2 & E2).
  exists (blocks kin_params ++ pr1 ++ pr2)%list, p'. split.
  - split; [ | split ].
    + intros k n. rewrite Bp, prepared_block, keys_lt, kin_size_max by exact H. reflexivity.
    + intros k i Hk Hi. apply F; [ apply keys_lt, Hk | rewrite kin_size_max; exact Hi ].
    + exists (blocks kin_params), pr1, pr2. split; [ reflexivity | split; [ exact Er | ] ].
      split; [ apply (prior_right cov com p'); auto | apply (prior_right cov com p'); auto ].
  - intros u solve m s r Es E.
    destruct (kin_ok_values _ _ _ _ _ _ H (proj1 M) E) as (p2 & q1 & q2 & m2 & s2 & vs & c & _ & Ep2 & Eq1 & Eq2 & Es2 & _ & Ev & ->).
    rewrite Ep in Ep2. injection Ep2 as <-. rewrite E1 in Eq1. rewrite E2 in Eq2. injection Eq1 as <-. injection Eq2 as <-.
    rewrite Es in Es2. injection Es2 as <- <-. split; [ apply read_estimate | split; [ reflexivity | ] ]. exists vs. split; [ exact Ev | split; reflexivity ].
Qed.
Lemma kin2_right cov params : lists_blocks cov -> masks_fit (k2_common params) ->
  exists residuals p,
  right_problem (k2_common params)
    (fun e => map (reproject (k2_intr params) (k2_common params) e) (kin_pairs (k2_observations params))) residuals p /\
  forall u solve m s r, solve residuals p (kin_memory0 (k2_common params)) = (m, s) ->
    kin_optimize2D3D u solve cov params = Ok r ->
    same_estimate (result_estimate r) (stored_estimate (k2_common params) m) /\ kr_converged r = term_convergence s /\
    exists vs, mapM (fun f : kin_residual => f (kin_memory0 (k2_common params))) residuals = Ok vs /\
      let n := INR (length (concat vs)) in
      kr_initial_cost_per_obs r = initial_cost s / n /\ kr_final_cost_per_obs r = final_cost s / n.
Proof.
  intros H M. destruct (kin_right cov (k2_common params)
    (fun ps => map (kin_blk2 params ps) (kin_pairs (k2_observations params)))
    (fun e => map (reproject (k2_intr params) (k2_common params) e) (kin_pairs (k2_observations params))) H M) as (rs & p & A & B).
  { intros m. rewrite map_map. apply map_ext. intros oc. apply blk2_stored. }
  exists rs, p. split; [ exact A | ]. intros u solve m s r. rewrite kin2_eq. apply B.
Qed.
Lemma kin6_right cov params w : lists_blocks cov -> masks_fit (k6_common params) ->
  exists residuals p,
  right_problem (k6_common params)
    (fun e => map (pose_error w (k6_common params) e) (k6_observations params)) residuals p /\
  forall u solve m s r, solve residuals p (kin_memory0 (k6_common params)) = (m, s) ->
    kin_optimizePose6D u solve cov params w = Ok r ->
    same_estimate (result_estimate r) (stored_estimate (k6_common params) m) /\ kr_converged r = term_convergence s /\
    exists vs, mapM (fun f : kin_residual => f (kin_memory0 (k6_common params))) residuals = Ok vs /\
      let n := INR (length (concat vs)) in
      kr_initial_cost_per_obs r = initial_cost s / n /\ kr_final_cost_per_obs r = final_cost s / n.
Proof.
  intros H M. destruct (kin_right cov (k6_common params)
    (fun ps => map (fun o => dualCostPose6D o (kc_camera_chain (k6_common params)) (kc_target_chain (k6_common params)) w ps) (k6_observations params))
    (fun e => map (pose_error w (k6_common params) e) (k6_observations params)) H M) as (rs & p & A & B).
  { intros m. rewrite map_map. apply map_ext. intros oc. apply blk6_stored. }
  exists rs, p. split; [ exact A | ]. intros u solve m s r. rewrite kin6_eq. apply B.
Qed.

Lemma start_estimate com : guesses_plain com ->
  same_estimate (stored_estimate com (kin_memory0 com)) (guess_estimate com).
Proof.
  intros G. destruct (memory0_guesses com G) as (A & B & C).
  split; [ exact A | split; [ exact B | split; [ exact C | ] ] ]. split; repeat split; reflexivity.
Qed.

(** ** Labels *)
Lemma chain_label_at (c : dh_chain) e ph : dof c <> 0%nat -> (e < dof c * 4)%nat ->
  nth e (colmajor (length (chain_labels c ph)) 4 (fun i j => nth j (nth i (chain_labels c ph) []) EmptyString)) EmptyString
  = chain_label c e.
Proof.
  intros D He. rewrite chain_labels_length.
  assert (O : offset_rows c = dof c) by (unfold offset_rows; destruct (Nat.eqb_spec (dof c) 0); congruence).
  rewrite O. unfold chain_labels. destruct (Nat.eqb_spec (dof c) 0) as [|_]; [ contradiction | ].
  set (f := fun i j => _). 
  assert (Hi : (e mod dof c < dof c)%nat) by (apply Nat.mod_upper_bound, D).
  assert (Hj : (e / dof c < 4)%nat) by (apply Nat.div_lt_upper_bound; lia).
  assert (E : e = (e / dof c * dof c + e mod dof c)%nat) by (pose proof (Nat.div_mod e (dof c) D); nia).
  rewrite E at 1. rewrite (nth_error_nth _ _ _ (colmajor_nth (dof c) 4 f _ _ Hi Hj)). unfold f, chain_label.
  rewrite chainParamLabels_map. set (i := (e mod dof c)%nat) in *. set (j := (e / dof c)%nat) in *.
  destruct (nth_error (transforms c) i) as [t|] eqn:T; [ | apply nth_error_None in T; unfold dof in Hi; lia ].
  rewrite (nth_error_nth _ _ _ (map_nth_error getParamLabels _ _ T)), (nth_error_nth _ _ _ (map_nth_error jname _ _ T)).
  clearbody i j. do 4 (destruct j as [|j]; [ reflexivity | ]). lia.
Qed.
Lemma kin_label_of com k e : dof (kc_camera_chain com) <> 0%nat -> dof (kc_target_chain com) <> 0%nat ->
  (k < 8)%nat -> (e < block_size com k)%nat -> label_of (kin_labels com) (k, e) = element_label com k e.
Proof.
  intros D1 D2 Hk He. unfold label_of. cbn [fst snd].
  do 8 (destruct k as [|k]; [ cbn [kin_labels find_key Nat.eqb element_label block_size] in *;
     first [ apply chain_label_at; [ assumption | lia ]
           | do 3 (destruct e as [|e]; [ reflexivity | ]); lia ] | ]). lia.
Qed.

Lemma kin_reports_free u solve cov com blocks r : lists_blocks cov -> masks_fit com ->
  (forall b i c j, co_cov cov b i c j = co_cov cov c j b i) ->
  dof (kc_camera_chain com) <> 0%nat -> dof (kc_target_chain com) <> 0%nat ->
  kin_optimize u solve cov com blocks = Ok r ->
  exists free, NoDup free /\
    (forall k i, In (k, i) free <-> (k < 8)%nat /\ (i < block_size com k)%nat /\ ~ held com k i) /\
    reported_names r = map (fun '(k, i) => element_label com k i) free.
Proof.
  intros H M Sy D1 D2 E. unfold reported_names. rewrite (kin_reported _ _ _ _ _ _ H M Sy E).
  set (fr := free_elems _ _ _).
  assert (In_fr : forall k i, In (k, i) fr <-> (k < 8)%nat /\ (i < block_size com k)%nat /\ ~ held com k i).
  { intros k i. unfold fr, free_elems. rewrite in_flat_map. split.
    - intros (b & Hb & Hin). apply filter_In in Hin as [Hin Q]. apply in_map_iff in Hin as (j & [= -> ->] & Hj).
      apply order_in_inv in Hb; [ | exact H ]. apply keys_lt in Hb. apply in_seq in Hj. rewrite kin_size_max in Hj.
      split; [ exact Hb | split; [ lia | ] ]. intros [Hm|[[_ X]|[_ X]]]; [ | contradiction | contradiction ].
      cbn [snd] in Q. apply Bool.negb_true_iff in Q. rewrite <- Bool.not_true_iff_false in Q. apply Q.
      apply existsb_exists. exists (Z.of_nat i). split; [ exact Hm | apply Z.eqb_refl ].
    - intros (Hk & Hi & Hh). exists k. split; [ apply order_in; [ exact H | apply keys_lt, Hk ] | ].
      apply filter_In. split; [ apply in_map_iff; exists i; split; [ reflexivity | apply in_seq; rewrite kin_size_max; lia ] | ].
      cbn [snd]. apply Bool.negb_true_iff, Bool.not_true_iff_false. intros X. apply Hh. left.
      apply existsb_exists in X as (z & Hz & X). apply Z.eqb_eq in X. subst. exact Hz. }
  exists fr. split; [ | split; [ exact In_fr | ] ].
  - unfold fr, free_elems. 
    assert (ND : NoDup (co_order cov kin_keys)) by (eapply Permutation_NoDup; [ apply H | apply nodup_keys ]).
    clear - ND. induction (co_order cov kin_keys) as [|k l IH]; cbn; [ constructor | ].
    inversion ND as [|? ? N1 N2]; subst. apply NoDup_app'.
    + apply NoDup_filter. apply FinFun.Injective_map_NoDup; [ intros a b [= ->]; reflexivity | apply seq_NoDup ].
    + apply IH, N2.
    + intros x Hx Hy. apply filter_In in Hx as [Hx _]. apply in_map_iff in Hx as (i & <- & _).
      apply in_flat_map in Hy as (k' & Hk' & Hy). apply filter_In in Hy as [Hy _].
      apply in_map_iff in Hy as (i' & [= -> ->] & _). contradiction.
  - apply map_ext_in. intros [k i] Hki. apply In_fr in Hki as (Hk & Hi & _). apply kin_label_of; assumption.
Qed.

(** ** Success and examples *)
Lemma kin2_succeeds u solve cov params : lists_blocks cov -> masks_fit (k2_common params) ->
  (forall b, co_compute cov b = true) -> (forall b, co_get cov b = true) ->
  (forall b i c j, co_cov cov b i c j = co_cov cov c j b i) ->
  kin_pairs (k2_observations params) <> [] ->
  (forall oc, In oc (kin_pairs (k2_observations params)) ->
     (length (ko_camera_chain_joints (fst oc)) <= dof (kc_camera_chain (k2_common params)))%nat /\
     known_types (kc_camera_chain (k2_common params)) (length (ko_camera_chain_joints (fst oc))) /\
     (length (ko_target_chain_joints (fst oc)) <= dof (kc_target_chain (k2_common params)))%nat /\
     known_types (kc_target_chain (k2_common params)) (length (ko_target_chain_joints (fst oc)))) ->
  exists r, kin_optimize2D3D u solve cov params = Ok r.
Proof.
  intros H M C G Sy NE J. rewrite kin2_eq. apply kin_succeeds; try assumption.
  - intros E. apply map_eq_nil in E. contradiction.
  - intros f Hf. apply in_map_iff in Hf as (oc & <- & Hoc). unfold kin_blk2, kin_params.
    apply kin_cost2_outcome. apply J, Hoc.
Qed.
Lemma kin6_succeeds u solve cov params w : lists_blocks cov -> masks_fit (k6_common params) ->
  (forall b, co_compute cov b = true) -> (forall b, co_get cov b = true) ->
  (forall b i c j, co_cov cov b i c j = co_cov cov c j b i) ->
  k6_observations params <> [] ->
  (forall o, In o (k6_observations params) ->
     (length (km_camera_chain_joints o) <= dof (kc_camera_chain (k6_common params)))%nat /\
     known_types (kc_camera_chain (k6_common params)) (length (km_camera_chain_joints o)) /\
     (length (km_target_chain_joints o) <= dof (kc_target_chain (k6_common params)))%nat /\
     known_types (kc_target_chain (k6_common params)) (length (km_target_chain_joints o))) ->
  exists r, kin_optimizePose6D u solve cov params w = Ok r.
Proof.
  intros H M C G Sy NE J. rewrite kin6_eq. apply kin_succeeds; try assumption.
  - intros E. apply map_eq_nil in E. contradiction.
  - intros f Hf. apply in_map_iff in Hf as (o & <- & Ho). unfold kin_params.
    apply kin_costP_outcome. apply J, Ho.
Qed.
Lemma kin2_empty u solve cov params : lists_blocks cov -> length (kc_mask (k2_common params)) = 8%nat ->
  kin_pairs (k2_observations params) = [] ->
  kin_optimize2D3D u solve cov params = UB.
Proof.
  intros H H8 E. rewrite kin2_eq. apply kin_no_blocks; try assumption. rewrite E. reflexivity.
Qed.

Definition fixed_chain : dh_chain := DHChain [] iso_id.
Definition ex_kin_common (cam : dh_chain) (mask : list Z) : kin_common :=
  KC cam ex_chain (iso_trans (V3 0 0 1)) iso_id turned
     [mask; createDHMask 2 (fun i j => Nat.eqb j 1); [0; 1; 2]%Z; [2; 0; 1]%Z; []; []; []; [1%Z; 1%Z]]
     (1/1000) (1/1000) "camera"%string "target"%string "base"%string.
Definition ex_kin (cam : dh_chain) (mask : list Z) (q : list R) : kin_problemPose6D :=
  KP6 [KMeas (iso_trans (V3 0 0 2)) q [1; 1/2]] (ex_kin_common cam mask).
Lemma ex_kin_masks cam mask : (forall z, In z mask -> (0 <= z < Z.of_nat (Nat.max 1 (dof cam) * 4))%Z) ->
  masks_fit (ex_kin_common cam mask).
Proof.
  intros H. split; [ reflexivity | ]. intros k m z E Hz.
  do 8 (destruct k as [|k]; [ cbn [nth_error kc_mask ex_kin_common] in E; injection E as <-;
    cbn [block_size kc_camera_chain kc_target_chain ex_kin_common];
    first [ apply H, Hz | apply mask_range in Hz as (? & ? & _ & _ & _ & _ & R); cbn; lia | cbn in Hz; lia ] | ]).
  destruct k; discriminate E.
Qed.
Lemma ex_kin_ok u solve w : 
  (exists r, kin_optimizePose6D u solve ex_cov_oracle (ex_kin ex_chain [3; 5]%Z [1; 1/2]) w = Ok r) /\
  (exists r, kin_optimizePose6D u solve ex_cov_oracle (ex_kin fixed_chain [] []) w = Ok r).
Proof.
  split; (apply kin6_succeeds; [ apply ex_oracle_lists | apply ex_kin_masks | reflexivity | reflexivity | apply ex_oracle_sym | discriminate | ]).
  - cbn. lia.
  - intros o [<-|[]]. cbn. repeat split; try lia; apply ex_chain_known.
  - intros z [].
  - intros o [<-|[]]. cbn. repeat split; try lia; [ intros [|i] t Hi; lia | apply ex_chain_known ].
Qed.
Lemma placeholder_reported u solve w : exists r,
  kin_optimizePose6D u solve ex_cov_oracle (ex_kin fixed_chain [] []) w = Ok r /\
  (forall i, (i < 4)%nat -> held (ex_kin_common fixed_chain []) 0 i) /\
  firstn 4 (reported_names r) =
    ["camera_chain_placeholder_d"; "camera_chain_placeholder_theta";
     "camera_chain_placeholder_r"; "camera_chain_placeholder_alpha"]%string.
Proof.
  destruct (ex_kin_ok u solve w) as [_ (r & E)]. exists r. split; [ exact E | split; [ intros i _; right; left; split; reflexivity | ] ].
  unfold reported_names. rewrite kin6_eq in E.
  rewrite (kin_reported _ _ _ _ _ _ ex_oracle_lists (ex_kin_masks fixed_chain [] (fun z X => match X with end)) ex_oracle_sym E).
  reflexivity.
Qed.
Lemma plain_turned : turns_enough turned.
Proof.
  destruct turned_plain as [R _]. split; [ exact R | right ].
  exists (PI / 2), unitX. pose proof PI_RGT_0. pose proof PI2_1. pose proof DBL_EPS_small.
  repeat split; try (geo_unfold; lra); nra.
Qed.
Lemma ex_kin_guesses cam mask : guesses_plain (ex_kin_common cam mask).
Proof.
  split; [ | split ]; [ split; [ apply rigid_trans | left; reflexivity ] | split; [ apply rigid_id | left; reflexivity ] | apply plain_turned ].
Qed.

(** ** C13: labels *)
Lemma labels_line_up c t p0 p1 p2 p3 p4 p5 p6 p7 l2 l3 l4 l5 l6 l7 :
  NoDup [p0; p1; p2; p3; p4; p5; p6; p7] ->
  exists labels cl tl,
    constructParameterLabels (constructParameters p0 p1 p2 p3 p4 p5 p6 p7) (chainParamLabels c) (chainParamLabels t)
      l2 l3 l4 l5 l6 l7 = Ok labels /\
    labels = [(p0, cl); (p1, tl); (p2, l2); (p3, l3); (p4, l4); (p5, l5); (p6, l6); (p7, l7)] /\
    length cl = (dof c * 4)%nat /\ length tl = (dof t * 4)%nat /\
    (forall i j link, nth_error (transforms c) i = Some link -> (j < 4)%nat ->
       nth_error cl (j * dof c + i) =
       Some (String.append (jname link) (nth j ["_d"; "_theta"; "_r"; "_alpha"]%string EmptyString))) /\
    (forall i j link, nth_error (transforms t) i = Some link -> (j < 4)%nat ->
       nth_error tl (j * dof t + i) =
       Some (String.append (jname link) (nth j ["_d"; "_theta"; "_r"; "_alpha"]%string EmptyString))).
Proof.
  intros N. rewrite construct_labels_ok by (first [ exact N | apply chainParamLabels_four ]).
  assert (L : forall c, length (chainParamLabels c) = dof c) by (intros x; rewrite chainParamLabels_map, map_length; reflexivity).
  assert (K : forall c i j link, nth_error (transforms c) i = Some link -> (j < 4)%nat ->
       nth_error (colmajor (length (chainParamLabels c)) 4 (fun i j => nth j (nth i (chainParamLabels c) []) EmptyString)) (j * dof c + i) =
       Some (String.append (jname link) (nth j ["_d"; "_theta"; "_r"; "_alpha"]%string EmptyString))).
  { intros x i j link T Hj. rewrite L.
    assert (Hi : (i < dof x)%nat) by (apply nth_error_Some; rewrite T; discriminate).
    rewrite (colmajor_nth (dof x) 4 (fun i j => nth j (nth i (chainParamLabels x) []) EmptyString)) by assumption.
    rewrite chainParamLabels_map, (nth_error_nth _ _ _ (map_nth_error getParamLabels _ _ T)).
    do 4 (destruct j as [|j]; [ reflexivity | ]). lia. }
  eexists _, _, _. split; [ reflexivity | ]. split; [ reflexivity | ].
  split; [ rewrite colmajor_length, L; lia | split; [ rewrite colmajor_length, L; lia | split; [ exact (K c) | exact (K t) ] ] ].
Qed.
Lemma pointers_line_up p0 p1 p2 p3 p4 p5 p6 p7 (cl tl : list (list string)) l2 l3 l4 l5 l6 l7 masks :
  NoDup [p0; p1; p2; p3; p4; p5; p6; p7] -> length masks = 8%nat ->
  (forall l, In l cl -> length l = 4%nat) -> (forall l, In l tl -> length l = 4%nat) ->
  let ps := constructParameters p0 p1 p2 p3 p4 p5 p6 p7 in
  exists labels pmasks names,
    constructParameterLabels ps cl tl l2 l3 l4 l5 l6 l7 = Ok labels /\
    constructParameterMasks ps masks = Ok pmasks /\ constructParameterNames ps = Ok names /\
    keys labels = ps /\ keys pmasks = ps /\ keys names = ps /\
    map snd pmasks = masks /\ map (fun x => length (snd x)) labels =
      [length cl * 4; length tl * 4; length l2; length l3; length l4; length l5; length l6; length l7]%nat /\
    map snd names =
      ["Camera DH Parameters"; "Target DH Parameters";
       "Camera Mount to Camera Position Parameters"; "Camera Mount to Camera Orientation Parameters";
       "Target Mount to Target Position Parameters"; "Target Mount to Target Orientation Parameters";
       "Camera Chain Base to Target Chain Base Position Parameters";
       "Camera Chain Base to Target Chain Base Orientation Parameters"]%string.
Proof.
  intros N H8 F1 F2 ps. destruct (eight _ H8) as (a & b & c & d & e & f & g & h & ->).
  unfold ps. rewrite construct_labels_ok by assumption. rewrite construct_masks_ok, construct_names_ok by assumption.
  do 3 eexists. do 3 (split; [ reflexivity | ]). do 3 (split; [ reflexivity | ]). split; [ reflexivity | ].
  split; [ | reflexivity ]. cbn [map snd]. rewrite !colmajor_length, (Nat.mul_comm 4 (length cl)), (Nat.mul_comm 4 (length tl)). reflexivity.
Qed.
