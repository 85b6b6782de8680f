(** How well a kinematic calibration fits, compared with one that may adjust less and with the hand-eye calibration. *)
From Coq Require Import Reals Lra ZArith Arith Lia List.
From Verif.Base Require Import Geom Outcome Matrix.
From Verif.Model Require Import Pose Covariance Solver HandEye DhChain LocalParam Kinematic.
From Verif.Spec Require Import PinHole PnpSpec Frames FreezeSpec KinSpec KinReport OracleSpec KinExampleSpec UniqueSpec SameDataSpec RedundancySpec KinUniqueSpec KinFitSpec.
From Verif.Proofs Require Import GeomLemmas RotLemmas PoseProofs ListLemmas DhProofs PnpProofs KinematicProofs KinematicCall UniqueLemmas UniqueProofs RedundancyProofs UniqueKinematic SameDataProofs.
Import ListNotations.
Local Open Scope R_scope.

(** ** Sums *)
Lemma half_nonneg l : 0 <= half_squares l.
Proof. unfold half_squares. apply Rmult_le_pos; [ lra | ]. induction l as [ | a l IH ]; cbn; [ lra | ]. pose proof (Rle_0_sqr a). unfold Rsqr in *. lra. Qed.
Lemma half_nil : half_squares [] = 0.
Proof. unfold half_squares. cbn. lra. Qed.
Lemma seq_split n a : seq a n = map (fun i => (a + i)%nat) (seq 0 n).
Proof.
  revert a. induction n as [ | n IH ]; intros a; [ reflexivity | ]. cbn [seq map]. f_equal; [ lia | ]. rewrite IH, (IH 1%nat), map_map.
  apply map_ext. intros i. lia.
Qed.
Lemma seq_blocks {A} (f : nat -> A) n k : map f (seq 0 (n * k)) = flat_map (fun j => map (fun i => f (j * n + i)%nat) (seq 0 n)) (seq 0 k).
Proof.
  induction k as [ | k IH ]; [ rewrite Nat.mul_0_r; reflexivity | ].
  rewrite Nat.mul_succ_r, seq_app, map_app, IH, (seq_S k 0), flat_map_app. f_equal. cbn [flat_map Nat.add]. rewrite app_nil_r.
  rewrite seq_split, map_map. apply map_ext. intros i. f_equal. lia.
Qed.
Lemma prior_error c k sd m : half_squares (offset_prior c k sd m) =
  offset_error sd (Mat (dof c) 4 (fun i j => m k (j * dof c + i)%nat)).
Proof. unfold offset_prior, offset_error. cbn [rows ent]. rewrite (seq_blocks (fun e => m k e / sd)). reflexivity. Qed.
Lemma offset_error_ext sd A B : same_matrix A B -> cols A = 4%nat -> offset_error sd A = offset_error sd B.
Proof.
  intros (R1 & C1 & E) C4. unfold offset_error. f_equal. rewrite <- R1. apply flat_map_same. intros j Hj. apply in_seq in Hj.
  apply map_ext_in. intros i Hi. apply in_seq in Hi. rewrite E by lia. reflexivity.
Qed.
Lemma offset_error_none sd n : offset_error sd (no_offsets n) = 0.
Proof.
  unfold offset_error. apply half_squares_all_zero. intros x Hx. apply in_flat_map in Hx as (j & _ & Hx).
  apply in_map_iff in Hx as (i & <- & _). cbn. unfold Rdiv. ring.
Qed.
Lemma offset_error_nonneg sd o : 0 <= offset_error sd o.
Proof. apply half_nonneg. Qed.

(** ** Evaluation *)
Lemma mapM_iff {A B} (f : A -> res B) l bs : mapM f l = Ok bs <-> Forall2 (fun x v => x = Ok v) (map f l) bs.
Proof.
  revert bs. induction l as [ | a l IH ]; intros bs; cbn [mapM map].
  - split; [ intros E; injection E as <-; constructor | intros E; inversion E; reflexivity ].
  - split.
    + intros E. destruct (f a) as [ b | | ] eqn:Ea; cbn [bind] in E; try discriminate.
      destruct (mapM f l) as [ r | | ]; cbn [bind] in E; try discriminate. injection E as <-. constructor; [ reflexivity | apply IH; reflexivity ].
    + intros E. inversion E as [ | x v xs vs Ea El ]; subst. rewrite Ea. cbn [bind]. apply IH in El. rewrite El. reflexivity.
Qed.
Lemma Forall2_app_split {A B} (P : A -> B -> Prop) l l' bs : Forall2 P (l ++ l') bs ->
  exists b b', bs = (b ++ b')%list /\ Forall2 P l b /\ Forall2 P l' b'.
Proof. intros H. apply Forall2_app_inv_l in H as (b & b' & H1 & H2 & ->). eauto. Qed.

Section Fit.
  Variables (com : kin_common) (errors : kin_estimate -> list (res (list R))) (residuals : list kin_residual) (p : problem).
  Hypothesis RP : right_problem com errors residuals p.
  Lemma chosen_offsets m : may_choose com m ->
    ((forall i, (i < block_size com 0)%nat -> held com 0 i) -> offset_error (kc_camera_chain_offset_stdev com) (ke_camera_offsets (stored_estimate com m)) = 0) /\
    ((forall i, (i < block_size com 1)%nat -> held com 1 i) -> offset_error (kc_target_chain_offset_stdev com) (ke_target_offsets (stored_estimate com m)) = 0).
  Proof.
    intros M. split; intros H.
    - rewrite (offset_error_ext _ _ (no_offsets (dof (kc_camera_chain com)))); [ apply offset_error_none | | reflexivity ].
      cbn [stored_estimate ke_camera_offsets]. apply (offsets_none (dof (kc_camera_chain com)) (m 0%nat)). intros e He.
      assert (B : (e < block_size com 0)%nat) by (unfold block_size; lia). rewrite M by (try lia; auto). reflexivity.
    - rewrite (offset_error_ext _ _ (no_offsets (dof (kc_target_chain com)))); [ apply offset_error_none | | reflexivity ].
      cbn [stored_estimate ke_target_offsets]. apply (offsets_none (dof (kc_target_chain com)) (m 1%nat)). intros e He.
      assert (B : (e < block_size com 1)%nat) by (unfold block_size; lia). rewrite M by (try lia; auto). reflexivity.
  Qed.
  Lemma cost_whole m c : may_choose com m -> cost_is residuals m c <-> whole_error com errors (stored_estimate com m) c.
  Proof.
    intros M. destruct (chosen_offsets m M) as [Z0 Z1]. destruct RP as (_ & _ & obs & p1 & p2 & -> & Ho & H1 & H2).
    unfold cost_is, whole_error. split.
    - intros (vs & Ev & ->). apply mapM_iff in Ev. rewrite !map_app, Ho in Ev.
      apply Forall2_app_split in Ev as (vo & vp & -> & Fo & Fp). apply Forall2_app_split in Fp as (v1 & v2 & -> & F1 & F2).
      exists vo. split; [ exact Fo | ]. rewrite !concat_app, !half_squares_app, <- Rplus_assoc. f_equal; [ f_equal | ].
      + destruct H1 as [ [ -> A ] | [ _ A ] ].
        * inversion F1; subst. cbn [concat]. rewrite half_nil, Z0 by exact A. reflexivity.
        * rewrite A in F1. inversion F1 as [ | x v xs vs Ev Er ]; subst. inversion Er; subst. injection Ev as <-. cbn [concat]. rewrite app_nil_r. apply prior_error.
      + destruct H2 as [ [ -> A ] | [ _ A ] ].
        * inversion F2; subst. cbn [concat]. rewrite half_nil, Z1 by exact A. reflexivity.
        * rewrite A in F2. inversion F2 as [ | x v xs vs Ev Er ]; subst. inversion Er; subst. injection Ev as <-. cbn [concat]. rewrite app_nil_r. apply prior_error.
    - intros (vo & Fo & ->).
      assert (Q1 : exists v1, Forall2 (fun x v => x = Ok v) (map (fun f : kin_residual => f m) p1) v1 /\
        half_squares (concat v1) = offset_error (kc_camera_chain_offset_stdev com) (ke_camera_offsets (stored_estimate com m))).
      { destruct H1 as [ [ -> A ] | [ _ A ] ].
        - exists []. split; [ constructor | ]. cbn [concat]. rewrite half_nil, Z0 by exact A. reflexivity.
        - eexists [_]. rewrite A. split; [ constructor; [ reflexivity | constructor ] | ]. cbn [concat]. rewrite app_nil_r. apply prior_error. }
      assert (Q2 : exists v2, Forall2 (fun x v => x = Ok v) (map (fun f : kin_residual => f m) p2) v2 /\
        half_squares (concat v2) = offset_error (kc_target_chain_offset_stdev com) (ke_target_offsets (stored_estimate com m))).
      { destruct H2 as [ [ -> A ] | [ _ A ] ].
        - exists []. split; [ constructor | ]. cbn [concat]. rewrite half_nil, Z1 by exact A. reflexivity.
        - eexists [_]. rewrite A. split; [ constructor; [ reflexivity | constructor ] | ]. cbn [concat]. rewrite app_nil_r. apply prior_error. }
      destruct Q1 as (v1 & F1 & <-), Q2 as (v2 & F2 & <-). exists (vo ++ v1 ++ v2)%list. split.
      + apply mapM_iff. rewrite !map_app, Ho. apply Forall2_app; [ exact Fo | ]. apply Forall2_app; assumption.
      + rewrite !concat_app, !half_squares_app. ring.
  Qed.
  (** The number of numbers *)
  Variable per : nat.
  Hypothesis HL : forall e v, In (Ok v) (errors e) -> length v = per.
  Lemma prior_length c k sd m : length (offset_prior c k sd m) = (4 * dof c)%nat.
  Proof. unfold offset_prior. rewrite map_length, seq_length. lia. Qed.
  Lemma count_residuals m vs : mapM (fun f : kin_residual => f m) residuals = Ok vs ->
    counted com (per * length (errors (stored_estimate com m))) (length (concat vs)).
  Proof.
    intros Ev. destruct RP as (_ & _ & obs & p1 & p2 & -> & Ho & H1 & H2).
    apply mapM_iff in Ev. rewrite !map_app, Ho in Ev.
    apply Forall2_app_split in Ev as (vo & vp & -> & Fo & Fp). apply Forall2_app_split in Fp as (v1 & v2 & -> & F1 & F2).
    exists (length (concat v1)), (length (concat v2)). rewrite !concat_app, !app_length. split.
    - assert (L : length (concat vo) = (per * length (errors (stored_estimate com m)))%nat); [ | lia ].
      assert (K : forall x, In x (errors (stored_estimate com m)) -> forall v, x = Ok v -> length v = per) by (intros x Hx v ->; exact (HL _ v Hx)).
      clear -Fo K. induction Fo as [ | x v xs vs E F IH ]; [ cbn; lia | ]. cbn [concat length]. rewrite app_length, IH by (intros y Hy; apply K; right; exact Hy).
      rewrite (K x (or_introl eq_refl) v E). lia.
    - assert (U : forall k pr v c sd, any_free com k \/ ~ any_free com k -> (pr = [] /\ (forall i, (i < block_size com k)%nat -> held com k i) \/
        (exists i, (i < block_size com k)%nat /\ ~ held com k i) /\ forall m, map (fun f : kin_residual => f m) pr = [Ok (offset_prior c k sd m)]) ->
        Forall2 (fun x v => x = Ok v) (map (fun f : kin_residual => f m) pr) v ->
        (any_free com k -> length (concat v) = (4 * dof c)%nat) /\ (~ any_free com k -> length (concat v) = 0%nat)).
      { intros k pr v c sd _ [ [ -> A ] | [ A B ] ] F.
        - inversion F; subst. split; [ intros (i & Hi & N); destruct (N (A i Hi)) | reflexivity ].
        - rewrite B in F. inversion F as [ | x y xs ys E1 E2 ]; subst. inversion E2; subst. injection E1 as <-. cbn [concat]. rewrite app_nil_r, prior_length.
          split; [ reflexivity | intros N; destruct (N A) ]. }
      assert (D : forall k, (k < 2)%nat -> any_free com k \/ ~ any_free com k).
      { intros k Hk. destruct k as [ | [ | k ] ]; [ | | lia ].
        - destruct H1 as [ [ _ A ] | [ A _ ] ]; [ right; intros (i & Hi & N); destruct (N (A i Hi)) | left; exact A ].
        - destruct H2 as [ [ _ A ] | [ A _ ] ]; [ right; intros (i & Hi & N); destruct (N (A i Hi)) | left; exact A ]. }
      destruct (U 0%nat p1 v1 _ _ (D 0%nat ltac:(lia)) H1 F1) as [U1 U2]. destruct (U 1%nat p2 v2 _ _ (D 1%nat ltac:(lia)) H2 F2) as [U3 U4]. auto.
  Qed.
End Fit.

Lemma block_free_dec com k : (k < 2)%nat -> any_free com k \/ ~ any_free com k.
Proof.
  intros Hk. unfold any_free.
  assert (D : forall i, held com k i \/ ~ held com k i).
  { intros i. unfold held, masked. destruct (In_dec Z.eq_dec (Z.of_nat i) (nth k (kc_mask com) [])) as [ I | I ]; [ tauto | ].
    destruct (Nat.eq_dec k 0), (Nat.eq_dec (dof (kc_camera_chain com)) 0), (Nat.eq_dec k 1), (Nat.eq_dec (dof (kc_target_chain com)) 0); tauto. }
  induction (block_size com k) as [ | n IH ].
  - right. intros (i & Hi & _). lia.
  - destruct IH as [ (i & Hi & N) | IH ]; [ left; exists i; split; [ lia | exact N ] | ].
    destruct (D n) as [ H | H ]; [ | left; exists n; split; [ lia | exact H ] ].
    right. intros (i & Hi & N). destruct (Nat.eq_dec i n) as [ -> | Ne ]; [ contradiction | ]. apply IH. exists i. split; [ lia | exact N ].
Qed.
Lemma counted_more com com' n a b : same_setup com com' -> holds_less com com' -> counted com n a -> counted com' n b -> (a <= b)%nat.
Proof.
  intros (E1 & E2 & _) L (x & y & -> & A1 & A2 & A3 & A4) (x' & y' & -> & B1 & B2 & B3 & B4).
  rewrite E1 in B1. rewrite E2 in B3.
  assert (S : forall k, any_free com k -> any_free com' k).
  { intros k (i & Hi & N). exists i. split; [ | intros H; apply N, L, H ]. unfold block_size in *. rewrite E1, E2. exact Hi. }
  destruct (block_free_dec com 0) as [ F | F ]; [ lia | | ]; destruct (block_free_dec com 1) as [ G | G ]; try lia.
  - rewrite (A1 F), (A3 G), (B1 (S _ F)), (B3 (S _ G)). lia.
  - rewrite (A1 F), (A4 G), (B1 (S _ F)). lia.
  - rewrite (A2 F), (A3 G), (B3 (S _ G)). lia.
  - rewrite (A2 F), (A4 G). lia.
Qed.
Lemma counted_least com n a : counted com n a -> (n <= a)%nat.
Proof. intros (x & y & -> & _). lia. Qed.

(** ** Estimates *)
Lemma same_estimate_sym e e' : same_estimate e e' -> same_estimate e' e.
Proof.
  intros (A & B & C & D & E). split; [ symmetry; exact A | split; [ symmetry; exact B | split; [ symmetry; exact C | ] ] ].
  split; apply same_matrix_sym; assumption.
Qed.
Lemma same_estimate_trans e e' e'' : same_estimate e e' -> same_estimate e' e'' -> same_estimate e e''.
Proof.
  intros (A & B & C & D & E) (A' & B' & C' & D' & E'). split; [ congruence | split; [ congruence | split; [ congruence | ] ] ].
  split; eapply same_matrix_trans; eassumption.
Qed.
Definition stable (errors : kin_estimate -> list (res (list R))) : Prop :=
  forall e e', same_estimate e e' -> cols (ke_camera_offsets e) = 4%nat -> cols (ke_target_offsets e) = 4%nat -> errors e = errors e'.
Lemma image_stable p : stable (image_errors p).
Proof. intros e e' S C1 C2. apply map_ext. intros oc. apply reproject_same; assumption. Qed.
Lemma pose_stable w p : stable (pose_errors w p).
Proof. intros e e' S C1 C2. apply map_ext. intros oc. apply KinematicCall.pose_error_same; assumption. Qed.
Lemma whole_same com errors e e' c : stable errors -> same_estimate e e' -> cols (ke_camera_offsets e') = 4%nat -> cols (ke_target_offsets e') = 4%nat ->
  whole_error com errors e c <-> whole_error com errors e' c.
Proof.
  intros St S C1 C2. pose proof S as (_ & _ & _ & (R0 & K0 & M0) & (R1 & K1 & M1)).
  assert (K : whole_error com errors e = whole_error com errors e'); [ | rewrite K; reflexivity ].
  unfold whole_error. rewrite (St e e' S) by congruence.
  rewrite (offset_error_ext _ (ke_camera_offsets e) (ke_camera_offsets e')), (offset_error_ext _ (ke_target_offsets e) (ke_target_offsets e'));
    first [ reflexivity | congruence | split; [ assumption | split; assumption ] ].
Qed.
Lemma whole_nonneg com errors e c : whole_error com errors e c -> 0 <= c.
Proof. intros (vs & _ & ->). pose proof (half_nonneg (concat vs)). pose proof (offset_error_nonneg (kc_camera_chain_offset_stdev com) (ke_camera_offsets e)).
  pose proof (offset_error_nonneg (kc_target_chain_offset_stdev com) (ke_target_offsets e)). lra. Qed.
Lemma whole_fun com errors e c c' : whole_error com errors e c -> whole_error com errors e c' -> c = c'.
Proof.
  intros (vs & F & ->) (vs' & F' & ->). replace vs' with vs; [ reflexivity | ]. clear -F F'.
  revert vs' F'. induction F as [ | x v xs ws E G IH ]; intros vs' F'; inversion F' as [ | y v' ys ws' E' G' ]; subst; [ reflexivity | ].
  injection E' as <-. f_equal. apply IH, G'.
Qed.
Lemma memory0_setup com com' : same_setup com com' -> kin_memory0 com' = kin_memory0 com.
Proof. intros (_ & _ & E1 & E2 & E3 & _). unfold kin_memory0. rewrite E1, E2, E3. reflexivity. Qed.
Lemma may_find_more com com' e : same_setup com com' -> holds_less com com' -> may_find com e -> may_find com' e.
Proof.
  intros S L (m & M & SE). exists m. pose proof S as (E1 & E2 & _). split.
  - intros k i Hk Hi H. rewrite (memory0_setup _ _ S). apply M; [ exact Hk | | apply L, H ]. unfold block_size in *. rewrite E1, E2 in Hi. exact Hi.
  - unfold stored_estimate. rewrite E1, E2. exact SE.
Qed.

(** ** What a result reports *)
Lemma run_reports com errors per N residuals p solve u cov blocks r :
  stable errors -> (forall e v, In (Ok v) (errors e) -> length v = per) -> (forall e, length (errors e) = N) ->
  honest_kin solve -> keeps_frozen solve ->
  right_problem com errors residuals p ->
  kin_optimize u solve cov com blocks = Ok r ->
  (forall u solve m s r, solve residuals p (kin_memory0 com) = (m, s) ->
    kin_optimize u solve cov com blocks = Ok r ->
    same_estimate (result_estimate r) (stored_estimate com m) /\ kr_converged r = term_convergence s /\
    exists vs, mapM (fun f : kin_residual => f (kin_memory0 com)) residuals = Ok vs /\
      let n := INR (length (concat vs)) in
      kr_initial_cost_per_obs r = initial_cost s / n /\ kr_final_cost_per_obs r = final_cost s / n) ->
  reports com errors (per * N) r.
Proof.
  intros St HL HN Ho Hf RP E Run. destruct (solve residuals p (kin_memory0 com)) as [m s] eqn:Es.
  destruct (Run u solve m s r Es E) as (SE & _ & vs & Ev & _ & Ef).
  assert (M : may_choose com m).
  { intros k i Hk Hi H. apply (Hf _ _ _ _ _ Es). apply RP; assumption. }
  assert (CI : cost_is residuals m (final_cost s)) by (apply (Ho _ _ _ _ _ Es); eauto).
  split; [ exists m; split; assumption | ]. exists (length (concat vs)), (final_cost s). split; [ | split; [ | exact Ef ] ].
  - rewrite <- (HN (stored_estimate com (kin_memory0 com))). apply (count_residuals com errors residuals p RP per HL _ _ Ev).
  - apply (whole_same _ _ _ _ _ St SE eq_refl eq_refl). apply (cost_whole com errors residuals p RP m _ M), CI.
Qed.
Lemma image_two p e v : In (Ok v) (image_errors p e) -> length v = 2%nat.
Proof.
  intros H. apply in_map_iff in H as (oc & E & _). unfold reproject in E. destruct (getFK _ _ _); cbn [bind] in E; try discriminate.
  destruct (getFK _ _ _); cbn [bind] in E; try discriminate. injection E as <-. reflexivity.
Qed.
Lemma pose_four w p e v : In (Ok v) (pose_errors w p e) -> length v = 4%nat.
Proof.
  intros H. apply in_map_iff in H as (oc & E & _). unfold KinReport.pose_error in E. destruct (getFK _ _ _); cbn [bind] in E; try discriminate.
  destruct (getFK _ _ _); cbn [bind] in E; try discriminate. injection E as <-. reflexivity.
Qed.
Lemma images_report u solve cov p r : honest_kin solve -> keeps_frozen solve -> lists_blocks cov -> masks_fit (k2_common p) ->
  kin_optimize2D3D u solve cov p = Ok r -> reports (k2_common p) (image_errors p) (2 * length (kin_pairs (k2_observations p))) r.
Proof.
  intros Ho Hf HL HM E. destruct (kin2_right cov p HL HM) as (residuals & pr & RP & Run).
  refine (run_reports _ _ 2 (length (kin_pairs (k2_observations p))) residuals pr solve u cov _ r (image_stable p) (image_two p) _ Ho Hf RP E Run).
  intros e. apply map_length.
Qed.
Lemma poses_report u solve cov p w r : honest_kin solve -> keeps_frozen solve -> lists_blocks cov -> masks_fit (k6_common p) ->
  kin_optimizePose6D u solve cov p w = Ok r -> reports (k6_common p) (pose_errors w p) (4 * length (k6_observations p)) r.
Proof.
  intros Ho Hf HL HM E. destruct (kin6_right cov p w HL HM) as (residuals & pr & RP & Run).
  refine (run_reports _ _ 4 (length (k6_observations p)) residuals pr solve u cov _ r (pose_stable w p) (pose_four w p) _ Ho Hf RP E Run).
  intros e. apply map_length.
Qed.

(** ** More freedom *)
Lemma shares a b c d : 0 <= a <= b -> (c <= d)%nat -> (c = 0%nat -> b = 0) -> a / INR d <= b / INR c.
Proof.
  intros [A B] C Z. destruct c as [ | c ].
  - rewrite (Z eq_refl). replace a with 0 by (specialize (Z eq_refl); lra). unfold Rdiv. rewrite !Rmult_0_l. lra.
  - assert (P : 0 < INR (S c)) by (apply lt_0_INR; lia). assert (Q : INR (S c) <= INR d) by (apply le_INR, C).
    unfold Rdiv. apply Rmult_le_compat; [ exact A | left; apply Rinv_0_lt_compat; lra | exact B | apply Rinv_le_contravar; assumption ].
Qed.
Lemma nothing_counted com errors n e c : stable errors -> (forall e, length (errors e) * 1 <= n)%nat -> may_find com e -> counted com n 0 ->
  whole_error com errors e c -> c = 0.
Proof.
  intros St HN (m & M & SE) (a & b & E & A1 & A2 & B1 & B2) W. apply (whole_same _ _ _ _ _ St SE eq_refl eq_refl) in W. destruct W as (vs & F & ->).
  assert (N0 : errors (stored_estimate com m) = []) by (apply length_zero_iff_nil; specialize (HN (stored_estimate com m)); lia).
  rewrite N0 in F. inversion F; subst. cbn [concat]. rewrite half_nil.
  assert (Z : forall sd n off, n = 0%nat -> offset_error sd (Mat n 4 off) = 0) by (intros sd k off ->; unfold offset_error; cbn; apply half_nil).
  destruct (chosen_offsets com m M) as [Z0 Z1].
  assert (Q0 : offset_error (kc_camera_chain_offset_stdev com) (ke_camera_offsets (stored_estimate com m)) = 0).
  { destruct (block_free_dec com 0) as [ D | D ]; [ lia | apply Z; pose proof (A1 D); lia | ]. apply Z0. intros i Hi.
    unfold held, masked. destruct (In_dec Z.eq_dec (Z.of_nat i) (nth 0 (kc_mask com) [])) as [ I | I ]; [ tauto | ].
    destruct (Nat.eq_dec (dof (kc_camera_chain com)) 0); [ tauto | ]. exfalso. apply D. exists i. split; [ exact Hi | ]. unfold held, masked.
    intros [ X | [ [ _ X ] | [ X _ ] ] ]; [ tauto | tauto | discriminate ]. }
  assert (Q1 : offset_error (kc_target_chain_offset_stdev com) (ke_target_offsets (stored_estimate com m)) = 0).
  { destruct (block_free_dec com 1) as [ D | D ]; [ lia | apply Z; pose proof (B1 D); lia | ]. apply Z1. intros i Hi.
    unfold held, masked. destruct (In_dec Z.eq_dec (Z.of_nat i) (nth 1 (kc_mask com) [])) as [ I | I ]; [ tauto | ].
    destruct (Nat.eq_dec (dof (kc_target_chain com)) 0); [ tauto | ]. exfalso. apply D. exists i. split; [ exact Hi | ]. unfold held, masked.
    intros [ X | [ [ X _ ] | [ _ X ] ] ]; [ tauto | discriminate | tauto ]. }
  rewrite Q0, Q1. ring.
Qed.
Lemma more_freedom com com' errors errors' n r r' : stable errors -> (forall e, length (errors e) * 1 <= n)%nat ->
  same_setup com com' -> holds_less com com' -> (forall e, errors' e = errors e) ->
  reports com errors n r -> reports com' errors' n r' -> best_estimate com' errors' (result_estimate r') ->
  kr_final_cost_per_obs r' <= kr_final_cost_per_obs r.
Proof.
  intros St HN S L EE (M & t & c & Ct & W & ->) (_ & t' & c' & Ct' & W' & ->) (_ & cb & Wb & Best).
  rewrite (whole_fun _ _ _ _ _ Wb W') in Best. clear cb Wb.
  assert (Wt : whole_error com' errors' (result_estimate r) c).
  { destruct S as (_ & _ & _ & _ & _ & S1 & S2). unfold whole_error. rewrite EE, S1, S2. exact W. }
  apply shares.
  - split; [ exact (whole_nonneg _ _ _ _ W') | apply (Best (result_estimate r)); [ apply (may_find_more com com' _ S L M) | exact Wt ] ].
  - apply (counted_more com com' n); assumption.
  - intros ->. apply (nothing_counted com errors n (result_estimate r)); assumption.
Qed.

(** ** The hand-eye problem *)
Definition plain_estimate (com : kin_common) (X Z : iso) : kin_estimate :=
  as_designed (kc_camera_chain com) (kc_target_chain com) X Z (kc_camera_base_to_target_base_guess com).
Section HandEye.
  Variables (com : kin_common) (k : intrinsics) (X Z : iso).
  Let pixel (s : sighting vec2) : list R :=
    let q := pinhole k (seen_at X Z s) in [px q - px (measured s); py q - py (measured s)].
  Lemma reproject_as_hand_eye o h c : as_hand_eye com o h ->
    1 / 10 ^ 10 < vz (seen_at X Z (Sighting (to_camera_mount h) (to_target_mount h) (in_target c) (in_image c))) ->
    reproject k com (plain_estimate com X Z) (o, c) =
    Ok (pixel (Sighting (to_camera_mount h) (to_target_mount h) (in_target c) (in_image c))).
  Proof.
    intros (Fc & Ft & (E1 & E2) & Hc & Ht & _) V. unfold reproject, plain_estimate, as_designed, pixel.
    cbn [ke_camera_offsets ke_target_offsets ke_camera_mount_to_camera ke_target_mount_to_target ke_camera_base_to_target_base fst snd measured].
    rewrite E1, E2. cbn [bind]. unfold seen_at in *. cbn [camera_mount target_mount point] in *. rewrite Hc, Ht in *.
    unfold target_in_camera, kin_target_in_camera in *. rewrite iso_mul_assoc in V. rewrite iso_mul_assoc, eig_pinhole by exact V. reflexivity.
  Qed.
  Lemma pairs_as_hand_eye os hs : Forall2 (as_hand_eye com) os hs -> (forall s, In s (sightings hs) -> 1 / 10 ^ 10 < vz (seen_at X Z s)) ->
    Forall2 (fun x v => x = Ok v) (map (reproject k com (plain_estimate com X Z)) (kin_pairs os)) (map pixel (sightings hs)).
  Proof.
    induction 1 as [ | o h os hs H _ IH ]; intros V; [ constructor | ].
    unfold kin_pairs, sightings. cbn [flat_map]. rewrite !map_app. apply Forall2_app.
    - pose proof H as (_ & _ & _ & _ & _ & EC). rewrite <- EC, !map_map.
      assert (V' : forall c, In c (correspondence_set h) ->
        1 / 10 ^ 10 < vz (seen_at X Z (Sighting (to_camera_mount h) (to_target_mount h) (in_target c) (in_image c)))).
      { intros c Hc. apply V. unfold sightings. cbn [flat_map]. apply in_or_app. left. apply in_map_iff. exists c. auto. }
      clear EC IH V. revert V'. generalize (correspondence_set h). intros l V'. induction l as [ | c l IH ]; cbn [map]; constructor.
      + apply reproject_as_hand_eye; [ exact H | apply V'; left; reflexivity ].
      + apply IH. intros c' Hc'. apply V'. right. exact Hc'.
    - apply IH. intros s Hs. apply V. unfold sightings. cbn [flat_map]. apply in_or_app. right. exact Hs.
  Qed.
  Lemma hand_eye_error os hs : Forall2 (as_hand_eye com) os hs -> clear_view (sightings hs) X Z ->
    whole_error com (fun e => map (reproject k com e) (kin_pairs os)) (plain_estimate com X Z) (image_error k (sightings hs) X Z).
  Proof.
    intros H (_ & _ & V). exists (map pixel (sightings hs)). split; [ apply pairs_as_hand_eye; assumption | ].
    cbn [plain_estimate as_designed ke_camera_offsets ke_target_offsets]. rewrite !offset_error_none, !Rplus_0_r.
    unfold image_error. rewrite flat_map_concat_map. reflexivity.
  Qed.
  Lemma hand_eye_found : mounts_free com -> turns_enough X -> turns_enough Z -> turns_enough (kc_camera_base_to_target_base_guess com) ->
    may_find com (plain_estimate com X Z).
  Proof.
    intros MF TX TZ TB.
    set (com' := KC (kc_camera_chain com) (kc_target_chain com) X Z (kc_camera_base_to_target_base_guess com) (kc_mask com)
       (kc_camera_chain_offset_stdev com) (kc_target_chain_offset_stdev com) (kc_label_camera_mount_to_camera com)
       (kc_label_target_mount_to_target com) (kc_label_camera_base_to_target com)).
    exists (kin_memory0 com'). split.
    - intros b i Hb Hi H.
      assert (N : (2 <= b <= 5)%nat -> False).
      { intros R. destruct H as [ H | [ [ H _ ] | [ H _ ] ] ]; [ exact (MF b i R H) | lia | lia ]. }
      do 2 (destruct b as [ | b ]; [ reflexivity | ]). do 4 (destruct b as [ | b ]; [ destruct N; lia | ]).
      do 2 (destruct b as [ | b ]; [ reflexivity | ]). lia.
    - apply same_estimate_sym. apply (start_estimate com'). split; [ exact TX | split; [ exact TZ | exact TB ] ].
  Qed.
End HandEye.
Lemma sightings_length com os hs : Forall2 (as_hand_eye com) os hs -> length (sightings hs) = length (kin_pairs os).
Proof.
  induction 1 as [ | o h os hs H _ IH ]; [ reflexivity | ]. unfold sightings, kin_pairs. cbn [flat_map]. rewrite !app_length, !map_length.
  destruct H as (_ & _ & _ & _ & _ & ->). unfold sightings, kin_pairs in IH. rewrite IH. reflexivity.
Qed.
Lemma clear_in_view ss X Z : clear_view ss X Z -> in_view ss X Z.
Proof.
  intros (A & B & V). split; [ exact A | split; [ exact B | ] ]. intros s Hs. specialize (V s Hs).
  assert (0 < 1 / 10 ^ 10); [ | lra ]. apply Rdiv_lt_0_compat; [ lra | apply pow_lt; lra ].
Qed.
Lemma kin_vs_hand_eye u solve cov p r hr hs u' solve' cov' q :
  honest_kin solve -> keeps_frozen solve -> lists_blocks cov -> masks_fit (k2_common p) ->
  kin_optimize2D3D u solve cov p = Ok r -> best_estimate (k2_common p) (image_errors p) (result_estimate r) ->
  mounts_free (k2_common p) -> turns_enough (kc_camera_base_to_target_base_guess (k2_common p)) ->
  Forall2 (as_hand_eye (k2_common p)) (k2_observations p) hs ->
  honest solve' -> optimize2D3D u' solve' cov' q = Ok hr -> h2_intr q = k2_intr p -> h2_observations q = hs -> plain_obs hs ->
  clear_view (sightings hs) (he_camera_mount_to_camera hr) (he_target_mount_to_target hr) ->
  turns_enough (he_camera_mount_to_camera hr) -> turns_enough (he_target_mount_to_target hr) ->
  kr_final_cost_per_obs r <= he_final_cost_per_obs hr.
Proof.
  intros Ho Hf HL HM E B MF TB F Ho' E' Ek Eo PO CV TX TZ. subst hs.
  rewrite (he_error2 _ _ _ _ _ Ho' E' PO (clear_in_view _ _ _ CV)), Ek.
  destruct (images_report u solve cov p r Ho Hf HL HM E) as (M & t & c & Ct & W & ->).
  destruct B as (_ & cb & Wb & Best). rewrite (whole_fun _ _ _ _ _ Wb W) in Best. clear cb Wb.
  pose proof (hand_eye_error (k2_common p) (k2_intr p) _ _ _ _ F CV) as Wh.
  pose proof (hand_eye_found (k2_common p) _ _ MF TX TZ TB) as Mh.
  rewrite (sightings_length _ _ _ F). apply shares.
  - split; [ exact (whole_nonneg _ _ _ _ W) | apply (Best _ _ Mh), Wh ].
  - apply (counted_least _ _ _ Ct).
  - intros Z. assert (L : sightings (h2_observations q) = []).
    { apply length_zero_iff_nil. rewrite (sightings_length _ _ _ F). lia. }
    rewrite L. unfold image_error. cbn. apply half_nil.
Qed.

(** ** Chains and bases held *)
Lemma held_estimate com e : chains_held com -> bases_held com -> turns_enough (kc_camera_base_to_target_base_guess com) -> may_find com e ->
  same_estimate e (plain_estimate com (ke_camera_mount_to_camera e) (ke_target_mount_to_target e)).
Proof.
  intros CH BH TB (m & M & SE). apply (same_estimate_trans _ _ _ SE). destruct SE as (E1 & E2 & _). rewrite E1, E2.
  split; [ reflexivity | split; [ reflexivity | split; [ | split ] ] ].
  - cbn [plain_estimate as_designed stored_estimate ke_camera_base_to_target_base].
    replace (read3 m 6) with (tr (kc_camera_base_to_target_base_guess com)); [ replace (read3 m 7) with (guess_aa (kc_camera_base_to_target_base_guess com)); [ apply guess_stored, TB | ] | ].
    + unfold read3. rewrite !M by (first [ lia | unfold block_size; lia | left; apply BH; [ auto | lia ] ]). unfold kin_memory0. apply vec3_ext; reflexivity.
    + unfold read3. rewrite !M by (first [ lia | unfold block_size; lia | left; apply BH; [ auto | lia ] ]). unfold kin_memory0. apply vec3_ext; reflexivity.
  - apply (offsets_none (dof (kc_camera_chain com)) (m 0%nat)). intros i Hi.
    assert (B : (i < block_size com 0)%nat) by (unfold block_size; lia). rewrite M by (try lia; auto). reflexivity.
  - apply (offsets_none (dof (kc_target_chain com)) (m 1%nat)). intros i Hi.
    assert (B : (i < block_size com 1)%nat) by (unfold block_size; lia). rewrite M by (try lia; auto). reflexivity.
Qed.
Lemma held_count com n t : chains_held com -> counted com n t -> t = n.
Proof.
  intros CH (a & b & -> & _ & A & _ & B). rewrite A, B; [ lia | | ]; intros (i & Hi & N); apply N, CH; auto.
Qed.
Lemma held_error u solve cov p r hs :
  honest_kin solve -> keeps_frozen solve -> lists_blocks cov -> masks_fit (k2_common p) ->
  chains_held (k2_common p) -> bases_held (k2_common p) -> turns_enough (kc_camera_base_to_target_base_guess (k2_common p)) ->
  kin_optimize2D3D u solve cov p = Ok r -> Forall2 (as_hand_eye (k2_common p)) (k2_observations p) hs ->
  clear_view (sightings hs) (kr_camera_mount_to_camera r) (kr_target_mount_to_target r) ->
  kr_final_cost_per_obs r =
  image_error (k2_intr p) (sightings hs) (kr_camera_mount_to_camera r) (kr_target_mount_to_target r) / INR (2 * length (sightings hs)).
Proof.
  intros Ho Hf HL HM CH BH TB E F CV. destruct (images_report u solve cov p r Ho Hf HL HM E) as (M & t & c & Ct & W & ->).
  rewrite (held_count _ _ _ CH Ct), (sightings_length _ _ _ F). f_equal.
  apply (whole_same _ _ _ _ _ (image_stable p) (held_estimate _ _ CH BH TB M) eq_refl eq_refl) in W.
  apply (whole_fun _ _ _ _ _ W). apply (hand_eye_error (k2_common p) (k2_intr p) _ _ _ _ F CV).
Qed.
Lemma held_is_hand_eye u solve cov p r hr hs u' solve' cov' q :
  honest_kin solve -> keeps_frozen solve -> lists_blocks cov -> masks_fit (k2_common p) ->
  kin_optimize2D3D u solve cov p = Ok r -> best_estimate (k2_common p) (image_errors p) (result_estimate r) ->
  mounts_free (k2_common p) -> chains_held (k2_common p) -> bases_held (k2_common p) ->
  turns_enough (kc_camera_base_to_target_base_guess (k2_common p)) ->
  Forall2 (as_hand_eye (k2_common p)) (k2_observations p) hs ->
  clear_view (sightings hs) (kr_camera_mount_to_camera r) (kr_target_mount_to_target r) ->
  honest solve' -> optimize2D3D u' solve' cov' q = Ok hr -> h2_intr q = k2_intr p -> h2_observations q = hs -> plain_obs hs ->
  best_for_images (k2_intr p) (sightings hs) (he_camera_mount_to_camera hr) (he_target_mount_to_target hr) ->
  clear_view (sightings hs) (he_camera_mount_to_camera hr) (he_target_mount_to_target hr) ->
  turns_enough (he_camera_mount_to_camera hr) -> turns_enough (he_target_mount_to_target hr) ->
  kr_final_cost_per_obs r = he_final_cost_per_obs hr /\
  best_for_images (k2_intr p) (sightings hs) (kr_camera_mount_to_camera r) (kr_target_mount_to_target r).
Proof.
  intros Ho Hf HL HM E B MF CH BH TB F CVr Ho' E' Ek Eo PO Bh CV TX TZ.
  pose proof (held_estimate _ _ CH BH TB (proj1 B)) as SE. cbn [result_estimate ke_camera_mount_to_camera ke_target_mount_to_target] in SE.
  pose proof (proj2 Bh _ _ (clear_in_view _ _ _ CVr)) as Le.
  pose proof (hand_eye_error (k2_common p) (k2_intr p) _ _ _ _ F CV) as Wh.
  pose proof (hand_eye_error (k2_common p) (k2_intr p) _ _ _ _ F CVr) as Wr.
  assert (Q : image_error (k2_intr p) (sightings hs) (kr_camera_mount_to_camera r) (kr_target_mount_to_target r) =
    image_error (k2_intr p) (sightings hs) (he_camera_mount_to_camera hr) (he_target_mount_to_target hr)).
  { apply Rle_antisym; [ | exact Le ]. destruct B as (_ & c & W & Best).
    apply (whole_same _ _ _ _ _ (image_stable p) SE eq_refl eq_refl) in W. rewrite <- (whole_fun _ _ _ _ _ W Wr).
    apply (Best _ _ (hand_eye_found _ _ _ MF TX TZ TB)), Wh. }
  split.
  - rewrite (held_error u solve cov p r hs) by assumption. subst hs. rewrite (he_error2 _ _ _ _ _ Ho' E' PO (proj1 Bh)), Ek, Q. reflexivity.
  - split; [ apply clear_in_view, CVr | ]. intros X' Z' V. rewrite Q. apply (proj2 Bh _ _ V).
Qed.

(** ** The two kinds of problem *)
Lemma images_more u solve cov p r u' solve' cov' p' r' :
  honest_kin solve -> keeps_frozen solve -> lists_blocks cov -> masks_fit (k2_common p) -> kin_optimize2D3D u solve cov p = Ok r ->
  honest_kin solve' -> keeps_frozen solve' -> lists_blocks cov' -> masks_fit (k2_common p') -> kin_optimize2D3D u' solve' cov' p' = Ok r' ->
  k2_observations p' = k2_observations p -> k2_intr p' = k2_intr p ->
  same_setup (k2_common p) (k2_common p') -> holds_less (k2_common p) (k2_common p') ->
  best_estimate (k2_common p') (image_errors p') (result_estimate r') ->
  kr_final_cost_per_obs r' <= kr_final_cost_per_obs r.
Proof.
  intros Ho Hf HL HM E Ho' Hf' HL' HM' E' Eo Ek S L B.
  pose proof (images_report _ _ _ _ _ Ho Hf HL HM E) as Q. pose proof (images_report _ _ _ _ _ Ho' Hf' HL' HM' E') as Q'. rewrite Eo in Q'.
  refine (more_freedom _ _ _ _ _ r r' (image_stable p) _ S L _ Q Q' B).
  - intros e. unfold image_errors. rewrite map_length. lia.
  - intros e. unfold image_errors. rewrite Eo, Ek. apply map_ext. intros oc. destruct S as (S1 & S2 & _). unfold reproject. rewrite S1, S2. reflexivity.
Qed.
Lemma poses_more u solve cov p w r u' solve' cov' p' r' :
  honest_kin solve -> keeps_frozen solve -> lists_blocks cov -> masks_fit (k6_common p) -> kin_optimizePose6D u solve cov p w = Ok r ->
  honest_kin solve' -> keeps_frozen solve' -> lists_blocks cov' -> masks_fit (k6_common p') -> kin_optimizePose6D u' solve' cov' p' w = Ok r' ->
  k6_observations p' = k6_observations p ->
  same_setup (k6_common p) (k6_common p') -> holds_less (k6_common p) (k6_common p') ->
  best_estimate (k6_common p') (pose_errors w p') (result_estimate r') ->
  kr_final_cost_per_obs r' <= kr_final_cost_per_obs r.
Proof.
  intros Ho Hf HL HM E Ho' Hf' HL' HM' E' Eo S L B.
  pose proof (poses_report _ _ _ _ _ _ Ho Hf HL HM E) as Q. pose proof (poses_report _ _ _ _ _ _ Ho' Hf' HL' HM' E') as Q'. rewrite Eo in Q'.
  refine (more_freedom _ _ _ _ _ r r' (pose_stable w p) _ S L _ Q Q' B).
  - intros e. unfold pose_errors. rewrite map_length. lia.
  - intros e. unfold pose_errors. rewrite Eo. apply map_ext. intros oc. destruct S as (S1 & S2 & _). unfold KinReport.pose_error. rewrite S1, S2. reflexivity.
Qed.
