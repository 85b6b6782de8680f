(** The run of the kinematic calibration example. *)
From Coq Require Import Reals ZArith Lia Lra String List.
From Verif.Base Require Import Geom Outcome Matrix.
From Verif.Model Require Import Pose Covariance Solver HandEye DhChain LocalParam Kinematic Yaml Loaders Accumulator KinematicExample.
From Verif.Spec Require Import FreezeSpec DhSpec YamlSpec KinSpec KinReport KinExampleSpec StatSpec LoaderSpec.
From Verif.Proofs Require Import GeomLemmas RotLemmas ListLemmas YamlProofs LoaderProofs StatProofs HandEyeProofs DhProofs
  KinematicProofs KinematicCall KinFileProofs KinCompareProofs.
Import ListNotations.
Local Open Scope R_scope.

(** ** More about the optimization *)
Lemma kin_aborts u solve cov com (blocks : list nat -> list kin_residual) : lists_blocks cov -> masks_fit com ->
  blocks kin_params <> [] -> (exists f, In f (blocks kin_params) /\ forall l, f (kin_memory0 com) <> Ok l) ->
  kin_optimize u solve cov com blocks = UB.
Proof.
  intros H M NE (f & Hf & Ef). rewrite kin_optimize_eq by (first [ exact H | apply M | exact NE ]).
  destruct (kin_subset cov com H M) as (p' & Ep & Bp & _). rewrite Ep. cbn [bind]. unfold kin_rest.
  assert (Fk : forall k, In k kin_keys -> find_key k (p_blocks p') = Some (kin_size com k)).
  { intros k Hk. rewrite Bp. cbn [p_blocks kin_prepared]. apply kin_find, order_in; assumption. }
  destruct (prior_ok p' (kc_camera_chain com) 0 (kc_camera_chain_offset_stdev com) _ (Fk 0%nat (or_introl eq_refl))) as (pr1 & E1 & _).
  destruct (prior_ok p' (kc_target_chain com) 1 (kc_target_chain_offset_stdev com) _ (Fk 1%nat (or_intror (or_introl eq_refl)))) as (pr2 & E2 & _).
  rewrite E1, E2. cbn [bind]. destruct (kin_prints cov com p' H M Ep) as (lines & -> & _). cbn [bind]. cbv zeta.
  match goal with |- context [mapM ?g ?l] => assert (N : forall bs, mapM g l <> Ok bs) end.
  { assert (Hl : In f (blocks kin_params ++ pr1 ++ pr2)) by (apply in_or_app; left; exact Hf).
    induction (blocks kin_params ++ pr1 ++ pr2)%list as [ | g l IH ]; [ destruct Hl | ]. intros bs E. cbn [mapM] in E.
    destruct (g (kin_memory0 com)) as [v | | ] eqn:Eg; cbn [bind] in E; [ | discriminate | discriminate ].
    destruct Hl as [-> | Hl]; [ exact (Ef v Eg) | ].
    match type of E with context [mapM ?g l] => destruct (mapM g l) as [vs | | ] eqn:El end; cbn [bind] in E; [ | discriminate | discriminate ].
    exact (IH Hl vs eq_refl). }
  match goal with |- context [mapM ?g ?l] => destruct (mapM g l) as [vs | | ]; [ destruct (N vs eq_refl) | reflexivity | reflexivity ] end.
Qed.
Lemma kin_shape u solve cov com blocks r : lists_blocks cov -> length (kc_mask com) = 8%nat ->
  kin_optimize u solve cov com blocks = Ok r ->
  rigid_estimate (result_estimate r) /\
  rows (kr_camera_chain_dh_offsets r) = dof (kc_camera_chain com) /\ cols (kr_camera_chain_dh_offsets r) = 4%nat /\
  rows (kr_target_chain_dh_offsets r) = dof (kc_target_chain com) /\ cols (kr_target_chain_dh_offsets r) = 4%nat.
Proof.
  intros H H8 E. destruct (kin_ok_inv _ _ _ _ _ _ H H8 E) as (p' & pr1 & pr2 & m & s & n & c & _ & _ & _ & _ & _ & _ & ->).
  split; [ repeat split; apply createTransform_rigid | ].
  destruct (read_offsets_dims (kc_camera_chain com) m 0), (read_offsets_dims (kc_target_chain com) m 1). auto.
Qed.

(** ** The problem *)
Section Run.
  Variables (seed1 seed2 : nat) (ms : list kin_measurement) (g1 g2 : iso).
  Let tgt := createTwoAxisPositioner seed1 seed2.
  Let cam := DHChain [] iso_id.
  Definition run_problem (tm : nat -> nat -> bool) : kin_problemPose6D :=
    pose6D_problem cam tgt ms g1 g2 iso_id
      [[]; createDHMask (dof tgt) tm; []; []; []; []; [0; 1; 2]%Z; [0; 1; 2]%Z] (1 / 1000) (5 / 1000).
  Lemma run_masks tm : masks_fit (k6_common (run_problem tm)).
  Proof.
    split; [ reflexivity | ]. intros k m z E Hz.
    change (kc_mask (k6_common (run_problem tm))) with [[]; createDHMask (dof tgt) tm; []; []; []; []; [0; 1; 2]%Z; [0; 1; 2]%Z] in E.
    assert (B1 : block_size (k6_common (run_problem tm)) 1 = 8%nat) by reflexivity.
    destruct k as [|[|[|[|[|[|[|[|k]]]]]]]]; cbn [nth_error] in E.
    2: { injection E as <-. apply mask_range in Hz as (i & j & Hi & Hj & _ & _ & Hr). change (dof tgt) with 2%nat in *. rewrite B1. lia. }
    8: { destruct k; discriminate E. }
    all: injection E as <-; cbn in Hz; cbn [block_size]; lia.
  Qed.
  Lemma run_held tm (held_row : nat -> Prop) : (forall i j, tm i j = true <-> held_row i) ->
    forall k i, (k < 8)%nat -> (i < block_size (k6_common (run_problem tm)) k)%nat ->
    (held (k6_common (run_problem tm)) k i <-> k = 0%nat \/ (k = 1%nat /\ held_row (i mod dof tgt)%nat) \/ k = 6%nat \/ k = 7%nat).
  Proof.
    intros Ht k i Hk Hi. unfold held, masked. cbn [kc_mask k6_common run_problem pose6D_problem kc_camera_chain kc_target_chain].
    change (dof cam) with 0%nat. assert (D : dof tgt = 2%nat) by reflexivity.
    destruct k as [|[|[|[|[|[|[|[|k]]]]]]]]; cbn [nth]; [ | | | | | | | | lia ].
    - split; [ auto | intros _; right; left; auto ].
    - rewrite D in *. cbn in Hi. assert (Ei : i = (2 * (i / 2) + i mod 2)%nat) by (apply Nat.div_mod; lia).
      assert (Hm : (i mod 2 < 2)%nat) by (apply Nat.mod_upper_bound; lia). assert (Hd : (i / 2 < 4)%nat) by (apply Nat.div_lt_upper_bound; lia).
      pose proof (mask_in 2 tm (i mod 2) (i / 2) Hm Hd) as Q. rewrite Ht in Q. replace ((i / 2) * 2 + i mod 2)%nat with i in Q by lia.
      rewrite Q. split; [ intros [A | [[A _] | [_ A]]]; [ auto | discriminate | discriminate ] | ].
      intros [A | [[_ A] | [A | A]]]; first [ discriminate | left; exact A ].
    - cbn. lia.
    - cbn. lia.
    - cbn. lia.
    - cbn. lia.
    - cbn in Hi. split; [ auto | intros _; left ]. destruct i as [|[|[|i]]]; cbn; auto; lia.
    - cbn in Hi. split; [ auto | intros _; left ]. destruct i as [|[|[|i]]]; cbn; auto; lia.
  Qed.
  Lemma run_asks tm held_row : (forall i j, tm i j = true <-> held_row i) -> asks ms tgt g1 g2 held_row (run_problem tm).
  Proof. intros H. repeat (split; [ reflexivity | ]). split; [ apply run_masks | apply run_held, H ]. Qed.

  Definition run_opt run tm := kin_optimizePose6D (run_u run) (run_solve run) (run_cov run) (run_problem tm) 100.
  Definition run_cmp run r := compareToMeasurements (run_seeds1 run) (run_seeds2 run) cam tgt r ms.

  Lemma run_shape run tm r : lists_blocks (run_cov run) -> run_opt run tm = Ok r ->
    rigid_estimate (result_estimate r) /\ (dof cam <= rows (kr_camera_chain_dh_offsets r))%nat /\
    (dof tgt <= rows (kr_target_chain_dh_offsets r))%nat /\
    rows (kr_target_chain_dh_offsets r) = 2%nat /\ cols (kr_target_chain_dh_offsets r) = 4%nat.
  Proof.
    intros H E. unfold run_opt in E. rewrite kin6_eq in E. destruct (kin_shape _ _ _ (k6_common (run_problem tm)) _ _ H eq_refl E) as (A & B & _ & C & D).
    cbn [kc_camera_chain kc_target_chain k6_common run_problem pose6D_problem] in B, C.
    split; [ exact A | ]. split; [ cbn; lia | ]. rewrite C. split; [ apply le_n | split; [ reflexivity | exact D ] ].
  Qed.
  Lemma run_kept run tm r : lists_blocks (run_cov run) -> keeps_frozen (run_solve run) -> run_opt run tm = Ok r ->
    kr_camera_base_to_target_base r = iso_id /\
    forall i j, (i < 2)%nat -> (j < 4)%nat -> tm i j = true -> ent (kr_target_chain_dh_offsets r) i j = 0.
  Proof.
    intros H K E. unfold run_opt in E. rewrite kin6_eq in E. split.
    - destruct (kin_keeps _ _ _ _ _ _ H (run_masks tm) K E) as (m & F & _ & _ & -> & _).
      assert (Rd : forall k, k = 6%nat \/ k = 7%nat -> read3 m k = read3 (kin_memory0 (k6_common (run_problem tm))) k).
      { intros k Hk. unfold read3. rewrite !F; [ reflexivity | .. ]; destruct Hk as [-> | ->]; cbn; auto 12. }
      rewrite !Rd by auto. destruct (memory0_read (k6_common (run_problem tm))) as (_ & _ & ->).
      apply (guess_stored iso_id). split; [ apply rigid_id | left; reflexivity ].
    - intros i j Hi Hj Ht.
      exact (proj2 (dh_masked_zero _ _ _ (k6_common (run_problem tm)) _ _ (fun _ _ => true) tm H (run_masks tm) K eq_refl eq_refl E) i j Hi Hj Ht).
  Qed.
End Run.

(** ** The program *)
Definition last_row : nat -> nat -> bool := fun row _ => Nat.eqb row 1.
Definition all_rows : nat -> nat -> bool := fun _ _ => true.
Lemma example_eq load server f s1 s2 run1 run2 : kinematicExample load server (Some f) s1 s2 run1 run2 =
  do ms <- loadMeasurements load f;
  do g1 <- loadPose_param server "camera_mount_to_camera_guess";
  do g2 <- loadPose_param server "target_mount_to_target_guess";
  do r1 <- run_opt s1 s2 ms g1 g2 run1 last_row;
  do st1 <- run_cmp s1 s2 ms run1 r1;
  do r2 <- run_opt s1 s2 ms g1 g2 run2 all_rows;
  do st2 <- run_cmp s1 s2 ms run2 r2;
  Ok (Some (KReport r1 st1 r2 st2 (percentDiff st2 st1))).
Proof. reflexivity. Qed.
Lemma example_inv load server f s1 s2 run1 run2 rep : kinematicExample load server (Some f) s1 s2 run1 run2 = Ok (Some rep) ->
  exists ms g1 g2, loadMeasurements load f = Ok ms /\
    loadPose_param server "camera_mount_to_camera_guess" = Ok g1 /\
    loadPose_param server "target_mount_to_target_guess" = Ok g2 /\
    run_opt s1 s2 ms g1 g2 run1 last_row = Ok (rp_optimal rep) /\ run_cmp s1 s2 ms run1 (rp_optimal rep) = Ok (rp_optimal_stats rep) /\
    run_opt s1 s2 ms g1 g2 run2 all_rows = Ok (rp_static rep) /\ run_cmp s1 s2 ms run2 (rp_static rep) = Ok (rp_static_stats rep) /\
    rp_improvement rep = percentDiff (rp_static_stats rep) (rp_optimal_stats rep).
Proof.
  rewrite example_eq. intros H. apply bind_ok in H as (ms & E1 & H). apply bind_ok in H as (g1 & E2 & H). apply bind_ok in H as (g2 & E3 & H).
  apply bind_ok in H as (r1 & E4 & H). apply bind_ok in H as (st1 & E5 & H). apply bind_ok in H as (r2 & E6 & H). apply bind_ok in H as (st2 & E7 & H).
  injection H as <-. exists ms, g1, g2. auto 10.
Qed.
Lemma last_row_iff i j : last_row i j = true <-> i = 1%nat.
Proof. apply Nat.eqb_eq. Qed.
Lemma example_asks load server f s1 s2 run1 run2 rep : kinematicExample load server (Some f) s1 s2 run1 run2 = Ok (Some rep) ->
  exists ms g1 g2 pb1 pb2, loadMeasurements load f = Ok ms /\
    loadPose_param server "camera_mount_to_camera_guess" = Ok g1 /\
    loadPose_param server "target_mount_to_target_guess" = Ok g2 /\
    asks ms (createTwoAxisPositioner s1 s2) g1 g2 (fun row => row = 1%nat) pb1 /\
    kin_optimizePose6D (run_u run1) (run_solve run1) (run_cov run1) pb1 100 = Ok (rp_optimal rep) /\
    asks ms (createTwoAxisPositioner s1 s2) g1 g2 (fun _ => True) pb2 /\
    kin_optimizePose6D (run_u run2) (run_solve run2) (run_cov run2) pb2 100 = Ok (rp_static rep).
Proof.
  intros H. apply example_inv in H as (ms & g1 & g2 & E1 & E2 & E3 & E4 & _ & E5 & _).
  exists ms, g1, g2, (run_problem s1 s2 ms g1 g2 last_row), (run_problem s1 s2 ms g1 g2 all_rows).
  repeat (split; [ assumption | ]). split; [ apply run_asks, last_row_iff | ]. split; [ exact E4 | ].
  split; [ apply run_asks; intros; split; auto | exact E5 ].
Qed.
Lemma example_kept load server f s1 s2 run1 run2 rep :
  lists_blocks (run_cov run1) -> lists_blocks (run_cov run2) -> keeps_frozen (run_solve run1) -> keeps_frozen (run_solve run2) ->
  kinematicExample load server (Some f) s1 s2 run1 run2 = Ok (Some rep) ->
  kr_camera_base_to_target_base (rp_optimal rep) = iso_id /\ kr_camera_base_to_target_base (rp_static rep) = iso_id /\
  (forall j, (j < 4)%nat -> ent (kr_target_chain_dh_offsets (rp_optimal rep)) 1 j = 0) /\
  same_matrix (kr_target_chain_dh_offsets (rp_static rep)) (no_offsets 2).
Proof.
  intros L1 L2 K1 K2 H. apply example_inv in H as (ms & g1 & g2 & _ & _ & _ & E4 & _ & E5 & _).
  destruct (run_kept _ _ _ _ _ _ _ _ L1 K1 E4) as [A1 A2], (run_kept _ _ _ _ _ _ _ _ L2 K2 E5) as [B1 B2].
  destruct (run_shape _ _ _ _ _ _ _ _ L2 E5) as (_ & _ & _ & B3 & B4).
  split; [ exact A1 | split; [ exact B1 | split ] ].
  - intros j Hj. apply A2; [ lia | exact Hj | reflexivity ].
  - split; [ exact B3 | split; [ exact B4 | ] ]. intros i j Hi Hj. rewrite B3 in Hi. rewrite B4 in Hj. apply B2; [ exact Hi | exact Hj | reflexivity ].
Qed.
Lemma positioner_rigid s1 s2 : rigid (base_offset (createTwoAxisPositioner s1 s2)).
Proof.
  cbn [base_offset createTwoAxisPositioner]. repeat apply rigid_mul; [ apply rigid_id | apply rigid_trans | ].
  apply aa_matrix_rot. unfold dot, unitX. cbn. ring.
Qed.
Lemma errs_same cam tgt e e' o x : same_estimate e e' -> cols (ke_camera_offsets e) = 4%nat -> cols (ke_target_offsets e) = 4%nat ->
  errs cam tgt e o x -> errs cam tgt e' o x.
Proof.
  intros (A & B & C & D & E) C1 C2 (P & (Fc & Ft & F1 & F2 & ->) & H). exists (kin_target_in_camera Fc (ke_camera_mount_to_camera e) (ke_camera_base_to_target_base e) Ft (ke_target_mount_to_target e)).
  split; [ | exact H ]. exists Fc, Ft. rewrite A, B, C. rewrite <- (fk_same _ _ _ _ D C1), <- (fk_same _ _ _ _ E C2). auto.
Qed.
Lemma run_statistics s1 s2 ms g1 g2 run tm r st : lists_blocks (run_cov run) ->
  (forall o, In o ms -> rigid (km_camera_to_target o)) ->
  run_opt s1 s2 ms g1 g2 run tm = Ok r -> run_cmp s1 s2 ms run r = Ok st ->
  ms <> [] /\ statistics fixed_camera (createTwoAxisPositioner s1 s2) (result_estimate r) ms (pos_mean st) (pos_stdev st) (rot_mean st) (rot_stdev st) /\
  (pos_mean st = 0 /\ rot_mean st = 0 <->
   forall o, In o ms -> predicts fixed_camera (createTwoAxisPositioner s1 s2) (result_estimate r) o (km_camera_to_target o)).
Proof.
  intros L Ro E C. destruct (run_shape _ _ _ _ _ _ _ _ L E) as (Re & Dc & Dt & _). unfold run_cmp in C.
  destruct (compare_value _ _ fixed_camera _ _ rigid_id (positioner_rigid s1 s2) Re Dc Dt ms st Ro C) as (xs & F & N & ->).
  split; [ exact N | ]. split; [ exists xs; split; [ exact F | auto ] | ].
  exact (compare_zero _ _ fixed_camera _ _ rigid_id (positioner_rigid s1 s2) Re Dc Dt ms _ Ro C).
Qed.
Lemma Forall2_map_prop {A B} (P Q : A -> B -> Prop) l l' : (forall a b, P a b -> Q a b) -> Forall2 P l l' -> Forall2 Q l l'.
Proof. intros H F. induction F; constructor; auto. Qed.
Lemma percent_improvement a b : improvement a b (percent a b).
Proof. unfold improvement, percent. destruct (Req_EM_T a 0) as [E | N]; [ exact E | ]. split; [ exact N | ]. field. exact N. Qed.
Lemma example_reports load server f s1 s2 run1 run2 rep ms :
  lists_blocks (run_cov run1) -> lists_blocks (run_cov run2) -> keeps_frozen (run_solve run2) ->
  kinematicExample load server (Some f) s1 s2 run1 run2 = Ok (Some rep) -> loadMeasurements load f = Ok ms ->
  (forall o, In o ms -> rigid (km_camera_to_target o)) ->
  let tgt := createTwoAxisPositioner s1 s2 in
  let opt := rp_optimal_stats rep in let sta := rp_static_stats rep in
  ms <> [] /\
  statistics fixed_camera tgt (result_estimate (rp_optimal rep)) ms (pos_mean opt) (pos_stdev opt) (rot_mean opt) (rot_stdev opt) /\
  statistics fixed_camera tgt (nominal (rp_static rep)) ms (pos_mean sta) (pos_stdev sta) (rot_mean sta) (rot_stdev sta) /\
  exists x1 x2 x3 x4, rp_improvement rep = [x1; x2; x3; x4] /\
    improvement (pos_mean sta) (pos_mean opt) x1 /\ improvement (pos_stdev sta) (pos_stdev opt) x2 /\
    improvement (rot_mean sta) (rot_mean opt) x3 /\ improvement (rot_stdev sta) (rot_stdev opt) x4.
Proof.
  intros L1 L2 K2 H Lm Ro tgt opt sta. pose proof H as H0. apply example_inv in H as (ms' & g1 & g2 & E1 & _ & _ & E4 & C4 & E5 & C5 & I).
  rewrite Lm in E1. injection E1 as <-.
  destruct (run_statistics _ _ _ _ _ _ _ _ _ L1 Ro E4 C4) as (N & S1 & _).
  destruct (run_statistics _ _ _ _ _ _ _ _ _ L2 Ro E5 C5) as (_ & (xs & F & S2) & _).
  destruct (run_kept _ _ _ _ _ _ _ _ L2 K2 E5) as [_ B2]. destruct (run_shape _ _ _ _ _ _ _ _ L2 E5) as (_ & _ & _ & B3 & B4).
  split; [ exact N | ]. split; [ exact S1 | ]. split.
  - exists xs. split; [ | exact S2 ].
    unfold run_opt in E5. rewrite kin6_eq in E5.
    destruct (kin_shape _ _ _ (k6_common (run_problem s1 s2 ms g1 g2 all_rows)) _ _ L2 eq_refl E5) as (_ & R1 & R2 & _ & _).
    change (dof (kc_camera_chain (k6_common (run_problem s1 s2 ms g1 g2 all_rows)))) with 0%nat in R1.
    assert (SE : same_estimate (result_estimate (rp_static rep)) (nominal (rp_static rep))).
    { repeat (split; [ reflexivity | ]). split.
      - split; [ exact R1 | split; [ exact R2 | ] ]. intros i j Hi. cbn [result_estimate ke_camera_offsets] in Hi. rewrite R1 in Hi. lia.
      - split; [ exact B3 | split; [ exact B4 | ] ]. intros i j Hi Hj. cbn [result_estimate ke_target_offsets] in Hi, Hj. rewrite B3 in Hi. rewrite B4 in Hj.
        apply B2; [ exact Hi | exact Hj | reflexivity ]. }
    apply (Forall2_map_prop _ _ _ _ (fun o x => errs_same _ _ _ _ _ _ SE R2 B4) F).
  - rewrite I. unfold percentDiff. do 4 eexists. split; [ reflexivity | ]. repeat split; apply percent_improvement.
Qed.

(** ** Outcomes *)
Lemma positioner_known s1 s2 n i t : (i < n)%nat -> nth_error (transforms (createTwoAxisPositioner s1 s2)) i = Some t -> jtype t <> OTHER.
Proof. intros _ E. destruct i as [|[|i]]; cbn in E; [ injection E as <-; discriminate | injection E as <-; discriminate | destruct i; discriminate E ]. Qed.
Lemma fixed_known n i t : (i < n)%nat -> nth_error (transforms fixed_camera) i = Some t -> jtype t <> OTHER.
Proof. intros _ E. destruct i; discriminate E. Qed.
Lemma reach_iff s1 s2 o : can_reach o <-> reaches fixed_camera (km_camera_chain_joints o) /\ reaches (createTwoAxisPositioner s1 s2) (km_target_chain_joints o).
Proof.
  unfold can_reach, reaches. change (dof fixed_camera) with 0%nat. change (dof (createTwoAxisPositioner s1 s2)) with 2%nat. split.
  - intros [-> A]. split; (split; [ cbn; try lia; exact A | ]); intros i t H; [ apply (fixed_known _ _ _ H) | apply (positioner_known _ _ _ _ _ H) ].
  - intros [[A _] [B _]]. split; [ | exact B ]. destruct (km_camera_chain_joints o); [ reflexivity | cbn in A; lia ].
Qed.
Lemma run_empty s1 s2 g1 g2 run tm : lists_blocks (run_cov run) -> run_opt s1 s2 [] g1 g2 run tm = UB.
Proof. intros L. unfold run_opt. rewrite kin6_eq. apply kin_no_blocks; [ exact L | reflexivity | reflexivity ]. Qed.
Lemma run_unreachable s1 s2 ms g1 g2 run tm : lists_blocks (run_cov run) -> (exists o, In o ms /\ ~ can_reach o) ->
  run_opt s1 s2 ms g1 g2 run tm = UB.
Proof.
  intros L (o & Ho & N). unfold run_opt. rewrite kin6_eq. apply kin_aborts; [ exact L | apply run_masks | | ].
  - intros E. apply map_eq_nil in E. cbn [k6_observations run_problem pose6D_problem] in E. rewrite E in Ho. destruct Ho.
  - eexists. split; [ apply in_map, Ho | ]. intros l El. apply N. apply (reach_iff s1 s2).
    destruct (proj1 (kin_costP_outcome fixed_camera (createTwoAxisPositioner s1 s2) (kin_memory0 (k6_common (run_problem s1 s2 ms g1 g2 tm))) 0 1 2 3 4 5 6 7 o 100) (ex_intro _ l El)) as (A & B & C & D).
    split; split; assumption.
Qed.
Lemma run_succeeds s1 s2 ms g1 g2 run tm : lists_blocks (run_cov run) ->
  (forall b, co_compute (run_cov run) b = true) -> (forall b, co_get (run_cov run) b = true) ->
  (forall b i c j, co_cov (run_cov run) b i c j = co_cov (run_cov run) c j b i) ->
  ms <> [] -> (forall o, In o ms -> can_reach o /\ rigid (km_camera_to_target o)) ->
  exists r st, run_opt s1 s2 ms g1 g2 run tm = Ok r /\ run_cmp s1 s2 ms run r = Ok st.
Proof.
  intros L C G Sy N H.
  destruct (kin6_succeeds (run_u run) (run_solve run) (run_cov run) (run_problem s1 s2 ms g1 g2 tm) 100 L (run_masks _ _ _ _ _ _) C G Sy N) as [r E].
  { intros o Ho. destruct (proj1 (reach_iff s1 s2 o) (proj1 (H o Ho))) as [[A B] [D F]]. split; [ exact A | split; [ exact B | split; [ exact D | exact F ] ] ]. }
  destruct (run_shape s1 s2 ms g1 g2 run tm r L E) as (Re & Dc & Dt & _).
  destruct (compare_ok (run_seeds1 run) (run_seeds2 run) fixed_camera (createTwoAxisPositioner s1 s2) r rigid_id (positioner_rigid s1 s2) Re Dc Dt ms N) as (xs & _ & K).
  { intros o Ho. destruct (H o Ho) as [A B]. split; [ exact B | apply reach_iff, A ]. }
  eexists r, _. split; [ exact E | exact K ].
Qed.
Lemma example_succeeds load server f s1 s2 run1 run2 ms g1 g2 : well run1 -> well run2 ->
  loadMeasurements load f = Ok ms ->
  loadPose_param server "camera_mount_to_camera_guess" = Ok g1 -> loadPose_param server "target_mount_to_target_guess" = Ok g2 ->
  ms <> [] -> (forall o, In o ms -> can_reach o /\ rigid (km_camera_to_target o)) ->
  exists rep, kinematicExample load server (Some f) s1 s2 run1 run2 = Ok (Some rep).
Proof.
  intros (L1 & C1 & G1 & S1) (L2 & C2 & G2 & S2) E1 E2 E3 N H. rewrite example_eq, E1, E2, E3. cbn [bind].
  destruct (run_succeeds s1 s2 ms g1 g2 run1 last_row L1 C1 G1 S1 N H) as (r1 & st1 & -> & K1). cbn [bind]. rewrite K1. cbn [bind].
  destruct (run_succeeds s1 s2 ms g1 g2 run2 all_rows L2 C2 G2 S2 N H) as (r2 & st2 & -> & K2). cbn [bind]. rewrite K2. cbn [bind].
  eexists. reflexivity.
Qed.
Lemma example_aborts load server f s1 s2 run1 run2 ms g1 g2 : lists_blocks (run_cov run1) ->
  loadMeasurements load f = Ok ms ->
  loadPose_param server "camera_mount_to_camera_guess" = Ok g1 -> loadPose_param server "target_mount_to_target_guess" = Ok g2 ->
  ms = [] \/ (exists o, In o ms /\ ~ can_reach o) ->
  kinematicExample load server (Some f) s1 s2 run1 run2 = UB.
Proof.
  intros L E1 E2 E3 H. rewrite example_eq, E1, E2, E3. cbn [bind].
  destruct H as [-> | H]; [ rewrite run_empty by exact L | rewrite run_unreachable by assumption ]; reflexivity.
Qed.
Lemma example_throws load server f s1 s2 run1 run2 :
  (loadMeasurements load f = Throw BadFile -> kinematicExample load server (Some f) s1 s2 run1 run2 = Throw BadFile) /\
  (forall ms, loadMeasurements load f = Ok ms ->
     (forall g, loadPose_param server "camera_mount_to_camera_guess" <> Ok g) \/ (forall g, loadPose_param server "target_mount_to_target_guess" <> Ok g) ->
     kinematicExample load server (Some f) s1 s2 run1 run2 = Throw InvalidParameter).
Proof.
  split; [ intros E; rewrite example_eq, E; reflexivity | ]. intros ms E H. rewrite example_eq, E. cbn [bind].
  destruct (ip_pose server "camera_mount_to_camera_guess") as [[g1 E1] | E1]; rewrite E1 in *; [ cbn [bind] | reflexivity ].
  destruct (ip_pose server "target_mount_to_target_guess") as [[g2 E2] | E2]; rewrite E2 in *; [ cbn [bind] | reflexivity ].
  destruct H as [H | H]; [ destruct (H g1 eq_refl) | destruct (H g2 eq_refl) ].
Qed.
Lemma example_none load server file s1 s2 run1 run2 : kinematicExample load server file s1 s2 run1 run2 = Ok None <-> file = None.
Proof.
  split; [ | intros ->; reflexivity ]. destruct file as [f | ]; [ | reflexivity ]. rewrite example_eq. intros H.
  repeat (apply bind_ok in H as (? & _ & H)). discriminate H.
Qed.

(** ** The positioner *)
Lemma positioner_fk s1 s2 a b : getFK0 (createTwoAxisPositioner s1 s2) [a; b] = Ok (positioner_tip a b).
Proof.
  unfold getFK0, getFK, createTwoAxisPositioner. cbn - [sin cos PI Rdiv iso_mul].
  unfold positioner_tip. f_equal.
  assert (C1 : cos (- PI / 2 + 0) = 0) by (replace (- PI / 2 + 0) with (- (PI / 2)) by field; rewrite cos_neg; apply cos_PI2).
  assert (S1 : sin (- PI / 2 + 0) = -1) by (replace (- PI / 2 + 0) with (- (PI / 2)) by field; rewrite sin_neg, sin_PI2; ring).
  assert (C2 : cos (- PI / 2 + 0 + b) = sin b).
  { rewrite cos_plus, C1, S1. ring. }
  assert (S2 : sin (- PI / 2 + 0 + b) = - cos b).
  { rewrite sin_plus, C1, S1. ring. }
  assert (C3 : cos (b - PI / 2) = sin b) by (rewrite cos_minus, cos_PI2, sin_PI2; ring).
  assert (S3 : sin (b - PI / 2) = - cos b) by (rewrite sin_minus, cos_PI2, sin_PI2; ring).
  unfold iso_mul, iso_rot, iso_trans, iso_id, aa_matrix, YamlSpec.rot_y, YamlSpec.rot_z, unitX, unitZ.
  cbn - [sin cos PI Rdiv]. rewrite C1, S1, C2, S2, C3, S3, cos_PI2, sin_PI2, cos_neg, sin_neg.
  replace (0 + 0 + a) with a by ring. replace (0 + 0) with 0 by ring. rewrite ?cos_0, ?sin_0.
  f_equal; [ apply mat3_ext | apply vec3_ext ]; cbn - [sin cos PI Rdiv]; field.
Qed.

(** ** Examples *)
Definition guess_server : string -> option xml := fun _ => Some long_params.
Definition still_run : kin_run := KRun (fun _ _ => 0) (fun _ _ m => (m, Summary true 0 0)) ex_cov_oracle (fun i => i) (fun i => i).
Lemma still_well : well still_run.
Proof. split; [ apply ex_oracle_lists | split; [ reflexivity | split; [ reflexivity | apply ex_oracle_sym ] ] ]. Qed.
Lemma still_keeps : keeps_frozen (run_solve still_run).
Proof. intros rs p m m' s E b i _. cbn in E. injection E as <- _. reflexivity. Qed.
Lemma guess_loads key : exists g, loadPose_param guess_server key = Ok g.
Proof. eexists. reflexivity. Qed.
Lemma entry_reach : can_reach (entry_meas 1) /\ rigid (km_camera_to_target (entry_meas 1)).
Proof. split; [ split; cbn; [ reflexivity | lia ] | ]. apply unit_rigid. unfold qnorm2. cbn. ring. Qed.
Lemma example_runs : exists rep, kinematicExample (one_entry (entry_node 1)) guess_server (Some "measurements.yaml"%string) 0 0 still_run still_run = Ok (Some rep).
Proof.
  destruct (guess_loads "camera_mount_to_camera_guess"%string) as [g1 E1], (guess_loads "target_mount_to_target_guess"%string) as [g2 E2].
  apply (example_succeeds _ _ _ _ _ _ _ [entry_meas 1] g1 g2 still_well still_well (entry_loads 1 _) E1 E2); [ discriminate | ].
  intros o [<- | []]. exact entry_reach.
Qed.
Lemma compare_example : exists r st, (dof (createTwoAxisPositioner 0 0) <= rows (kr_target_chain_dh_offsets r))%nat /\
  rigid_estimate (result_estimate r) /\ run_cmp 0 0 [entry_meas 1] still_run r = Ok st.
Proof.
  destruct (guess_loads "camera_mount_to_camera_guess"%string) as [g1 _].
  destruct still_well as (L & C & G & Sy).
  destruct (run_succeeds 0 0 [entry_meas 1] g1 g1 still_run all_rows L C G Sy) as (r & st & E & K).
  - discriminate.
  - intros o [<- | []]. exact entry_reach.
  - destruct (run_shape _ _ _ _ _ _ _ _ L E) as (A & _ & B & _). exists r, st. auto.
Qed.
