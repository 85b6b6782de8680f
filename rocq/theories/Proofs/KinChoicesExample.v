(** Concrete data for C115: one joint with one offset to find, and what its best value depends on. *)
From Coq Require Import Reals Lra ZArith Arith Lia String List Permutation.
From Verif.Base Require Import Geom Outcome Matrix.
From Verif.Model Require Import Pose Covariance Solver HandEye DhChain LocalParam Kinematic.
From Verif.Spec Require Import PinHole PnpSpec Frames DhSpec KinSpec KinReport OracleSpec UniqueSpec SameDataSpec KinUniqueSpec KinFitSpec KinChoicesSpec.
From Verif.Proofs Require Import GeomLemmas RotLemmas AngleAxisLemmas PoseProofs DhProofs KinematicProofs KinematicCall SameDataProofs KinFitProofs KinChoicesProofs.
Import ListNotations.
Local Open Scope R_scope.

Definition one_chain : dh_chain := DHChain [mk_dh_transform_unnamed (V4 0 0 0 0) REVOLUTE 0] iso_id.
Definition one_free (turn : bool) : nat := if turn then 1%nat else 2%nat.
Definition one_mask (turn : bool) : list Z := if turn then [0; 2; 3]%Z else [0; 1; 3]%Z.
Definition three : list Z := [0; 1; 2]%Z.
Definition one_common (turn : bool) (X : iso) (sd : R) : kin_common :=
  KC one_chain fixed_chain X iso_id iso_id [one_mask turn; []; three; three; three; three; three; three] sd sd
    "camera"%string "target"%string "base"%string.
Definition one_offsets (turn : bool) (x : R) : matrix := Mat 1 4 (fun _ j => if Nat.eqb j (one_free turn) then x else 0).
Definition one_estimate (turn : bool) (X : iso) (x : R) : kin_estimate := KE X iso_id iso_id (one_offsets turn x) (no_offsets 0).

Lemma turns_id : turns_enough iso_id.
Proof. split; [ apply rigid_id | left; reflexivity ]. Qed.
Lemma one_masks turn X sd : masks_fit (one_common turn X sd).
Proof.
  split; [ reflexivity | ]. intros k m z E Hz.
  do 8 (destruct k as [|k]; [ destruct turn; injection E as <-; cbn in Hz; cbn; lia | ]). destruct k; discriminate E.
Qed.
Lemma pose_masked turn X sd k i : (2 <= k < 8)%nat -> (i < 3)%nat -> masked (one_common turn X sd) k i.
Proof.
  intros Hk Hi. unfold masked. do 2 (destruct k as [|k]; [ lia | ]). do 6 (destruct k as [|k]; [ cbn; lia | ]). lia.
Qed.
Lemma offset_masked turn X sd i : masked (one_common turn X sd) 0 i <-> (i < 4)%nat /\ i <> one_free turn.
Proof. unfold masked. destruct turn; cbn; split; [ intros H; lia | intros H; lia | intros H; lia | intros H; lia ]. Qed.
Lemma one_found turn X sd e : turns_enough X -> may_find (one_common turn X sd) e <-> exists x, same_estimate e (one_estimate turn X x).
Proof.
  intros TX. set (com := one_common turn X sd).
  assert (St : forall m, may_choose com m -> same_estimate (stored_estimate com m) (one_estimate turn X (m 0%nat (one_free turn)))).
  { intros m M.
    assert (K : forall k, (2 <= k < 8)%nat -> read3 m k = read3 (kin_memory0 com) k).
    { intros k Hk. unfold read3. rewrite !(M k) by (try lia; try (left; apply pose_masked; lia); unfold block_size; do 2 (destruct k as [|k]; [ lia | ]); lia). reflexivity. }
    destruct (memory0_read com) as (G2 & G4 & G6).
    unfold stored_estimate. rewrite !K by lia. rewrite G2, G4, G6. cbn [com one_common kc_camera_mount_to_camera_guess kc_target_mount_to_target_guess kc_camera_base_to_target_base_guess].
    rewrite !guess_stored by (exact TX || apply turns_id).
    split; [ reflexivity | split; [ reflexivity | split; [ reflexivity | ] ] ]. cbn [one_estimate ke_camera_offsets ke_target_offsets].
    split; (split; [ reflexivity | split; [ reflexivity | ] ]); cbn [rows cols]; intros i j Hi Hj.
    - assert (i = 0)%nat by (cbn in Hi; lia). subst i. cbn [ent one_offsets]. change (dof (kc_camera_chain com)) with 1%nat.
      replace (j * 1 + 0)%nat with j by lia. destruct (Nat.eqb_spec j (one_free turn)) as [->|N]; [ reflexivity | ].
      rewrite M; [ reflexivity | lia | exact Hj | ]. left. apply offset_masked. auto.
    - cbn in Hi. lia. }
  split.
  - intros (m & M & SE). exists (m 0%nat (one_free turn)). exact (same_estimate_trans _ _ _ SE (St m M)).
  - intros (x & SE). set (m := fun k i => if andb (Nat.eqb k 0) (Nat.eqb i (one_free turn)) then x else kin_memory0 com k i).
    assert (M : may_choose com m).
    { intros k i Hk Hi H. unfold m. destruct k as [|k]; [ | reflexivity ]. cbn [Nat.eqb andb].
      destruct (Nat.eqb_spec i (one_free turn)) as [->|N]; [ | reflexivity ]. exfalso.
      destruct H as [H|[[_ H]|[H _]]]; [ apply offset_masked in H; lia | discriminate H | discriminate H ]. }
    exists m. split; [ exact M | ]. apply same_estimate_trans with (one_estimate turn X x); [ exact SE | ].
    apply same_estimate_sym. pose proof (St m M) as S. unfold m at 2 in S. rewrite !Nat.eqb_refl in S. exact S.
Qed.
Lemma one_fk turn x : getFK one_chain [0] (one_offsets turn x) =
  Ok (dh_matrix 0 (if turn then x else 0) (if turn then 0 else x) 0).
Proof.
  rewrite getFK_unfold. cbn [length dof one_chain transforms one_offsets rows Nat.ltb Nat.leb seq foldM fk_step].
  unfold fk_step. cbn. rewrite !Rplus_0_l, !Rplus_0_r.
  destruct turn; cbn; rewrite code_product, iso_mul_id_l; reflexivity.
Qed.
Lemma fixed_fk : getFK fixed_chain [] (no_offsets 0) = Ok iso_id.
Proof. reflexivity. Qed.
Lemma one_prior turn x sd : offset_error sd (one_offsets turn x) = / 2 * (x / sd * (x / sd)).
Proof. unfold offset_error, half_squares. destruct turn; cbn; unfold Rdiv; ring. Qed.
Lemma no_prior sd : offset_error sd (no_offsets 0) = 0.
Proof. apply offset_error_none. Qed.
(** A best value of the one offset gives a best estimate. *)
Lemma one_whole turn X sd errors x c v : errors (one_estimate turn X x) = [Ok v] ->
  whole_error (one_common turn X sd) errors (one_estimate turn X x) c <-> c = half_squares v + / 2 * (x / sd * (x / sd)).
Proof.
  intros E. unfold whole_error. cbn [one_estimate ke_camera_offsets ke_target_offsets one_common kc_camera_chain_offset_stdev kc_target_chain_offset_stdev].
  rewrite E, one_prior, no_prior. split.
  - intros (vs & F & ->). inversion F as [|y w ys ws Ey F']; subst. inversion F'; subst. injection Ey as <-. cbn. rewrite app_nil_r. ring.
  - intros ->. exists [v]. split; [ constructor; [ reflexivity | constructor ] | ]. cbn. rewrite app_nil_r. ring.
Qed.
Lemma one_best turn X sd errors (v : R -> list R) x : turns_enough X -> stable errors ->
  (forall y, errors (one_estimate turn X y) = [Ok (v y)]) ->
  best_estimate (one_common turn X sd) errors (one_estimate turn X x) <->
  forall y, half_squares (v x) + / 2 * (x / sd * (x / sd)) <= half_squares (v y) + / 2 * (y / sd * (y / sd)).
Proof.
  intros TX St Ev. split.
  - intros (_ & c & W & B) y. apply (one_whole turn X sd errors x c (v x) (Ev x)) in W. subst c.
    apply (B (one_estimate turn X y)); [ apply one_found; [ exact TX | ]; exists y; repeat split; reflexivity | ].
    apply (one_whole turn X sd errors y _ (v y) (Ev y)). reflexivity.
  - intros B. split; [ apply one_found; [ exact TX | ]; exists x; repeat split; reflexivity | ].
    eexists. split; [ apply (one_whole turn X sd errors x _ (v x) (Ev x)); reflexivity | ].
    intros e' c' F' W'. apply one_found in F' as (y & SE); [ | exact TX ].
    apply (whole_same _ _ _ _ _ St SE) in W'; [ | reflexivity | reflexivity ].
    apply (one_whole turn X sd errors y _ (v y) (Ev y)) in W'. rewrite W'. apply B.
Qed.

(** ** Pictures *)
Definition one_k (m : R) : intrinsics := Intr m m 0 0.
Definition one_images (turn : bool) (s m : R) (image : vec2) (sd : R) : kin_problem2D3D :=
  KP2 [KObs [0] [] [Corr image (V3 s 0 s)]] (one_k m) (one_common turn iso_id sd).
Definition length_values (s m : R) (x : R) : list R := [m * (s - x) / s; 0].
Definition angle_values (x : R) : list R := [cos x; 1 - sin x].
Lemma depth_enough s : 1 <= s -> 1 / 10 ^ 10 < s.
Proof. intros H. apply Rlt_le_trans with 1; [ lra | exact H ]. Qed.
Lemma inv_id : iso_inv iso_id = iso_id.
Proof. rewrite <- (iso_mul_id_l (iso_inv iso_id)). apply iso_inv_r, rigid_id. Qed.
Lemma length_error s m sd x : 1 <= s -> image_errors (one_images false s m (V2 0 0) sd) (one_estimate false iso_id x) = [Ok (length_values s m x)].
Proof.
  intros Hs. unfold image_errors, one_images. cbn [k2_intr k2_common k2_observations kin_pairs flat_map map app ko_correspondence_set]. unfold reproject.
  cbn [fst snd one_common kc_camera_chain kc_target_chain ko_camera_chain_joints ko_target_chain_joints one_estimate ke_camera_offsets ke_target_offsets].
  rewrite one_fk, fixed_fk. cbn [bind in_target in_image ke_camera_mount_to_camera ke_camera_base_to_target_base ke_target_mount_to_target].
  unfold kin_target_in_camera. rewrite !iso_mul_id_r.
  assert (V : iso_app (iso_inv (dh_matrix 0 0 x 0)) (V3 s 0 s) = V3 (s - x) 0 s).
  { unfold dh_matrix. rewrite cos_0, sin_0. unfold iso_app, iso_inv, mvec, mT, vadd, vneg. cbn. apply vec3_ext; cbn; ring. }
  rewrite V, eig_pinhole by (apply depth_enough, Hs). unfold pinhole, length_values. cbn. do 3 f_equal; [ | f_equal ]; field; lra.
Qed.
Lemma angle_error s sd x : 1 <= s -> image_errors (one_images true s 1 (V2 0 (-1)) sd) (one_estimate true iso_id x) = [Ok (angle_values x)].
Proof.
  intros Hs. unfold image_errors, one_images. cbn [k2_intr k2_common k2_observations kin_pairs flat_map map app ko_correspondence_set]. unfold reproject.
  cbn [fst snd one_common kc_camera_chain kc_target_chain ko_camera_chain_joints ko_target_chain_joints one_estimate ke_camera_offsets ke_target_offsets].
  rewrite one_fk, fixed_fk. cbn [bind in_target in_image ke_camera_mount_to_camera ke_camera_base_to_target_base ke_target_mount_to_target].
  unfold kin_target_in_camera. rewrite !iso_mul_id_r.
  assert (V : iso_app (iso_inv (dh_matrix 0 x 0 0)) (V3 s 0 s) = V3 (s * cos x) (- (s * sin x)) s).
  { unfold dh_matrix. rewrite cos_0, sin_0. unfold iso_app, iso_inv, mvec, mT, vadd, vneg. cbn. apply vec3_ext; cbn; ring. }
  rewrite V, eig_pinhole by (apply depth_enough, Hs). unfold pinhole, angle_values. cbn. do 3 f_equal; [ | f_equal ]; field; lra.
Qed.
Lemma length_cost s m x : half_squares (length_values s m x) = / 2 * (m * (s - x) / s * (m * (s - x) / s)).
Proof. unfold length_values. rewrite half2. ring. Qed.
Lemma angle_cost x : half_squares (angle_values x) = 1 - sin x.
Proof. unfold angle_values. rewrite half2. pose proof (sin2_cos2 x) as E. unfold Rsqr in E. nra. Qed.
Lemma length_best s m sd x : 1 <= s ->
  best_estimate (one_common false iso_id sd) (image_errors (one_images false s m (V2 0 0) sd)) (one_estimate false iso_id x) <->
  forall y, m * (s - x) / s * (m * (s - x) / s) + x / sd * (x / sd) <= m * (s - y) / s * (m * (s - y) / s) + y / sd * (y / sd).
Proof.
  intros Hs. rewrite (one_best false iso_id sd _ (length_values s m) x turns_id (image_stable _)) by (intros y; apply length_error, Hs).
  split; intros B y; specialize (B y); rewrite !length_cost in *; lra.
Qed.
Lemma angle_best s sd x : 1 <= s ->
  best_estimate (one_common true iso_id sd) (image_errors (one_images true s 1 (V2 0 (-1)) sd)) (one_estimate true iso_id x) <->
  forall y, 1 - sin x + / 2 * (x / sd * (x / sd)) <= 1 - sin y + / 2 * (y / sd * (y / sd)).
Proof.
  intros Hs. rewrite (one_best true iso_id sd _ angle_values x turns_id (image_stable _)) by (intros y; apply angle_error, Hs).
  split; intros B y; specialize (B y); rewrite !angle_cost in *; lra.
Qed.
Lemma best_same com errors e e' : stable errors -> cols (ke_camera_offsets e') = 4%nat -> cols (ke_target_offsets e') = 4%nat -> same_estimate e e' ->
  best_estimate com errors e <-> best_estimate com errors e'.
Proof.
  intros St C0 C1 SE. pose proof SE as (_ & _ & _ & (_ & K0 & _) & (_ & K1 & _)). split; intros (F & c & W & B).
  - split; [ destruct F as (m & M & S); exists m; split; [ exact M | exact (same_estimate_trans _ _ _ (same_estimate_sym _ _ SE) S) ] | ].
    exists c. split; [ apply (whole_same _ _ _ _ _ St SE C0 C1), W | exact B ].
  - split; [ destruct F as (m & M & S); exists m; split; [ exact M | exact (same_estimate_trans _ _ _ SE S) ] | ].
    exists c. split; [ apply (whole_same _ _ _ _ _ St SE C0 C1), W | exact B ].
Qed.

(** ** Another unit, or larger pictures *)
Definition twice : kin_choices := KinChoices 2 iso_id iso_id iso_id iso_id.
Definition unchanged : kin_choices := KinChoices 1 iso_id iso_id iso_id iso_id.
Definition doubled (turn : bool) (x : R) : R := if turn then x else 2 * x.
Lemma twice_sensible : kin_sensible twice.
Proof. split; [ cbn; lra | repeat split; apply rigid_id ]. Qed.
Lemma unchanged_sensible : kin_sensible unchanged.
Proof. split; [ cbn; lra | repeat split; apply rigid_id ]. Qed.
Lemma unit_one T : in_unit 1 T = T.
Proof. apply iso_ext; [ reflexivity | ]. unfold in_unit, vscale. cbn. apply vec3_ext; cbn; ring. Qed.
Lemma anew_identity s : let h := KinChoices s iso_id iso_id iso_id iso_id in
  forall T, camera_anew h T = in_unit s T /\ target_anew h T = in_unit s T /\ bases_anew h T = in_unit s T.
Proof.
  intros h T. unfold camera_anew, target_anew, bases_anew, h. cbn [kin_unit kin_camera kin_target old_camera_base old_target_base].
  rewrite inv_id, !iso_mul_id_r, iso_mul_id_l. auto.
Qed.
Lemma one_anew s turn x : let h := KinChoices s iso_id iso_id iso_id iso_id in
  same_estimate (estimate_anew h (one_estimate turn iso_id x)) (one_estimate turn iso_id (if turn then x else s * x)).
Proof.
  intros h. destruct (anew_identity s iso_id) as (A & B & C). fold h in A, B, C.
  unfold estimate_anew. cbn [one_estimate ke_camera_mount_to_camera ke_target_mount_to_target ke_camera_base_to_target_base ke_camera_offsets ke_target_offsets].
  split; [ cbn; rewrite A; apply in_unit_id | split; [ cbn; rewrite B; apply in_unit_id | split; [ cbn; rewrite C; apply in_unit_id | ] ] ].
  split; (split; [ reflexivity | split; [ reflexivity | ] ]); cbn [ke_camera_offsets ke_target_offsets]; intros i j Hi Hj.
  - cbn [offsets_anew one_offsets ent rows cols kin_unit h] in *. destruct turn; do 4 (destruct j as [|j]; [ cbn; ring | ]); lia.
  - cbn in Hi. lia.
Qed.
Lemma chain_same s : chain_anew iso_id s one_chain one_chain /\ chain_anew iso_id s fixed_chain fixed_chain.
Proof.
  split; (split; [ | cbn [base_offset one_chain fixed_chain]; rewrite in_unit_id, iso_mul_id_l; reflexivity ]).
  - constructor; [ | constructor ]. split; [ reflexivity | ]. cbn. f_equal; ring.
  - constructor.
Qed.
Lemma one_frames s turn sd sd' : frames_anew (KinChoices s iso_id iso_id iso_id iso_id) (one_common turn iso_id sd) (one_common turn iso_id sd').
Proof.
  destruct (chain_same s) as [C0 C1]. destruct (anew_identity s iso_id) as (A & B & C).
  split; [ exact C0 | split; [ exact C1 | ] ]. split; [ apply rigid_id | split; [ apply rigid_id | split; [ intros k i; reflexivity | ] ] ].
  assert (P : forall k f, (k = 2 \/ k = 4 \/ k = 6)%nat -> f iso_id = in_unit s iso_id -> pose_anew (one_common turn iso_id sd) k f iso_id iso_id).
  { intros k f Hk E. right. left. split; [ apply turns_id | split; [ apply turns_id | split; [ rewrite E, in_unit_id; reflexivity | ] ] ].
    intros i Hi. split; apply pose_masked; lia. }
  split; [ apply P; auto | split; apply P; auto ].
Qed.
Lemma one_images_anew s m turn image sd sd' : 0 < s ->
  images_anew (KinChoices s iso_id iso_id iso_id iso_id) m (V2 0 0) (one_images turn 1 1 image sd) (one_images turn s m (V2 (m * px image) (m * py image)) sd').
Proof.
  intros Hs. split; [ unfold one_images, one_k, resized_camera; cbn; f_equal; ring | ]. eexists. split; [ apply Permutation_refl | ].
  constructor; [ | constructor ]. split; [ | split; [ | split ] ].
  - split; [ reflexivity | ]. intros [|i] t v Et Ev; [ | destruct i; discriminate Et ]. injection Et as <-. injection Ev as <-. reflexivity.
  - split; [ reflexivity | ]. intros [|i] t v Et Ev; discriminate Et.
  - cbn [snd in_target kin_target kin_unit]. rewrite inv_id. unfold iso_app, iso_id, mvec, vadd, vscale. cbn. apply vec3_ext; cbn; ring.
  - cbn [snd in_image]. unfold resized. cbn. f_equal; ring.
Qed.
Lemma half_best : best_estimate (one_common false iso_id 1) (image_errors (one_images false 1 1 (V2 0 0) 1)) (one_estimate false iso_id (1/2)).
Proof. apply length_best; [ lra | ]. intros y. pose proof (Rle_0_sqr (1 - 2 * y)). unfold Rsqr in *. nra. Qed.
Lemma resized_refuted : exists (h : kin_choices) (m : R) (d : vec2) (p p' : kin_problem2D3D) (e : kin_estimate),
  kin_sensible h /\ kin_unit h = 1 /\ kin_camera h = iso_id /\ 0 < m /\
  k2_common p' = k2_common p /\ frames_anew h (k2_common p) (k2_common p') /\ images_anew h m d p p' /\
  best_estimate (k2_common p) (image_errors p) e /\ ~ best_estimate (k2_common p') (image_errors p') (estimate_anew h e).
Proof.
  exists unchanged, 2, (V2 0 0), (one_images false 1 1 (V2 0 0) 1), (one_images false 1 2 (V2 0 0) 1), (one_estimate false iso_id (1/2)).
  split; [ apply unchanged_sensible | split; [ reflexivity | split; [ reflexivity | split; [ lra | split; [ reflexivity | ] ] ] ] ].
  split; [ apply one_frames | split; [ | split; [ apply half_best | ] ] ].
  - pose proof (one_images_anew 1 2 false (V2 0 0) 1 1 ltac:(lra)) as H. cbn [px py] in H. rewrite !Rmult_0_r in H. exact H.
  - intros B. apply (best_same _ _ _ (one_estimate false iso_id (1 * (1/2))) (image_stable _) eq_refl eq_refl (one_anew 1 false (1/2))) in B.
    pose proof (proj1 (length_best 1 2 1 _ ltac:(lra)) B (4/5)). lra.
Qed.
Lemma unit_length_refuted sd : 0 < sd -> sd <> 2 ->
  ~ best_estimate (one_common false iso_id sd) (image_errors (one_images false 2 1 (V2 0 0) sd)) (estimate_anew twice (one_estimate false iso_id (1/2))).
Proof.
  intros Hsd N B. apply (best_same _ _ _ (one_estimate false iso_id (2 * (1/2))) (image_stable _) eq_refl eq_refl (one_anew 2 false (1/2))) in B.
  pose proof (proj1 (length_best 2 1 sd _ ltac:(lra)) B) as B'. clear B. rename B' into B. set (k := / sd * / sd).
  assert (Hk : 0 < k) by (apply Rmult_lt_0_compat; apply Rinv_0_lt_compat, Hsd).
  specialize (B (2 / (1 + 4 * k))). set (y := 2 / (1 + 4 * k)) in *.
  assert (E : y * (1 + 4 * k) = 2) by (unfold y; field; lra).
  unfold Rdiv in B. replace (y * / sd * (y * / sd)) with (y * y * k) in B by (unfold k; ring).
  replace (2 * (1 * / 2) * / sd * (2 * (1 * / 2) * / sd)) with k in B by (unfold k; field; lra).
  assert (Q : (y - 1) * (y - 1) * (1 + 4 * k) <= 0) by nra.
  assert (Y : y = 1).
  { pose proof (Rle_0_sqr (y - 1)) as S. unfold Rsqr in S. destruct (Req_dec y 1) as [?|Ny]; [ assumption | ].
    assert (0 < (y - 1) * (y - 1)) by (assert (y - 1 <> 0) by lra; nra). nra. }
  rewrite Y in E. assert (Ks : k = / 4) by lra. apply N.
  assert (E2 : sd * sd = 4) by (apply Rmult_eq_reg_r with k; [ unfold k at 1; rewrite Ks; field; lra | lra ]). nra.
Qed.
Lemma angle_exists : exists x, best_estimate (one_common true iso_id 1) (image_errors (one_images true 1 1 (V2 0 (-1)) 1)) (one_estimate true iso_id x) /\ cos x = x.
Proof.
  set (f := fun y => 1 - sin y + / 2 * (y * y)).
  assert (Df : derivable f) by (unfold f; reg).
  destruct (continuity_ab_min f (-2) 2) as (x & Bx & Ix); [ lra | intros c _; apply derivable_continuous_pt, Df | ].
  assert (All : forall y, f x <= f y).
  { intros y. destruct (Rle_dec (-2) y) as [L1|L1], (Rle_dec y 2) as [L2|L2]; try (apply Bx; split; assumption).
    all: apply Rle_trans with (f 0); [ apply Bx; lra | unfold f; rewrite sin_0; pose proof (SIN_bound y); nra ]. }
  exists x. split.
  - apply angle_best; [ lra | ]. intros y. specialize (All y). unfold f in All. unfold Rdiv. rewrite Rinv_1, !Rmult_1_r. exact All.
  - assert (D0 : derive_pt f x (Df x) = 0).
    { assert (Hx : -10 < x < 10) by lra. apply (deriv_minimum f (-10) 10 x (Df x)); [ lra | lra | ]. intros y _ _. apply All. }
    assert (D1 : derive_pt f x (Df x) = - cos x + x).
    { rewrite derive_pt_eq. unfold f. replace (- cos x + x) with (0 - cos x + (0 * (x * x) + / 2 * (1 * x + x * 1))) by field.
      apply derivable_pt_lim_plus; [ apply derivable_pt_lim_minus; [ apply derivable_pt_lim_const | apply derivable_pt_lim_sin ] | ].
      apply (derivable_pt_lim_mult (fct_cte (/2)) (fun y => y * y)); [ apply derivable_pt_lim_const | ].
      apply (derivable_pt_lim_mult id id); apply derivable_pt_lim_id. }
    lra.
Qed.
Lemma angle_stationary k x : (forall y, 1 - sin x + k * (x * x) <= 1 - sin y + k * (y * y)) -> cos x = 2 * k * x.
Proof.
  intros All. set (f := fun y => 1 - sin y + k * (y * y)).
  assert (Df : derivable f) by (unfold f; reg).
  assert (D0 : derive_pt f x (Df x) = 0).
  { apply (deriv_minimum f (x - 1) (x + 1) x (Df x)); [ lra | lra | ]. intros y _ _. apply All. }
  assert (D1 : derive_pt f x (Df x) = - cos x + 2 * k * x).
  { rewrite derive_pt_eq. unfold f. replace (- cos x + 2 * k * x) with (0 - cos x + (0 * (x * x) + k * (1 * x + x * 1))) by ring.
    apply derivable_pt_lim_plus; [ apply derivable_pt_lim_minus; [ apply derivable_pt_lim_const | apply derivable_pt_lim_sin ] | ].
    apply (derivable_pt_lim_mult (fct_cte k) (fun y => y * y)); [ apply derivable_pt_lim_const | ].
    apply (derivable_pt_lim_mult id id); apply derivable_pt_lim_id. }
  lra.
Qed.
Lemma unit_refuted : forall sd', 0 < sd' -> exists (h : kin_choices) (p p' : kin_problem2D3D) (e : kin_estimate),
  kin_sensible h /\ kin_unit h = 2 /\ old_camera_base h = iso_id /\ old_target_base h = iso_id /\ kin_camera h = iso_id /\ kin_target h = iso_id /\
  kc_camera_chain_offset_stdev (k2_common p) = 1 /\ kc_target_chain_offset_stdev (k2_common p) = 1 /\
  kc_camera_chain_offset_stdev (k2_common p') = sd' /\ kc_target_chain_offset_stdev (k2_common p') = sd' /\
  frames_anew h (k2_common p) (k2_common p') /\ images_anew h 1 (V2 0 0) p p' /\
  best_estimate (k2_common p) (image_errors p) e /\ ~ best_estimate (k2_common p') (image_errors p') (estimate_anew h e).
Proof.
  intros sd Hsd. exists twice. destruct (Req_dec sd 2) as [->|N].
  - destruct angle_exists as (x & B & C).
    exists (one_images true 1 1 (V2 0 (-1)) 1), (one_images true 2 1 (V2 0 (-1)) 2), (one_estimate true iso_id x).
    split; [ apply twice_sensible | ]. do 9 (split; [ reflexivity | ]). split; [ apply one_frames | split; [ | split; [ exact B | ] ] ].
    + pose proof (one_images_anew 2 1 true (V2 0 (-1)) 1 2 ltac:(lra)) as H. cbn [px py] in H. rewrite !Rmult_1_l in H. exact H.
    + intros B'. apply (best_same _ _ _ (one_estimate true iso_id x) (image_stable _) eq_refl eq_refl (one_anew 2 true x)) in B'.
      pose proof (proj1 (angle_best 2 2 _ ltac:(lra)) B') as B2.
      assert (Q : cos x = 2 * (/ 8) * x).
      { apply angle_stationary. intros y. specialize (B2 y). unfold Rdiv in B2. lra. }
      assert (x = 0) by lra. subst x. rewrite cos_0 in C. lra.
  - exists (one_images false 1 1 (V2 0 0) 1), (one_images false 2 1 (V2 0 0) sd), (one_estimate false iso_id (1/2)).
    split; [ apply twice_sensible | ]. do 9 (split; [ reflexivity | ]). split; [ apply one_frames | split; [ | split; [ apply half_best | ] ] ].
    + pose proof (one_images_anew 2 1 false (V2 0 0) 1 sd ltac:(lra)) as H. cbn [px py] in H. rewrite !Rmult_0_r in H. exact H.
    + exact (unit_length_refuted sd Hsd N).
Qed.

(** ** Another point of the camera *)
Lemma trans_mul a b : iso_mul (iso_trans a) (iso_trans b) = iso_trans (vadd a b).
Proof. apply iso_ext; [ apply mmul_I_l | ]. unfold iso_mul, iso_trans, mvec, vadd, I3. cbn. apply vec3_ext; cbn; ring. Qed.
Lemma trans_inv a : iso_inv (iso_trans a) = iso_trans (vneg a).
Proof. apply iso_ext; [ reflexivity | ]. unfold iso_inv, iso_trans, mvec, vneg, I3, mT. cbn. apply vec3_ext; cbn; ring. Qed.
Definition quarter : mat3 := M3 0 (-1) 0 1 0 0 0 0 1.
Definition aside : vec3 := V3 1 0 0.
Definition one_poses (X T : iso) : kin_problemPose6D := KP6 [KMeas T [0] []] (one_common false X 1).
Definition shifted : kin_choices := KinChoices 1 iso_id iso_id (iso_trans aside) iso_id.
Lemma quarter_rot : is_rot quarter.
Proof. split; [ unfold quarter, mmul, mT, I3; cbn; f_equal; ring | unfold quarter, det; cbn; ring ]. Qed.
Lemma shifted_sensible : kin_sensible shifted.
Proof. split; [ cbn; lra | split; [ apply rigid_id | split; [ apply rigid_id | split; [ apply rigid_trans | apply rigid_id ] ] ] ]. Qed.
Lemma turns_trans v : turns_enough (iso_trans v).
Proof. split; [ apply rigid_trans | left; reflexivity ]. Qed.
Definition far : R := angular_distance (quat_of_mat quarter) (quat_of_mat I3).
Lemma pose_values v t x w : pose_errors w (one_poses (iso_trans v) (Iso quarter t)) (one_estimate false (iso_trans v) x) =
  [Ok [vx t - vy v; vy t + (vx v + x); vz t + vz v; w * far]].
Proof.
  unfold pose_errors, one_poses. cbn [k6_common k6_observations map]. unfold KinReport.pose_error.
  cbn [one_common kc_camera_chain kc_target_chain km_camera_chain_joints km_target_chain_joints one_estimate ke_camera_offsets ke_target_offsets].
  rewrite one_fk, fixed_fk. cbn [bind km_camera_to_target ke_camera_mount_to_camera ke_camera_base_to_target_base ke_target_mount_to_target].
  unfold kin_target_in_camera. rewrite !iso_mul_id_r.
  assert (D : dh_matrix 0 0 x 0 = iso_trans (V3 x 0 0)).
  { unfold dh_matrix, iso_trans, I3. rewrite cos_0, sin_0. f_equal; f_equal; ring. }
  rewrite D. change (ke_camera_mount_to_camera (one_estimate false (iso_trans v) x)) with (iso_trans v).
  rewrite trans_mul, !trans_inv. unfold far.
  assert (P : tr (iso_mul (Iso quarter t) (iso_trans (vneg (vneg (vadd (V3 x 0 0) v))))) = V3 (vx t - vy v) (vy t + (vx v + x)) (vz t + vz v)).
  { unfold iso_mul, iso_trans, mvec, vadd, vneg, quarter. cbn. apply vec3_ext; cbn; ring. }
  rewrite P. reflexivity.
Qed.
Lemma pose_cost v t x w : half_squares [vx t - vy v; vy t + (vx v + x); vz t + vz v; w * far] =
  / 2 * ((vx t - vy v) * (vx t - vy v) + (vy t + (vx v + x)) * (vy t + (vx v + x)) + (vz t + vz v) * (vz t + vz v) + w * far * (w * far)).
Proof. unfold half_squares. cbn. ring. Qed.
Lemma camera_origin_refuted : exists (h : kin_choices) (p p' : kin_problemPose6D) (e : kin_estimate),
  kin_sensible h /\ kin_unit h = 1 /\ old_camera_base h = iso_id /\ old_target_base h = iso_id /\ kin_target h = iso_id /\
  lin (kin_camera h) = I3 /\
  setup_anew h 1 (k6_common p) (k6_common p') /\ poses_anew h p p' /\
  forall w, best_estimate (k6_common p) (pose_errors w p) e /\ ~ best_estimate (k6_common p') (pose_errors w p') (estimate_anew h e).
Proof.
  exists shifted, (one_poses (iso_trans vzero) (Iso quarter vzero)), (one_poses (iso_trans aside) (Iso quarter (V3 (-1) 0 0))), (one_estimate false (iso_trans vzero) 0).
  assert (Z : iso_trans vzero = iso_id) by reflexivity.
  split; [ apply shifted_sensible | ]. do 5 (split; [ reflexivity | ]).
  split; [ | split ].
  - split; [ | split; left; (split; [ cbn; ring | left; reflexivity ]) ].
    destruct (chain_same 1) as [C0 C1]. split; [ exact C0 | split; [ exact C1 | ] ].
    split; [ apply rigid_id | split; [ apply rigid_id | split; [ intros k i; reflexivity | ] ] ].
    split; [ | split ].
    + right. left. split; [ apply turns_trans | split; [ apply turns_trans | split ] ].
      * cbn [one_poses k6_common one_common kc_camera_mount_to_camera_guess]. rewrite Z. unfold camera_anew. cbn [shifted kin_unit kin_camera].
        rewrite in_unit_id, iso_mul_id_l. reflexivity.
      * intros i Hi. split; apply pose_masked; lia.
    + right. right. split; [ | reflexivity ]. intros T. unfold target_anew. cbn [shifted kin_unit kin_target]. rewrite unit_one, iso_mul_id_r. reflexivity.
    + right. right. split; [ | reflexivity ]. intros T. unfold bases_anew. cbn [shifted kin_unit old_camera_base old_target_base].
      rewrite unit_one, inv_id, iso_mul_id_r, iso_mul_id_l. reflexivity.
  - exists [KMeas (Iso quarter (V3 (-1) 0 0)) [0] []]. split; [ apply Permutation_refl | ]. constructor; [ | constructor ].
    split; [ | split; [ | split ] ].
    + split; [ reflexivity | ]. intros [|i] t v Et Ev; [ | destruct i; discriminate Et ]. injection Et as <-. injection Ev as <-. reflexivity.
    + split; [ reflexivity | ]. intros [|i] t v Et Ev; discriminate Et.
    + apply quarter_rot.
    + cbn [km_camera_to_target shifted kin_unit kin_target kin_camera]. rewrite unit_one, iso_mul_id_r, trans_inv.
      unfold iso_mul, iso_trans, aside, vneg, vadd, mvec, mmul, quarter, I3, vzero. cbn. apply iso_ext; cbn; f_equal; ring.
  - intros w. split.
    + apply (one_best false (iso_trans vzero) 1 _ (fun x => [vx vzero - vy vzero; vy vzero + (vx vzero + x); vz vzero + vz vzero; w * far]) 0);
        [ apply turns_trans | apply pose_stable | intros y; apply pose_values | ].
      intros y. rewrite !pose_cost. unfold vzero. cbn [vx vy vz]. pose proof (Rle_0_sqr y). unfold Rsqr in *. nra.
    + intros B. apply (best_same _ _ _ (one_estimate false (iso_trans aside) 0) (pose_stable _ _) eq_refl eq_refl) in B.
      2:{ split; [ | split; [ | split; [ | split ] ] ].
          - cbn. unfold camera_anew. cbn [shifted kin_unit kin_camera]. rewrite Z, in_unit_id, iso_mul_id_l. reflexivity.
          - cbn. unfold target_anew. cbn [shifted kin_unit kin_target]. rewrite unit_one, iso_mul_id_r. reflexivity.
          - cbn. unfold bases_anew. cbn [shifted kin_unit old_camera_base old_target_base]. rewrite unit_one, inv_id, iso_mul_id_r, iso_mul_id_l. reflexivity.
          - split; [ reflexivity | split; [ reflexivity | ] ]. intros i j Hi Hj. cbn. do 4 (destruct j as [|j]; [ cbn; ring | ]). cbn in Hj. lia.
          - split; [ reflexivity | split; [ reflexivity | ] ]. intros i j Hi Hj. cbn in Hi. lia. }
      pose proof (proj1 (one_best false (iso_trans aside) 1 _ (fun x => [vx (V3 (-1) 0 0) - vy aside; vy (V3 (-1) 0 0) + (vx aside + x); vz (V3 (-1) 0 0) + vz aside; w * far]) 0
        (turns_trans _) (pose_stable _ _) (fun y => pose_values aside (V3 (-1) 0 0) y w)) B (-1/2)) as Q.
      cbv beta in Q. rewrite !pose_cost in Q. unfold aside in Q. cbn [vx vy vz] in Q. lra.
Qed.
