(** Unknowns at which the derivatives of C83 and C84 are those of the residuals. *)
From Coq Require Import Reals Lra Lia List Bool Arith.
From Verif.Base Require Import Geom Outcome Matrix.
From Verif.Model Require Import Pose Solver HandEye BlockSolver MultiCamera Intrinsic DhChain Kinematic Pnp Jet Functors.
From Verif.Spec Require Import KinSpec DerivativeSpec.
From Verif.Proofs Require Import GeomLemmas RotLemmas AngleAxisLemmas MultiCameraProofs PnpProofs KinematicProofs DerivProofs KinDerivProofs ZeroTurnProofs.
Import ListNotations.
Local Open Scope R_scope.

(** A camera turned about its axis, in front of a target *)
Definition ex_he : values := fun b i =>
  match b, i with 0%nat, 2%nat => 1 | 1%nat, 5%nat => 2 | _, _ => 0 end.
Definition ex_he_cost : obs_cost vec2 := ObsCost (V2 0 0) zero_pose zero_pose (V3 1 0 0).
Lemma turn_z s : off_switch (V3 0 0 s) <-> s * s <> DBL_EPS.
Proof. unfold off_switch, dot. cbn [vx vy vz]. replace (0 * 0 + 0 * 0 + s * s) with (s * s) by ring. reflexivity. Qed.
Lemma eps_small : DBL_EPS < 1 / 2.
Proof. pose proof DBL_EPS_small. lra. Qed.
Lemma rotate_z s p : vz (aa_rotate_point (V3 0 0 s) p) = vz p.
Proof.
  unfold aa_rotate_point. cbv zeta. unfold dot. cbn [vx vy vz].
  replace (0 * 0 + 0 * 0 + s * s) with (s * s) by ring.
  destruct (Rlt_dec DBL_EPS (s * s)) as [ L | L ]; cbn.
  - assert (s <> 0) by (intros ->; pose proof DBL_EPS_pos; lra). assert (sqrt (s * s) <> 0).
    { intros Z. apply sqrt_eq_0 in Z; nra. }
    assert (Q : sqrt (s * s) * sqrt (s * s) = s * s) by (apply sqrt_sqrt; nra).
    set (q := sqrt (s * s)) in *. clearbody q.
    replace (0 * / q * vx p + 0 * / q * vy p + s * / q * vz p) with (s * / q * vz p) by ring.
    assert (E : s * / q * (s * / q) = 1) by (apply (Rmult_eq_reg_r (q * q)); [ field_simplify; [ nra | assumption ] | nra ]).
    replace (s * / q * (s * / q * vz p * (1 - cos q))) with (s * / q * (s * / q) * vz p * (1 - cos q)) by ring. rewrite E. ring.
  - ring.
Qed.

Lemma transform_z s t p : vz (transformPoint (V3 0 0 s) t p) = vz p + vz t.
Proof. unfold transformPoint. cbn [vz]. rewrite rotate_z. reflexivity. Qed.
Lemma ex_he_ok : off_switch (pose_aa (read_pose ex_he 0)) /\ off_switch (pose_aa (read_pose ex_he 1)) /\
  vz (getTargetPointInCamera ex_he_cost (read_pose ex_he 0) (read_pose ex_he 1)) <> 0.
Proof.
  split; [ | split ].
  - change (off_switch (V3 0 0 1)). apply turn_z. pose proof eps_small. lra.
  - change (off_switch (V3 0 0 0)). apply zero_off.
  - unfold getTargetPointInCamera. cbv zeta.
    change (pose_aa (read_pose ex_he 0)) with (V3 0 0 1). change (pose_aa (read_pose ex_he 1)) with (V3 0 0 0).
    unfold poseTransformPoint, ex_he_cost, zero_pose. cbn [oc_base_to_target_mount oc_camera_mount_to_base p_rx p_ry p_rz p_x p_y p_z].
    rewrite !transform_z. cbn. lra.
Qed.

(** The same for PnP *)
Definition ex_pnp_at : values := fun b i =>
  match b, i with 0%nat, 2%nat => 1 | 1%nat, 2%nat => 2 | _, _ => 0 end.
Lemma ex_pnp_at_ok : read3 ex_pnp_at 0 <> V3 0 0 0 /\
  vz (iso_app (pnp_transform (read3 ex_pnp_at 0, read3 ex_pnp_at 1)) (V3 1 0 0)) <> 1 / 10 ^ 10.
Proof.
  split; [ change (V3 0 0 1 <> V3 0 0 0); intros H; injection H; lra | ].
  change (read3 ex_pnp_at 0) with (V3 0 0 1). change (read3 ex_pnp_at 1) with (V3 0 0 2). unfold pnp_transform. cbn [fst snd].
  assert (N : norm (V3 0 0 1) = 1) by (unfold norm, dot; cbn [vx vy vz]; replace (0 * 0 + 0 * 0 + 1 * 1) with 1 by ring; apply sqrt_1).
  unfold normalized. replace (dot (V3 0 0 1) (V3 0 0 1)) with 1 by (unfold dot; cbn [vx vy vz]; ring).
  destruct (Rlt_dec 0 1); [ | lra ]. rewrite N. unfold iso_app, iso_mul, iso_trans, iso_rot, aa_matrix, mvec, mmul, I3, vadd, vscale; cbn. lra.
Qed.

(** The same for the kinematic calibration *)
Definition ex_kin_at : values := with_value ex_flat 5 2 1.
Definition ex_kin_camera : iso := Iso (M3 (cos 1) (- sin 1) 0 (sin 1) (cos 1) 0 0 0 1) (V3 0 0 1).
Lemma ex_kin_at_ok :
  clear_turn (read3 ex_kin_at 3) /\ clear_turn (read3 ex_kin_at 5) /\ clear_turn (read3 ex_kin_at 7) /\
  dual_camera_to_target ex_empty ex_empty [] [] ex_kin_at numbered = Ok ex_kin_camera /\
  vz (iso_app ex_kin_camera (V3 1 0 0)) <> 1 / 10 ^ 10.
Proof.
  pose proof eps_small. split; [ left; reflexivity | ]. split; [ | split; [ left; reflexivity | split ] ].
  - right. change (read3 ex_kin_at 5) with (V3 0 0 1). unfold norm, dot. cbn [vx vy vz].
    replace (0 * 0 + 0 * 0 + 1 * 1) with 1 by ring. rewrite sqrt_1. lra.
  - unfold ex_kin_at. rewrite ex_flat_camera by apply ex_flat_blocks. f_equal.
    change (read3 (with_value ex_flat 5 2 1) 5) with (V3 0 0 1). change (read3 (with_value ex_flat 5 2 1) 4) with (V3 0 0 1).
    apply create_axis. rewrite Rabs_R1. lra.
  - unfold ex_kin_camera, iso_app, mvec, vadd. cbn. lra.
Qed.
(** A guess of the target straight ahead *)
Definition ex_ahead : iso := Iso I3 (V3 0 0 2).
Lemma ex_ahead_ok : vz (iso_app ex_ahead (V3 1 0 0)) <> 1 / 10 ^ 10.
Proof. unfold ex_ahead, iso_app, mvec, I3, vadd. cbn. lra. Qed.
Definition ex_turned : iso := Iso (M3 0 (-1) 0 1 0 0 0 0 1) (V3 0 0 2).
Lemma ex_turned_ok : is_rot (lin ex_turned) /\ lin ex_turned <> I3 /\ vz (iso_app ex_turned (V3 1 0 0)) <> 1 / 10 ^ 10.
Proof.
  split; [ | split ].
  - unfold is_rot, ex_turned, mT, mmul, det, I3. cbn. split; [ f_equal; ring | ring ].
  - cbn. unfold I3. intros H. injection H. intros. lra.
  - unfold ex_turned, iso_app, mvec, vadd. cbn. lra.
Qed.
Definition ex_kin_measured : kin_measurement := KMeas (Iso I3 (V3 0 0 1)) [] [].
Lemma ex_kin_angle : angle_between (lin (km_camera_to_target ex_kin_measured)) (lin ex_kin_camera) 1 /\ 0 < 1 < PI.
Proof.
  pose proof PI_RGT_0. pose proof PI2_1.
  assert (0 < 1 < PI) by (unfold PI2 in *; lra). split; [ | assumption ]. split; [ lra | ].
  exists (V3 0 0 (-1)). split; [ unfold dot; cbn; ring | ]. cbn [ex_kin_measured ex_kin_camera km_camera_to_target lin].
  pose proof (sin2_cos2 1) as Q. unfold Rsqr in Q. unfold aa_matrix, mmul, I3. cbn [m00 m01 m02 m10 m11 m12 m20 m21 m22 vx vy vz].
  f_equal; nra.
Qed.

(** ** As stated *)
Lemma fixed_camera_derivatives e dirs x obs intr base_to_camera p :
  off_switch (pose_aa (read_pose x 0)) ->
  vz (poseTransformPoint (poseEigenToCal (iso_inv base_to_camera)) (poseTransformPoint (read_pose x 0) p)) <> 0 ->
  gives_derivatives (fun y => fixed_camera_cost obs intr base_to_camera p (read_pose y 0)) x
    (gfixed_cost (jet_num e dirs) obs intr (poseEigenToCal (iso_inv base_to_camera)) p (seed x)).
Proof. intros H Z. apply fixed_derivatives; [ exact H | reflexivity | exact Z ]. Qed.
Lemma mpnp_derivatives e dirs x obs intr camera_to_base p :
  off_switch (pose_aa (read_pose x 0)) ->
  vz (poseTransformPoint (poseEigenToCal camera_to_base) (poseTransformPoint (read_pose x 0) p)) <> 0 ->
  gives_derivatives (fun y => mpnp_cost obs intr camera_to_base p (read_pose y 0)) x
    (gfixed_cost (jet_num e dirs) obs intr (poseEigenToCal camera_to_base) p (seed x)).
Proof. intros H Z. apply fixed_derivatives; [ exact H | reflexivity | exact Z ]. Qed.
Lemma start_aa g : lin g = I3 -> pose_aa (poseEigenToCal g) = V3 0 0 0.
Proof.
  intros E. assert (H : is_rot (lin g)) by (rewrite E; apply is_rot_I). pose proof (proj2 (guess_zero g H) E) as Z.
  unfold guess_aa, vscale in Z. unfold pose_aa, poseEigenToCal. cbv zeta. cbn [p_rx p_ry p_rz vx vy vz]. rewrite <- Z. f_equal; ring.
Qed.
Lemma start_off g p : lin g = I3 -> p = poseEigenToCal g -> off_switch (pose_aa p).
Proof. intros E ->. rewrite start_aa by exact E. apply zero_off. Qed.
Lemma inv_lin g : lin g = I3 -> lin (iso_inv g) = I3.
Proof. intros E. unfold iso_inv. cbn [lin]. rewrite E. reflexivity. Qed.
Lemma hand_eye_start e dirs x c intr camera_guess target_guess :
  lin camera_guess = I3 -> lin target_guess = I3 ->
  read_pose x 0 = poseEigenToCal (iso_inv camera_guess) -> read_pose x 1 = poseEigenToCal target_guess ->
  vz (getTargetPointInCamera c (read_pose x 0) (read_pose x 1)) <> 0 ->
  gives_derivatives (fun y => cost2D3D c intr (read_pose y 0, read_pose y 1)) x (gcost2D3D (jet_num e dirs) c intr (seed x)).
Proof.
  intros E0 E1 S0 S1. apply hand_eye_derivatives; [ exact (start_off _ _ (inv_lin _ E0) S0) | exact (start_off _ _ E1 S1) ].
Qed.
Lemma hand_eye3D_start e dirs x c camera_guess target_guess :
  lin camera_guess = I3 -> lin target_guess = I3 ->
  read_pose x 0 = poseEigenToCal (iso_inv camera_guess) -> read_pose x 1 = poseEigenToCal target_guess ->
  gives_derivatives (fun y => cost3D3D c (read_pose y 0, read_pose y 1)) x (gcost3D3D (jet_num e dirs) c (seed x)).
Proof.
  intros E0 E1 S0 S1. apply hand_eye3D_derivatives; [ exact (start_off _ _ (inv_lin _ E0) S0) | exact (start_off _ _ E1 S1) ].
Qed.
Lemma static_start e dirs x obs intr w p base_guess wrist_guess :
  lin base_guess = I3 -> lin wrist_guess = I3 ->
  read_pose x 0 = poseEigenToCal (iso_inv base_guess) -> read_pose x 1 = poseEigenToCal wrist_guess ->
  vz (poseTransformPoint (read_pose x 0) (poseTransformPoint (poseEigenToCal w) (poseTransformPoint (read_pose x 1) p))) <> 0 ->
  gives_derivatives (fun y => static_cost obs intr w p (read_pose y 0) (read_pose y 1)) x (gstatic_cost (jet_num e dirs) obs intr w p (seed x)).
Proof.
  intros E0 E1 S0 S1. apply static_derivatives; [ exact (start_off _ _ (inv_lin _ E0) S0) | exact (start_off _ _ E1 S1) ].
Qed.
Lemma wrist_start_derivatives e dirs pr obs intr w c p (x := wrist_start pr) :
  lin (wp_wrist_to_target_guess pr) = I3 \/ off_switch (pose_aa (read_pose x 1)) ->
  vz (poseTransformPoint (poseEigenToCal (iso_inv c))
        (poseTransformPoint (read_pose x 0) (poseTransformPoint (poseEigenToCal w) (poseTransformPoint (read_pose x 1) p)))) <> 0 ->
  gives_derivatives (fun y => wrist_cost obs intr w c p (read_pose y 0) (read_pose y 1)) x (gwrist_cost (jet_num e dirs) obs intr w c p (seed x)).
Proof.
  intros H. apply wrist_derivatives.
  - apply (start_off iso_id); [ reflexivity | ]. apply read_pose_elem. reflexivity.
  - destruct H as [ H | H ]; [ | exact H ]. apply (start_off (wp_wrist_to_target_guess pr)); [ exact H | ]. apply read_pose_elem. reflexivity.
Qed.
Lemma mpnp_start_derivatives e dirs x obs intr camera_to_base p guess : lin guess = I3 -> read_pose x 0 = poseEigenToCal guess ->
  vz (poseTransformPoint (poseEigenToCal camera_to_base) (poseTransformPoint (read_pose x 0) p)) <> 0 ->
  gives_derivatives (fun y => mpnp_cost obs intr camera_to_base p (read_pose y 0)) x
    (gfixed_cost (jet_num e dirs) obs intr (poseEigenToCal camera_to_base) p (seed x)).
Proof. intros E S. apply mpnp_derivatives, (start_off _ _ E S). Qed.

Lemma pnp_start_flat e dirs x intr guess : lin guess = I3 -> (read3 x 0, read3 x 1) = pnp_start guess ->
  forall p obs, vz (iso_app guess p) <> 1 / 10 ^ 10 ->
  differentiable (fun y => pnp_cost intr p obs (read3 y 0, read3 y 1)) x /\ no_derivatives (gpnp_cost (jet_num e dirs) intr p obs (seed x)).
Proof.
  intros E S p obs Hz. assert (H : is_rot (lin guess)) by (rewrite E; apply is_rot_I). pose proof (pnp_start_zero guess x H E S) as Z.
  split; [ | apply pnp_zero; exact Z ]. apply pnp_zero_differentiable; [ exact Z | ].
  rewrite S. rewrite (pnp_start_stored guess H). exact Hz.
Qed.
Lemma pnp3D_start_flat e dirs x guess : lin guess = I3 -> (read3 x 0, read3 x 1) = pnp_start guess ->
  forall p obs, differentiable (fun y => pnp_cost3D p obs (read3 y 0, read3 y 1)) x /\ no_derivatives (gpnp_cost3D (jet_num e dirs) p obs (seed x)).
Proof.
  intros E S p obs. assert (H : is_rot (lin guess)) by (rewrite E; apply is_rot_I). pose proof (pnp_start_zero guess x H E S) as Z.
  split; [ | apply pnp3D_zero; exact Z ]. apply pnp3D_zero_differentiable; exact Z.
Qed.
Lemma pnp_start_derivatives e dirs x intr guess : is_rot (lin guess) -> lin guess <> I3 -> (read3 x 0, read3 x 1) = pnp_start guess ->
  forall p obs, vz (iso_app guess p) <> 1 / 10 ^ 10 ->
  gives_derivatives (fun y => pnp_cost intr p obs (read3 y 0, read3 y 1)) x (gpnp_cost (jet_num e dirs) intr p obs (seed x)).
Proof.
  intros H E S p obs Hz. apply pnp_derivatives; [ exact (pnp_start_turned guess x H E S) | ].
  unfold pnp_at. rewrite S, (pnp_start_stored guess H). exact Hz.
Qed.
Lemma pnp3D_start_derivatives e dirs x guess : is_rot (lin guess) -> lin guess <> I3 -> (read3 x 0, read3 x 1) = pnp_start guess ->
  forall p obs, gives_derivatives (fun y => pnp_cost3D p obs (read3 y 0, read3 y 1)) x (gpnp_cost3D (jet_num e dirs) p obs (seed x)).
Proof. intros H E S p obs. apply pnp3D_derivatives. exact (pnp_start_turned guess x H E S). Qed.

Lemma kinematic_plateau cc tc jc jt obs p intr x b : turn_block b -> read3 x b = V3 0 0 0 ->
  forall y, equal_outside b x y -> norm (read3 y b) <= DBL_EPS ->
  dualCost2D3D obs p intr cc tc jc jt numbered y = dualCost2D3D obs p intr cc tc jc jt numbered x.
Proof. intros Hb Z y E Hn. exact (dual_flat obs p intr cc tc jc jt x y b Hb Z E Hn). Qed.
Lemma kinematic_flat e dirs cc tc jc jt obs p intr x b : 0 <= e <= DBL_EPS ->
  clear_turn (read3 x 3) -> clear_turn (read3 x 5) -> clear_turn (read3 x 7) ->
  forall C, dual_camera_to_target cc tc jc jt x numbered = Ok C -> vz (iso_app C p) <> 1 / 10 ^ 10 ->
  turn_block b -> read3 x b = V3 0 0 0 ->
  exists L, gdualCost2D3D (jet_num e dirs) obs p intr cc tc jc jt (seed x) = Ok L /\
  forall k j, nth_error L k = Some j -> forall i, (i < 3)%nat -> jv j (b, i) = Fin 0.
Proof.
  intros He T3 T5 T7 C EC Hz Hb Z. apply (flat_derivatives (dualCost2D3D obs p intr cc tc jc jt numbered) x); [ exact Z | | ].
  - intros y E Hn. exact (dual_flat obs p intr cc tc jc jt x y b Hb Z E Hn).
  - eapply dual_derivatives; eassumption.
Qed.
Lemma ex_flat_refuted :
  turning_derivative ex_flat_residual ex_flat 5 2 1 /\
  forall e dirs, 0 <= e <= DBL_EPS ->
  exists L, gdualCost2D3D (jet_num e dirs) (V2 0 0) (V3 1 0 0) ex_intr1 ex_empty ex_empty [] [] (seed ex_flat) = Ok L /\
  forall k j, nth_error L k = Some j -> forall i, (i < 3)%nat -> jv j (5%nat, i) = Fin 0.
Proof. exact (conj ex_flat_turning ex_flat_jets). Qed.
Lemma ex_ahead_holds : lin ex_ahead = I3 /\ vz (iso_app ex_ahead (V3 1 0 0)) <> 1 / 10 ^ 10.
Proof. exact (conj eq_refl ex_ahead_ok). Qed.
