(** Every cost functor gives the derivatives of its residuals. *)
From Coq Require Import Reals Lra Lia List Bool Arith FunctionalExtensionality.
From Verif.Base Require Import Geom Outcome Matrix.
From Verif.Model Require Import Pose DhChain Kinematic HandEye BlockSolver Pnp Intrinsic CircleFit MultiCamera MaxLikelihood Jet Functors.
From Verif.Spec Require Import DerivativeSpec.
From Verif.Proofs Require Import JetProofs FunctorProofs.
Import ListNotations.
Local Open Scope R_scope.

Lemma with_same x b i : with_value x b i (x b i) = x.
Proof.
  unfold with_value. extensionality b'. extensionality i'. destruct (Nat.eqb_spec b b') as [ <- | ]; [ | reflexivity ].
  destruct (Nat.eqb_spec i i') as [ <- | ]; reflexivity.
Qed.
Lemma gives_relL (F : values -> list R) x J : (forall b i, relL (x b i) (b, i) (fun s => F (with_value x b i s)) J) -> gives_derivatives F x J.
Proof.
  intros H. apply gives_rel.
  - intros b i. apply (proj2 (H b i)).
  - destruct (H 0%nat 0%nat) as [L _]. rewrite <- (L (x 0%nat 0%nat)), with_same. reflexivity.
  - intros b i. rewrite with_same. reflexivity.
Qed.
Lemma gives_ext (F G : values -> list R) x J : (forall y, F y = G y) -> gives_derivatives G x J -> gives_derivatives F x J.
Proof. intros H. apply functional_extensionality in H. rewrite H. auto. Qed.

Section Functors.
  Variables (e : R) (dirs : list (nat * nat)) (x : values).
  Notation JN := (jet_num e dirs).
  Lemma rel3_read b i k n : rel3 (x b i) (b, i) (fun s => gread RN (with_value x b i s) k n) (gread JN (seed x) k n).
  Proof. unfold gread. repeat split; apply rel_seed. Qed.
  Lemma read_same b i k n : gread RN (with_value x b i (x b i)) k n = gread RN x k n.
  Proof. rewrite with_same. reflexivity. Qed.
  Lemma off_gdot k : off_switch (pose_aa (read_pose x k)) -> gdot RN (gaa RN x k) (gaa RN x k) <> DBL_EPS.
  Proof. auto. Qed.
  Lemma image_eq intr P obs : image_error RN intr P obs = image_residual intr (v_of P) obs.
  Proof. unfold image_error, image_residual. cbv zeta. rewrite <- v_project_arr. reflexivity. Qed.
  Lemma point_eq (P : gvec R) obs : point_error RN P obs = [vx (v_of P) - vx obs; vy (v_of P) - vy obs; vz (v_of P) - vz obs].
  Proof. reflexivity. Qed.

  (** Transformation of a point by one block *)
  Ltac turn H := unfold gaa, gpos; apply rel3_transform;
    [ apply rel3_read | apply rel3_read | | rewrite read_same; exact H ].

  (** Hand-eye *)
  Lemma v_hand_eye {I} (c : obs_cost I) (y : values) :
    v_of (ggetTargetPointInCamera RN c y) = getTargetPointInCamera c (read_pose y 0) (read_pose y 1).
  Proof. unfold ggetTargetPointInCamera, getTargetPointInCamera. cbv zeta. rewrite v_transform, !v_pose, v_transform. reflexivity. Qed.
  Lemma rel3_hand_eye {I} (c : obs_cost I) b i : off_switch (pose_aa (read_pose x 0)) -> off_switch (pose_aa (read_pose x 1)) ->
    rel3 (x b i) (b, i) (fun s => ggetTargetPointInCamera RN c (with_value x b i s)) (ggetTargetPointInCamera JN c (seed x)).
  Proof.
    intros H0 H1. unfold ggetTargetPointInCamera. cbv zeta. turn H0. do 2 apply rel3_pose. turn H1. apply rel3_cast.
  Qed.
  Lemma hand_eye_derivatives c intr : off_switch (pose_aa (read_pose x 0)) -> off_switch (pose_aa (read_pose x 1)) ->
    vz (getTargetPointInCamera c (read_pose x 0) (read_pose x 1)) <> 0 ->
    gives_derivatives (fun y => cost2D3D c intr (read_pose y 0, read_pose y 1)) x (gcost2D3D JN c intr (seed x)).
  Proof.
    intros H0 H1 Hz. apply (gives_ext _ (gcost2D3D RN c intr)).
    { intros y. unfold gcost2D3D. rewrite image_eq, v_hand_eye. reflexivity. }
    apply gives_relL. intros b i. unfold gcost2D3D. apply relL_image; [ | apply rel3_hand_eye; assumption ].
    rewrite with_same. rewrite <- v_hand_eye in Hz. exact Hz.
  Qed.
  Lemma hand_eye3D_derivatives c : off_switch (pose_aa (read_pose x 0)) -> off_switch (pose_aa (read_pose x 1)) ->
    gives_derivatives (fun y => cost3D3D c (read_pose y 0, read_pose y 1)) x (gcost3D3D JN c (seed x)).
  Proof.
    intros H0 H1. apply (gives_ext _ (gcost3D3D RN c)).
    { intros y. unfold gcost3D3D. rewrite point_eq, v_hand_eye. reflexivity. }
    apply gives_relL. intros b i. unfold gcost3D3D. apply relL_point, rel3_hand_eye; assumption.
  Qed.

  (** Several cameras *)
  Lemma v_at y k p : v_of (gtransformPoint RN (gaa RN y k) (gpos RN y k) p) = poseTransformPoint (read_pose y k) (v_of p).
  Proof. rewrite v_transform. reflexivity. Qed.
  Lemma rel3_at b i k P JP : off_switch (pose_aa (read_pose x k)) -> rel3 (x b i) (b, i) P JP ->
    rel3 (x b i) (b, i) (fun s => gtransformPoint RN (gaa RN (with_value x b i s) k) (gpos RN (with_value x b i s) k) (P s))
      (gtransformPoint JN (gaa JN (seed x) k) (gpos JN (seed x) k) JP).
  Proof. intros H HP. turn H. exact HP. Qed.
  Lemma static_derivatives obs intr w p : off_switch (pose_aa (read_pose x 0)) -> off_switch (pose_aa (read_pose x 1)) ->
    vz (poseTransformPoint (read_pose x 0) (poseTransformPoint (poseEigenToCal w) (poseTransformPoint (read_pose x 1) p))) <> 0 ->
    gives_derivatives (fun y => static_cost obs intr w p (read_pose y 0) (read_pose y 1)) x (gstatic_cost JN obs intr w p (seed x)).
  Proof.
    intros H0 H1 Hz. apply (gives_ext _ (gstatic_cost RN obs intr w p)).
    { intros y. unfold gstatic_cost. cbv zeta. rewrite image_eq, v_at, v_pose, v_at, v_cast. reflexivity. }
    apply gives_relL. intros b i. unfold gstatic_cost. cbv zeta. apply relL_image.
    - rewrite with_same. replace p with (v_of (gcast RN p)) in Hz by apply v_cast. rewrite <- v_at, <- v_pose, <- v_at in Hz. exact Hz.
    - apply rel3_at; [ exact H0 | ]. apply rel3_pose, rel3_at; [ exact H1 | ]. apply rel3_cast.
  Qed.
  Lemma free_derivatives obs intr p : off_switch (pose_aa (read_pose x 0)) -> off_switch (pose_aa (read_pose x 1)) ->
    vz (poseTransformPoint (read_pose x 0) (poseTransformPoint (read_pose x 1) p)) <> 0 ->
    gives_derivatives (fun y => free_camera_cost obs intr p (read_pose y 0) (read_pose y 1)) x (gfree_camera_cost JN obs intr p (seed x)).
  Proof.
    intros H0 H1 Hz. apply (gives_ext _ (gfree_camera_cost RN obs intr p)).
    { intros y. unfold gfree_camera_cost. cbv zeta. rewrite image_eq, !v_at, v_cast. reflexivity. }
    apply gives_relL. intros b i. unfold gfree_camera_cost. cbv zeta. apply relL_image.
    - rewrite with_same. replace p with (v_of (gcast RN p)) in Hz by apply v_cast. rewrite <- !v_at in Hz. exact Hz.
    - apply rel3_at; [ exact H0 | ]. apply rel3_at; [ exact H1 | ]. apply rel3_cast.
  Qed.
  Lemma fixed_derivatives F obs intr (c : pose6) p : off_switch (pose_aa (read_pose x 0)) ->
    (forall y, F y = image_residual intr (poseTransformPoint c (poseTransformPoint (read_pose y 0) p)) obs) ->
    vz (poseTransformPoint c (poseTransformPoint (read_pose x 0) p)) <> 0 ->
    gives_derivatives F x (gfixed_cost JN obs intr c p (seed x)).
  Proof.
    intros H0 HF Hz. apply (gives_ext _ (gfixed_cost RN obs intr c p)).
    { intros y. unfold gfixed_cost. cbv zeta. rewrite image_eq, v_pose, v_at, v_cast. apply HF. }
    apply gives_relL. intros b i. unfold gfixed_cost. cbv zeta. apply relL_image.
    - rewrite with_same. replace p with (v_of (gcast RN p)) in Hz by apply v_cast. rewrite <- v_at, <- v_pose in Hz. exact Hz.
    - apply rel3_pose, rel3_at; [ exact H0 | ]. apply rel3_cast.
  Qed.
  Lemma wrist_derivatives obs intr w c p : off_switch (pose_aa (read_pose x 0)) -> off_switch (pose_aa (read_pose x 1)) ->
    vz (poseTransformPoint (poseEigenToCal (iso_inv c))
          (poseTransformPoint (read_pose x 0) (poseTransformPoint (poseEigenToCal w) (poseTransformPoint (read_pose x 1) p)))) <> 0 ->
    gives_derivatives (fun y => wrist_cost obs intr w c p (read_pose y 0) (read_pose y 1)) x (gwrist_cost JN obs intr w c p (seed x)).
  Proof.
    intros H0 H1 Hz. apply (gives_ext _ (gwrist_cost RN obs intr w c p)).
    { intros y. unfold gwrist_cost. cbv zeta. rewrite image_eq, v_pose, v_at, v_pose, v_at, v_cast. reflexivity. }
    apply gives_relL. intros b i. unfold gwrist_cost. cbv zeta. apply relL_image.
    - rewrite with_same. replace p with (v_of (gcast RN p)) in Hz by apply v_cast.
      rewrite <- v_at, <- v_pose, <- v_at, <- v_pose in Hz. exact Hz.
    - apply rel3_pose, rel3_at; [ exact H0 | ]. apply rel3_pose, rel3_at; [ exact H1 | ]. apply rel3_cast.
  Qed.

  (** Intrinsic calibration *)
  Lemma v_project2 K (p : gvec R) : v2_of (gprojectPoints2 RN K p) = projectPoints2 K (v_of p).
  Proof.
    unfold gprojectPoints2, projectPoints2, v2_of, v_of. cbv zeta. cbn [T lit add sub mul div RN is_zero vx vy vz].
    destruct (Req_EM_T (gz p) 0); cbn [g2x g2y]; f_equal; ring.
  Qed.
  Lemma intrinsic_derivatives p obs : off_switch (pose_aa (read_pose x 0)) -> vz (poseTransformPoint (read_pose x 0) p) <> 0 ->
    gives_derivatives (fun y => intrinsic_cost p obs (read_pose y 0) (y 1%nat)) x (gintrinsic_cost JN p obs (seed x)).
  Proof.
    intros H0 Hz. apply (gives_ext _ (gintrinsic_cost RN p obs)).
    { intros y. unfold gintrinsic_cost, intrinsic_cost. cbv zeta.
      change (transformPoint (pose_aa (read_pose y 0)) (pose_pos (read_pose y 0)) p) with (poseTransformPoint (read_pose y 0) p).
      replace (poseTransformPoint (read_pose y 0) p) with (poseTransformPoint (read_pose y 0) (v_of (gcast RN p))) by (rewrite v_cast; reflexivity).
      rewrite <- v_at, <- v_project2. reflexivity. }
    apply gives_relL. intros b i. unfold gintrinsic_cost. cbv zeta.
    assert (A : rel2 (x b i) (b, i) (fun s => gprojectPoints2 RN (with_value x b i s 1%nat)
        (gtransformPoint RN (gaa RN (with_value x b i s) 0) (gpos RN (with_value x b i s) 0) (gcast RN p)))
      (gprojectPoints2 JN (seed x 1%nat) (gtransformPoint JN (gaa JN (seed x) 0) (gpos JN (seed x) 0) (gcast JN p)))).
    { apply rel2_project2.
      - intros k. apply rel_seed.
      - rewrite with_same. replace p with (v_of (gcast RN p)) in Hz by apply v_cast. rewrite <- v_at in Hz. exact Hz.
      - apply rel3_at; [ exact H0 | ]. apply rel3_cast. }
    destruct A as [A B]. repeat apply relL_cons; try apply relL_nil; (apply rel_sub; [ assumption | apply rel_const ]).
  Qed.

  (** Circle fit *)
  Lemma circle_derivatives px py :
    gives_derivatives (fun y => [circle_cost px py (CirP (y 0 0) (y 0 1) (y 0 2))%nat]) x (gcircle_cost JN px py (seed x)).
  Proof.
    apply (gives_ext _ (gcircle_cost RN px py)); [ reflexivity | ].
    apply gives_relL. intros b i. unfold gcircle_cost. cbv zeta. apply relL_cons; [ | apply relL_nil ].
    cbn [T lit add sub mul div RN jet_num].
    repeat first [ apply rel_seed | apply rel_const | apply rel_sub | apply rel_mul ].
  Qed.

  (** Maximum likelihood *)
  Lemma ml_derivatives ml : rows (ml_mean ml) = rows (ml_stdev ml) -> cols (ml_mean ml) = cols (ml_stdev ml) ->
    (forall i j, (i < rows (ml_stdev ml))%nat -> (j < cols (ml_stdev ml))%nat -> ent (ml_stdev ml) i j <> 0) ->
    gives_derivatives_res (fun y => ml_residual ml (y 0%nat)) x (gml_residual JN ml (seed x)).
  Proof.
    intros Hr Hc Hs. unfold ml_residual, gml_residual. cbv zeta. rewrite Hr, Hc, !Nat.eqb_refl. cbn [andb].
    eexists _, _. split; [ reflexivity | ]. split; [ reflexivity | ].
    apply gives_relL. intros b i. apply relL_flat_map. intros j Hj. apply relL_map. intros k Hk. apply in_seq in Hj, Hk.
    cbn [T lit add sub mul div RN jet_num].
    apply rel_div; [ apply Hs; lia | | apply rel_const ]. apply rel_sub; [ apply rel_seed | apply rel_const ].
  Qed.

  (** Pose of a camera from points *)
  Definition pnp_at (y : values) : pnp_vars := (read3 y 0, read3 y 1).
  Lemma i_pnp y : i_of (gpnp_transform RN y) = pnp_transform (pnp_at y).
  Proof.
    unfold gpnp_transform, pnp_transform, pnp_at. cbv zeta. cbn [fst snd]. rewrite i_mul. f_equal.
    change (i_of (giso_rot RN (gaa_matrix RN (gnorm RN (gread RN y 0 0)) (gnormalized RN (gread RN y 0 0)))))
      with (iso_rot (m_of (gaa_matrix RN (gnorm RN (gread RN y 0 0)) (gnormalized RN (gread RN y 0 0))))).
    rewrite m_aa, v_normalized. reflexivity.
  Qed.
  Lemma relI_pnp b i : read3 x 0 <> V3 0 0 0 ->
    relI (x b i) (b, i) (fun s => gpnp_transform RN (with_value x b i s)) (gpnp_transform JN (seed x)).
  Proof.
    intros Hn. unfold gpnp_transform. cbv zeta. apply relI_mul; [ apply relI_trans, rel3_read | ].
    assert (P : 0 < gdot RN (gread RN (with_value x b i (x b i)) 0 0) (gread RN (with_value x b i (x b i)) 0 0)).
    { rewrite read_same. change (0 < dot (read3 x 0) (read3 x 0)). destruct (read3 x 0) as [p q r]. unfold dot. cbn [vx vy vz].
      destruct (Req_dec p 0) as [ -> | ]; [ | nra ]. destruct (Req_dec q 0) as [ -> | ]; [ | nra ].
      destruct (Req_dec r 0) as [ -> | ]; [ congruence | nra ]. }
    apply relI_rot, relM_aa; [ apply rel_norm | apply rel3_normalized ]; auto using rel3_read.
  Qed.
  Lemma pnp_derivatives intr p obs : read3 x 0 <> V3 0 0 0 ->
    vz (iso_app (pnp_transform (pnp_at x)) p) <> 1 / 10 ^ 10 ->
    gives_derivatives (fun y => pnp_cost intr p obs (pnp_at y)) x (gpnp_cost JN intr p obs (seed x)).
  Proof.
    intros Hn Hz. apply (gives_ext _ (gpnp_cost RN intr p obs)).
    { intros y. unfold gpnp_cost, pnp_cost. cbv zeta. rewrite <- i_pnp. rewrite <- (v_cast p) at 1 2. rewrite <- i_app, <- v_project_eig.
      reflexivity. }
    apply gives_relL. intros b i. unfold gpnp_cost. cbv zeta.
    destruct (rel2_project_eig (x b i) (b, i) e dirs intr
      (fun s => giso_app RN (gpnp_transform RN (with_value x b i s)) (gcast RN p))
      (giso_app JN (gpnp_transform JN (seed x)) (gcast JN p))) as [A B].
    - rewrite with_same. rewrite <- i_pnp, <- (v_cast p), <- i_app in Hz. exact Hz.
    - apply rel3_app; [ apply relI_pnp; exact Hn | apply rel3_cast ].
    - repeat apply relL_cons; try apply relL_nil; (apply rel_sub; [ assumption | apply rel_const ]).
  Qed.
  Lemma pnp3D_derivatives p obs : read3 x 0 <> V3 0 0 0 ->
    gives_derivatives (fun y => pnp_cost3D p obs (pnp_at y)) x (gpnp_cost3D JN p obs (seed x)).
  Proof.
    intros Hn. apply (gives_ext _ (gpnp_cost3D RN p obs)).
    { intros y. unfold gpnp_cost3D, pnp_cost3D. cbv zeta. rewrite <- i_pnp, point_eq, i_app, v_cast. reflexivity. }
    apply gives_relL. intros b i. unfold gpnp_cost3D. apply relL_point.
    apply rel3_app; [ apply relI_pnp; exact Hn | apply rel3_cast ].
  Qed.
End Functors.
