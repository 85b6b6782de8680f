(** Hand-eye calibrations of nearly perfect data tend to the true calibration. *)
From Coq Require Import Reals Lra Psatz List.
From Verif.Base Require Import Geom.
From Verif.Model Require Import Pose HandEye.
From Verif.Spec Require Import PinHole PnpSpec UniqueSpec.
From Verif.Proofs Require Import GeomLemmas RotLemmas AngleAxisLemmas UniqueLemmas UniqueProofs LimitLemmas NearPose.
Import ListNotations.
Local Open Scope R_scope.

(** Twice the sine of the angle times the axis *)
Definition vee (A : mat3) : vec3 := V3 (m21 A - m12 A) (m02 A - m20 A) (m10 A - m01 A).
Lemma vee_cross A v : cross (vee A) v = vsub (mvec A v) (mvec (mT A) v).
Proof. unfold vee, mT. vec; cbn [m00 m01 m02 m10 m11 m12 m20 m21 m22]; ring. Qed.
Lemma vee_aa a u : vee (aa_matrix a u) = vscale (2 * sin a) u.
Proof. unfold vee, aa_matrix, vscale; cbn [vx vy vz m00 m01 m02 m10 m11 m12 m20 m21 m22]. apply vec3_ext; cbn [vx vy vz]; ring. Qed.
Lemma cross_all a b : (forall v, cross a v = cross b v) -> a = b.
Proof.
  intros H. pose proof (H unitX) as H1. pose proof (H unitY) as H2. unfold cross, unitX, unitY in H1, H2. cbn [vx vy vz] in H1, H2.
  pose proof (f_equal vy H1). pose proof (f_equal vz H1). pose proof (f_equal vz H2). cbn [vx vy vz] in *. apply vec3_ext; lra.
Qed.
Lemma mvec_mmul A B v : mvec (mmul A B) v = mvec A (mvec B v).
Proof. unfold mvec, mmul; cbn [vx vy vz m00 m01 m02 m10 m11 m12 m20 m21 m22]; apply vec3_ext; cbn [vx vy vz]; ring. Qed.
Lemma mT_mmul A B : mT (mmul A B) = mmul (mT B) (mT A).
Proof. unfold mT, mmul; cbn [m00 m01 m02 m10 m11 m12 m20 m21 m22]; apply mat3_ext; cbn [m00 m01 m02 m10 m11 m12 m20 m21 m22]; ring. Qed.
Lemma vee_conj D N A : is_rot D -> mmul D N = mmul A D -> vee A = mvec D (vee N).
Proof.
  intros HD E. pose proof (is_rot_right D HD) as Hr. destruct (HD) as [Hl _].
  assert (E' : mmul D (mT N) = mmul (mT A) D).
  { apply (f_equal mT) in E. rewrite !mT_mmul in E. apply (f_equal (fun M => mmul D (mmul M D))) in E.
    rewrite <- !mmul_assoc in E. rewrite (mmul_assoc (mmul D (mT N)) (mT D) D), Hl, mmul_I_r in E. rewrite Hr, mmul_I_l in E. exact E. }
  apply cross_all. intros v. set (y := mvec (mT D) v).
  assert (Ey : v = mvec D y) by (unfold y; rewrite <- mvec_mmul, Hr, mvec_I; reflexivity). rewrite Ey.
  rewrite <- rot_cross by exact HD. rewrite !vee_cross, mvec_vsub, <- !mvec_mmul, E, E'. reflexivity.
Qed.
(** The place where two lines of solutions meet *)
Definition meet (a b g h : vec3) : vec3 :=
  vscale (/ dot (cross a b) (cross a b))
    (vadd (vadd (vscale (dot (vneg h) (cross a b)) a) (vscale (dot g (cross a b)) b)) (vscale (dot a h) (cross a b))).
Lemma meet_right a b t : cross a b <> vzero -> t = meet a b (cross a t) (cross b t).
Proof.
  intros N. rewrite <- (in_frame_self a b t N) at 1. unfold in_frame, meet.
  replace (vneg (cross b t)) with (cross t b) by (vec; ring). replace (dot a (cross b t)) with (dot t (cross a b)) by (unfold dot, cross; cbn [vx vy vz]; ring). reflexivity.
Qed.
Lemma fixed_shift A D t s r : is_rot A -> vadd (mvec D s) t = vadd (mvec A t) r ->
  cross (vee A) t = vneg (vadd (vsub r (mvec D s)) (mvec (mT A) (vsub r (mvec D s)))).
Proof.
  intros [HA _] E. rewrite vee_cross. set (w := vsub r (mvec D s)).
  assert (Ew : w = vsub t (mvec A t)).
  { pose proof (f_equal vx E) as E1. pose proof (f_equal vy E) as E2. pose proof (f_equal vz E) as E3. unfold vadd in E1, E2, E3. cbn [vx vy vz] in E1, E2, E3.
    unfold w, vsub. apply vec3_ext; cbn [vx vy vz]; lra. }
  assert (Et : mvec (mT A) w = vsub (mvec (mT A) t) t).
  { rewrite Ew, mvec_vsub, <- mvec_mmul, HA, mvec_I. reflexivity. }
  rewrite Et, Ew. unfold vneg, vadd, vsub; cbn [vx vy vz]; apply vec3_ext; cbn [vx vy vz]; ring.
Qed.

Section Near.
Context {I : Type} (F : (I -> Prop) -> Prop) (HF : is_filter F).
Lemma vee_tends A A0 : mtends F A A0 -> vtends F (fun x => vee (A x)) (vee A0).
Proof. intros ((?&?&?)&(?&?&?)&(?&?&?)). repeat split; cbn [vee vx vy vz]; apply (t_minus F HF); assumption. Qed.
Lemma meet_tends a b g h a0 b0 g0 h0 : vtends F a a0 -> vtends F b b0 -> vtends F g g0 -> vtends F h h0 -> cross a0 b0 <> vzero ->
  vtends F (fun x => meet (a x) (b x) (g x) (h x)) (meet a0 b0 g0 h0).
Proof.
  intros TA TB TG TH N. unfold meet. assert (P : dot (cross a0 b0) (cross a0 b0) <> 0) by (intros Z; apply N, dot_zero, Z).
  pose proof (v_cross F HF _ _ _ _ TA TB) as C. cbv beta in C.
  apply (v_scale F HF); [ apply (t_inv F HF); [ apply (t_dot F HF); exact C | exact P ] | ].
  apply (v_add F HF); [ apply (v_add F HF) | ]; apply (v_scale F HF); try assumption; apply (t_dot F HF); try assumption; apply (v_neg F HF); assumption.
Qed.

(** One calibration that turns two motions into two others *)
Lemma equation_tends X X0 A B M N A0 B0 M0 N0 : F (fun x => rigid (X x)) -> rigid X0 ->
  F (fun x => rigid (A x)) -> F (fun x => rigid (B x)) -> rigid A0 -> rigid B0 ->
  F (fun x => iso_mul (X x) (M x) = iso_mul (A x) (X x)) -> F (fun x => iso_mul (X x) (N x) = iso_mul (B x) (X x)) ->
  iso_mul X0 M0 = iso_mul A0 X0 -> iso_mul X0 N0 = iso_mul B0 X0 ->
  itends F A A0 -> itends F B B0 -> itends F M M0 -> itends F N N0 ->
  cross (vee (lin A0)) (vee (lin B0)) <> vzero -> itends F X X0.
Proof.
  intros HX HX0 HA HB HA0 HB0 EA EB E0A E0B [LA TA] [LB TB] [LM TM] [LN TN] NP.
  assert (VM : vee (lin A0) = mvec (lin X0) (vee (lin M0))) by (apply vee_conj; [ exact HX0 | exact (f_equal lin E0A) ]).
  assert (VN : vee (lin B0) = mvec (lin X0) (vee (lin N0))) by (apply vee_conj; [ exact HX0 | exact (f_equal lin E0B) ]).
  assert (L : mtends F (fun x => lin (X x)) (lin X0)).
  { apply (turn_tends F HF _ _ (fun x => vee (lin (M x))) (fun x => vee (lin (N x))) (fun x => vee (lin (A x))) (fun x => vee (lin (B x))) (vee (lin M0)) (vee (lin N0))); auto.
    - apply (f_imp F HF _ _ (f_and F HF _ _ HX EA)). intros x [R1 E]. symmetry. apply vee_conj; [ exact R1 | exact (f_equal lin E) ].
    - apply (f_imp F HF _ _ (f_and F HF _ _ HX EB)). intros x [R1 E]. symmetry. apply vee_conj; [ exact R1 | exact (f_equal lin E) ].
    - apply vee_tends, LM.
    - apply vee_tends, LN.
    - rewrite <- VM. apply vee_tends, LA.
    - rewrite <- VN. apply vee_tends, LB.
    - intros Z. apply NP. rewrite VM, VN, <- rot_cross, Z by exact HX0. unfold vzero; vec; ring. }
  split; [ exact L | ].
  set (g := fun D (A M : iso) => vneg (vadd (vsub (tr A) (mvec D (tr M))) (mvec (mT (lin A)) (vsub (tr A) (mvec D (tr M)))))).
  assert (SG : forall X A M, rigid A -> iso_mul X M = iso_mul A X -> cross (vee (lin A)) (tr X) = g (lin X) A M).
  { intros X1 A1 M1 R1 E. apply (fixed_shift (lin A1) (lin X1) (tr X1) (tr M1) (tr A1) R1). exact (f_equal tr E). }
  assert (TG : forall A A0 M M0, mtends F (fun x => lin (A x)) (lin A0) -> vtends F (fun x => tr (A x)) (tr A0) -> vtends F (fun x => tr (M x)) (tr M0) ->
    vtends F (fun x => g (lin (X x)) (A x) (M x)) (g (lin X0) A0 M0)).
  { intros A1 A2 M1 M2 H1 H2 H3. pose proof (v_sub F HF _ _ _ _ H2 (v_mvec F HF _ _ _ _ L H3)) as W. cbv beta in W.
    apply (v_neg F HF), (v_add F HF); [ exact W | apply (v_mvec F HF); [ apply (m_T F _ _ H1) | exact W ] ]. }
  rewrite (meet_right (vee (lin A0)) (vee (lin B0)) (tr X0) NP), (SG X0 A0 M0 HA0 E0A), (SG X0 B0 N0 HB0 E0B).
  apply (v_ext F HF (fun x => meet (vee (lin (A x))) (vee (lin (B x))) (g (lin (X x)) (A x) (M x)) (g (lin (X x)) (B x) (N x)))).
  - pose proof (cross_away F HF _ _ _ _ (vee_tends _ _ LA) (vee_tends _ _ LB) NP) as CA.
    apply (f_imp F HF _ _ (f_and F HF _ _ CA (f_and F HF _ _ (f_and F HF _ _ HA EA) (f_and F HF _ _ HB EB)))). intros x (C & (R1 & E1) & (R2 & E2)).
    rewrite (meet_right _ _ (tr (X x)) C), (SG _ _ _ R1 E1), (SG _ _ _ R2 E2). reflexivity.
  - apply meet_tends; auto; apply vee_tends; assumption.
Qed.

(** Where the target is seen decides the calibration. *)
Lemma motion_equation X Z W W' : rigid X -> rigid Z -> rigid W -> rigid W' ->
  let S V := iso_mul (iso_inv X) (iso_mul V Z) in iso_mul X (iso_mul (S W) (iso_inv (S W'))) = iso_mul (iso_mul W (iso_inv W')) X.
Proof.
  intros HX HZ HW HW' S. unfold S.
  rewrite (iso_inv_mul (iso_inv X)), (iso_inv_mul W' Z) by (try apply rigid_inv; try apply rigid_mul; auto).
  rewrite !iso_mul_assoc. rewrite <- (iso_mul_assoc X (iso_inv X)), iso_inv_r, iso_mul_id_l by exact HX.
  rewrite <- (iso_mul_assoc Z (iso_inv Z)), iso_inv_r, iso_mul_id_l by exact HZ.
  assert (II : iso_inv (iso_inv X) = X).
  { apply (cancel_l (iso_inv X)); [ apply rigid_inv, HX | ]. rewrite iso_inv_r by (apply rigid_inv, HX). symmetry. apply iso_inv_l, HX. }
  rewrite II. reflexivity.
Qed.
Lemma hand_eye_tends {J} (X Z : I -> iso) X0 Z0 (W S : J -> I -> iso) (W0 : J -> iso) (i j k l : J) u v :
  F (fun x => rigid (X x)) -> F (fun x => rigid (Z x)) -> rigid X0 -> rigid Z0 ->
  (forall m, F (fun x => rigid (W m x))) -> (forall m, rigid (W0 m)) ->
  (forall m, itends F (W m) (W0 m)) -> (forall m, F (fun x => S m x = iso_mul (iso_inv (X x)) (iso_mul (W m x) (Z x)))) ->
  (forall m, itends F (S m) (iso_mul (iso_inv X0) (iso_mul (W0 m) Z0))) ->
  turns_about (iso_mul (W0 i) (iso_inv (W0 j))) u -> turns_about (iso_mul (W0 k) (iso_inv (W0 l))) v -> cross u v <> vzero ->
  itends F X X0 /\ itends F Z Z0.
Proof.
  intros HX HZ HX0 HZ0 HW HW0 TW ES TS (_ & a & LA & Sa) (_ & b & LB & Sb) N.
  assert (RM : forall m n, F (fun x => rigid (iso_mul (W m x) (iso_inv (W n x))))).
  { intros m n. apply (f_imp F HF _ _ (f_and F HF _ _ (HW m) (HW n))). intros x [R1 R2]. apply rigid_mul; [ exact R1 | apply rigid_inv, R2 ]. }
  assert (EM : forall m n, F (fun x => iso_mul (X x) (iso_mul (S m x) (iso_inv (S n x))) = iso_mul (iso_mul (W m x) (iso_inv (W n x))) (X x))).
  { intros m n. apply (f_imp F HF _ _ (f_and F HF _ _ (f_and F HF _ _ (ES m) (ES n)) (f_and F HF _ _ (f_and F HF _ _ HX HZ) (f_and F HF _ _ (HW m) (HW n))))).
    intros x ((E1 & E2) & (R1 & R2) & R3 & R4). rewrite E1, E2. apply motion_equation; assumption. }
  assert (TX : itends F X X0).
  { apply (equation_tends X X0 (fun x => iso_mul (W i x) (iso_inv (W j x))) (fun x => iso_mul (W k x) (iso_inv (W l x)))
      (fun x => iso_mul (S i x) (iso_inv (S j x))) (fun x => iso_mul (S k x) (iso_inv (S l x)))
      (iso_mul (W0 i) (iso_inv (W0 j))) (iso_mul (W0 k) (iso_inv (W0 l)))
      (iso_mul (iso_mul (iso_inv X0) (iso_mul (W0 i) Z0)) (iso_inv (iso_mul (iso_inv X0) (iso_mul (W0 j) Z0))))
      (iso_mul (iso_mul (iso_inv X0) (iso_mul (W0 k) Z0)) (iso_inv (iso_mul (iso_inv X0) (iso_mul (W0 l) Z0))))); auto.
    - apply rigid_mul; [ apply HW0 | apply rigid_inv, HW0 ].
    - apply rigid_mul; [ apply HW0 | apply rigid_inv, HW0 ].
    - apply motion_equation; auto.
    - apply motion_equation; auto.
    - apply (i_mul F HF); [ apply TW | apply (i_inv F HF), TW ].
    - apply (i_mul F HF); [ apply TW | apply (i_inv F HF), TW ].
    - apply (i_mul F HF); [ apply TS | apply (i_inv F HF), TS ].
    - apply (i_mul F HF); [ apply TS | apply (i_inv F HF), TS ].
    - rewrite LA, LB, !vee_aa. intros Z1. apply N. apply dot_zero.
      assert (Q : dot (cross (vscale (2 * sin a) u) (vscale (2 * sin b) v)) (cross (vscale (2 * sin a) u) (vscale (2 * sin b) v)) = (2 * sin a * (2 * sin b)) * (2 * sin a * (2 * sin b)) * dot (cross u v) (cross u v)).
      { unfold dot, cross, vscale; cbn [vx vy vz]; ring. }
      rewrite Z1 in Q. replace (dot vzero vzero) with 0 in Q by (unfold dot, vzero; cbn; ring).
      symmetry in Q. apply Rmult_integral in Q as [Q|Q]; [ exfalso | exact Q ].
      revert Q. repeat apply Rmult_integral_contrapositive_currified; auto; lra. }
  split; [ exact TX | ].
  apply (i_ext F HF (fun x => iso_mul (iso_inv (W i x)) (iso_mul (X x) (S i x)))).
  - apply (f_imp F HF _ _ (f_and F HF _ _ (ES i) (f_and F HF _ _ HX (HW i)))). intros x (E & R1 & R2). rewrite E.
    rewrite <- (iso_mul_assoc (X x)), iso_inv_r, iso_mul_id_l by exact R1. rewrite <- iso_mul_assoc, iso_inv_l, iso_mul_id_l by exact R2. reflexivity.
  - assert (E0 : Z0 = iso_mul (iso_inv (W0 i)) (iso_mul X0 (iso_mul (iso_inv X0) (iso_mul (W0 i) Z0)))).
    { rewrite <- (iso_mul_assoc X0), iso_inv_r, iso_mul_id_l by exact HX0. rewrite <- iso_mul_assoc, iso_inv_l, iso_mul_id_l by apply HW0. reflexivity. }
    rewrite E0. apply (i_mul F HF); [ apply (i_inv F HF), TW | apply (i_mul F HF); [ exact TX | apply TS ] ].
Qed.
End Near.
