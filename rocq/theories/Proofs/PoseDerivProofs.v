(** The pose cost of the kinematic calibration gives the derivatives of its residuals. *)
From Coq Require Import Reals Lra Lia List Bool Arith FunctionalExtensionality.
From Verif.Base Require Import Geom Outcome Matrix.
From Verif.Model Require Import Pose DhChain Kinematic Jet Functors.
From Verif.Spec Require Import KinSpec StatSpec DerivativeSpec.
From Verif.Proofs Require Import GeomLemmas LocalParamProofs RotLemmas AngleAxisLemmas DhProofs KinematicProofs NoiseProofs JetProofs FunctorProofs DerivProofs KinDerivProofs.
Import ListNotations.
Local Open Scope R_scope.

(** ** The four ways of reading the quaternion of a rotation *)
Inductive way := Ww | Wx | Wy | Wz.
Section Ways.
  Variable N : num.
  Notation S := (T N).
  Notation "# x" := (lit N x) (at level 5, format "# x").
  Notation "a +! b" := (add N a b) (at level 50, left associativity).
  Notation "a -! b" := (sub N a b) (at level 50, left associativity).
  Notation "a *! b" := (mul N a b) (at level 40, left associativity).
  Notation "a /! b" := (div N a b) (at level 40, left associativity).
  Definition root (k : way) (m : gmat S) : S :=
    match k with
    | Ww => (g00 m +! g11 m +! g22 m) +! #1
    | Wx => g00 m -! g11 m -! g22 m +! #1
    | Wy => g11 m -! g22 m -! g00 m +! #1
    | Wz => g22 m -! g00 m -! g11 m +! #1
    end.
  Definition read_way (k : way) (m : gmat S) : gquat S :=
    let r := nsqrt N (root k m) in
    let p := #(/ 2) *! r in
    let t := #(/ 2) /! r in
    match k with
    | Ww => GQ p ((g21 m -! g12 m) *! t) ((g02 m -! g20 m) *! t) ((g10 m -! g01 m) *! t)
    | Wx => GQ ((g21 m -! g12 m) *! t) p ((g10 m +! g01 m) *! t) ((g20 m +! g02 m) *! t)
    | Wy => GQ ((g02 m -! g20 m) *! t) ((g01 m +! g10 m) *! t) p ((g21 m +! g12 m) *! t)
    | Wz => GQ ((g10 m -! g01 m) *! t) ((g02 m +! g20 m) *! t) ((g12 m +! g21 m) *! t) p
    end.
  Definition chosen (m : gmat S) : way :=
    if gt N (g00 m +! g11 m +! g22 m) #0 then Ww
    else if gt N (g11 m) (g00 m) then (if gt N (g22 m) (g11 m) then Wz else Wy)
    else (if gt N (g22 m) (g00 m) then Wz else Wx).
  Lemma quat_chosen m : gquat_of_mat N m = read_way (chosen m) m.
  Proof.
    unfold gquat_of_mat, chosen. cbv zeta. destruct (gt N (g00 m +! g11 m +! g22 m) #0); [ reflexivity | ].
    destruct (gt N (g11 m) (g00 m)); [ destruct (gt N (g22 m) (g11 m)) | destruct (gt N (g22 m) (g00 m)) ]; reflexivity.
  Qed.
End Ways.

Lemma chosen_root e dirs (J : gmat jet) : 0 < ja (root (jet_num e dirs) (chosen (jet_num e dirs) J) J).
Proof.
  unfold chosen, root. cbn [jet_num gt add sub lit]. unfold jet_gt, jet_add, jet_sub, jet_lit. cbn [ja].
  repeat match goal with |- context [Rlt_dec ?a ?b] => destruct (Rlt_dec a b) end; cbn [ja]; cbn [jet_num T] in *; lra.
Qed.
Lemma q_quat_of_mat (m : gmat R) : q_of (gquat_of_mat RN m) = quat_of_mat (m_of m).
Proof.
  unfold gquat_of_mat, quat_of_mat. cbv zeta. cbn [RN real_num T gt add sub mul div lit nsqrt]. rewrite !bool_if. unfold trace, m_of. cbn [m00 m01 m02 m10 m11 m12 m20 m21 m22].
  destruct (Rlt_dec 0 (g00 m + g11 m + g22 m)); [ reflexivity | ].
  destruct (Rlt_dec (g00 m) (g11 m)); [ destruct (Rlt_dec (g11 m) (g22 m)) | destruct (Rlt_dec (g00 m) (g22 m)) ]; reflexivity.
Qed.
Lemma way_prods k (m : gmat R) : is_rot (m_of m) -> 0 < root RN k m -> qprods (q_of (read_way RN k m)) (m_of m).
Proof.
  intros H Hp. pose proof (rot_rank1 _ H) as [].
  assert (E : root RN k m = match k with Ww => kww (m_of m) | Wx => kxx (m_of m) | Wy => kyy (m_of m) | Wz => kzz (m_of m) end).
  { destruct k; unfold root, kww, kxx, kyy, kzz, m_of; cbn; ring. }
  unfold read_way. cbv zeta. rewrite E in *. cbn [RN real_num T add sub mul div lit nsqrt].
  replace (g21 m - g12 m) with (kwx (m_of m)) by reflexivity. replace (g02 m - g20 m) with (kwy (m_of m)) by reflexivity.
  replace (g10 m - g01 m) with (kwz (m_of m)) by reflexivity.
  replace (g10 m + g01 m) with (kxy (m_of m)) by (unfold kxy, m_of; cbn; ring).
  replace (g01 m + g10 m) with (kxy (m_of m)) by (unfold kxy, m_of; cbn; ring).
  replace (g20 m + g02 m) with (kxz (m_of m)) by (unfold kxz, m_of; cbn; ring).
  replace (g02 m + g20 m) with (kxz (m_of m)) by (unfold kxz, m_of; cbn; ring).
  replace (g21 m + g12 m) with (kyz (m_of m)) by (unfold kyz, m_of; cbn; ring).
  replace (g12 m + g21 m) with (kyz (m_of m)) by (unfold kyz, m_of; cbn; ring).
  destruct k; unfold q_of; cbn [gw gi gj gk];
  constructor; cbn [qw qx qy qz];
    first [ apply pivot_self; exact Hp | apply pivot_one; exact Hp | apply pivot_prod; [ exact Hp | lra ] | idtac ];
    match goal with |- 4 * (?a * (/ 2 * sqrt _)) = _ => rewrite (Rmult_comm a) end; apply pivot_one; exact Hp.
Qed.
Lemma way_same k (m : gmat R) : is_rot (m_of m) -> 0 < root RN k m -> same_rotation (q_of (read_way RN k m)) (quat_of_mat (m_of m)).
Proof.
  intros H Hp. pose proof (way_prods k m H Hp) as P. unfold same_rotation.
  rewrite <- (qprods_matrix _ _ P) at 1 2. apply quat_of_mat_q_matrix. exact (qprods_unit _ _ P).
Qed.
Lemma r_angular (a b : gquat R) : gangular_distance RN a b = angular_distance (q_of a) (q_of b).
Proof. destruct a, b. unfold gangular_distance, angular_distance, norm, gnorm, gdot, gqmul, q_of, qmul, qconj, qvec, dot. cbn. repeat f_equal; ring. Qed.

Section Direction.
  Variables (t0 : R) (d : nat * nat) (e : R) (dirs : list (nat * nat)).
  Notation JN := (jet_num e dirs).
  Notation rel := (rel t0 d).
  Notation relQ := (relQ t0 d).
  Notation relM := (relM t0 d).

  Lemma rel_root k M J : relM M J -> rel (fun s => root RN k (M s)) (root JN k J).
  Proof.
    intros ((A & B & C) & (D & E & F) & (G & H & I)). destruct k; unfold root; cbn [RN real_num jet_num add sub lit];
      repeat first [ assumption | apply rel_const | apply rel_add | apply rel_sub ].
  Qed.
  Lemma relQ_way k M J : relM M J -> 0 < root RN k (M t0) -> relQ (fun s => read_way RN k (M s)) (read_way JN k J).
  Proof.
    intros HM Hp. pose proof (rel_root k M J HM) as HR. pose proof (rel_sqrt t0 d _ _ Hp HR) as HS.
    assert (HT : rel (fun s => / 2 / sqrt (root RN k (M s))) (jet_div (jet_lit (/ 2)) (jet_sqrt (root JN k J)))).
    { apply rel_div; [ | apply rel_const | exact HS ]. pose proof (sqrt_lt_R0 _ Hp). apply Rgt_not_eq. exact H. }
    assert (HP : rel (fun s => / 2 * sqrt (root RN k (M s))) (jet_mul (jet_lit (/ 2)) (jet_sqrt (root JN k J)))).
    { apply rel_mul; [ apply rel_const | exact HS ]. }
    destruct HM as ((A & B & C) & (D & E & F) & (G & H & I)).
    unfold read_way. cbv zeta. destruct k; cbn [RN real_num jet_num add sub mul div lit nsqrt];
      (split; split; cbn [gw gi gj gk]); repeat first [ exact HP | exact HT | assumption | apply rel_mul | apply rel_add | apply rel_sub ].
  Qed.
  Lemma relQ_mul A B JA JB : relQ A JA -> relQ B JB -> relQ (fun s => gqmul RN (A s) (B s)) (gqmul JN JA JB).
  Proof.
    intros [[A1 A2] [A3 A4]] [[B1 B2] [B3 B4]]. unfold gqmul. cbn [RN real_num jet_num add sub mul].
    split; split; cbn [gw gi gj gk]; repeat first [ assumption | apply rel_mul | apply rel_add | apply rel_sub ].
  Qed.
  Definition gqconj (N : num) (b : gquat (T N)) : gquat (T N) := GQ (gw b) (opp N (gi b)) (opp N (gj b)) (opp N (gk b)).
  Lemma relQ_conj B JB : relQ B JB -> relQ (fun s => gqconj RN (B s)) (gqconj JN JB).
  Proof.
    intros [[B1 B2] [B3 B4]]. split; split; cbn [gqconj gw gi gj gk RN real_num jet_num opp]; first [ assumption | apply rel_opp; assumption ].
  Qed.
  Lemma rel_angular A B JA JB : relQ A JA -> relQ B JB ->
    let D := gqmul RN (A t0) (gqconj RN (B t0)) in gw D <> 0 -> 0 < gdot RN (G3 (gi D) (gj D) (gk D)) (G3 (gi D) (gj D) (gk D)) ->
    rel (fun s => gangular_distance RN (A s) (B s)) (gangular_distance JN JA JB).
  Proof.
    intros HA HB D W V. pose proof (relQ_mul _ _ _ _ HA (relQ_conj _ _ HB)) as Q.
    destruct Q as [[Q1 Q2] [Q3 Q4]].
    unfold gangular_distance. cbv zeta. cbn [RN real_num jet_num mul lit natan2 nabs]. apply rel_mul; [ apply rel_const | ].
    apply (rel_atan2 t0 d); [ apply Rabs_pos_lt; exact W | | exact (rel_abs t0 d (fun s => gw (gqmul RN (A s) (gqconj RN (B s)))) _ W Q1) ].
    apply (rel_norm t0 d e dirs (fun s => G3 (gi (gqmul RN (A s) (gqconj RN (B s)))) (gj (gqmul RN (A s) (gqconj RN (B s))))
      (gk (gqmul RN (A s) (gqconj RN (B s)))))); [ exact V | ].
    split; [ exact Q2 | split; [ exact Q3 | exact Q4 ] ].
  Qed.
  Lemma relM_cast m : relM (fun _ => gcastM RN m) (gcastM JN m).
  Proof. apply (relI_cast t0 d e dirs (Iso m (V3 0 0 0))). Qed.
  (** Neither the same orientation nor the opposite *)
  Lemma rel_turn m M J : is_rot m -> (forall s, is_rot (m_of (M s))) -> relM M J ->
    0 < angular_distance (quat_of_mat m) (quat_of_mat (m_of (M t0))) < PI ->
    rel (fun s => gangular_distance RN (gquat_of_mat RN (gcastM RN m)) (gquat_of_mat RN (M s)))
      (gangular_distance JN (gquat_of_mat JN (gcastM JN m)) (gquat_of_mat JN J)).
  Proof.
    intros Hm HM HR A. rewrite (quat_chosen JN J), (quat_chosen JN (gcastM JN m)). pose proof (relM_cast m) as Rm.
    set (k := chosen JN J). set (l := chosen JN (gcastM JN m)).
    pose proof (chosen_root e dirs J) as Pk. fold k in Pk. pose proof (chosen_root e dirs (gcastM JN m)) as Pl. fold l in Pl.
    pose proof (rel_root k M J HR) as Rk. rewrite <- (proj1 Rk) in Pk.
    pose proof (rel_root l _ _ Rm) as Rl. rewrite <- (proj1 Rl) in Pl.
    assert (Same : forall s, 0 < root RN k (M s) ->
      gangular_distance RN (gquat_of_mat RN (gcastM RN m)) (gquat_of_mat RN (M s)) =
      gangular_distance RN (read_way RN l (gcastM RN m)) (read_way RN k (M s))).
    { intros s Hs. rewrite !r_angular, !q_quat_of_mat.
      rewrite (angular_same _ _ _ (way_same k (M s) (HM s) Hs)). apply angular_same_l. apply way_same; [ | exact Pl ].
      rewrite m_cast. exact Hm. }
    apply (rel_near t0 d _ (fun s => gangular_distance RN (read_way RN l (gcastM RN m)) (read_way RN k (M s)))).
    { apply (near_imp t0 (fun s => 0 < root RN k (M s))); [ exact Same | ].
      apply near_pos; [ exact (rel_continuity t0 d _ _ Rk) | exact Pk ]. }
    pose proof (Same t0 Pk) as E. rewrite (r_angular (gquat_of_mat RN _)), !q_quat_of_mat, m_cast in E. rewrite E in A. clear E Same.
    set (a := read_way RN l (gcastM RN m)) in *. pose (b := read_way RN k (M t0)). fold b in A.
    assert (Ua : qnorm2 (q_of a) = 1). { eapply qprods_unit. apply way_prods; [ rewrite m_cast; exact Hm | exact Pl ]. }
    assert (Ub : qnorm2 (q_of b) = 1). { eapply qprods_unit. apply way_prods; [ apply HM | exact Pk ]. }
    assert (Ud : qnorm2 (q_of (gqmul RN a (gqconj RN b))) = 1).
    { change (q_of (gqmul RN a (gqconj RN b))) with (qmul (q_of a) (qconj (q_of b))). rewrite qmul_norm, Ua.
      replace (qnorm2 (qconj (q_of b))) with (qnorm2 (q_of b)) by (unfold qnorm2, qconj; cbn; ring). rewrite Ub. ring. }
    set (D := gqmul RN a (gqconj RN b)) in *.
    assert (Dd : gw D * gw D + gdot RN (G3 (gi D) (gj D) (gk D)) (G3 (gi D) (gj D) (gk D)) = 1).
    { rewrite <- Ud. unfold qnorm2, gdot, q_of. cbn. ring. }
    assert (AD : gangular_distance RN a b = 2 * atan2 (sqrt (gdot RN (G3 (gi D) (gj D) (gk D)) (G3 (gi D) (gj D) (gk D)))) (Rabs (gw D))) by reflexivity.
    rewrite AD in A. clear AD.
    apply (rel_angular (fun _ => a) (fun s => read_way RN k (M s))); fold b; fold D.
    - exact (relQ_way l _ _ Rm Pl).
    - exact (relQ_way k _ _ HR Pk).
    - intros W. rewrite W, Rabs_R0 in A. rewrite W in Dd. replace (gdot RN _ _) with 1 in A by lra. rewrite sqrt_1 in A.
      unfold atan2 in A. destruct (Rlt_dec 0 0); [ lra | ]. destruct (Rlt_dec 0 1); lra.
    - apply Rnot_le_lt. intros V. rewrite (sqrt_neg_0 _ V) in A.
      assert (gw D <> 0) by (intros Z; rewrite Z in Dd; lra). pose proof (Rabs_pos_lt _ H). unfold atan2 in A.
      destruct (Rlt_dec 0 (Rabs (gw D))); [ | contradiction ]. unfold Rdiv in A. rewrite Rmult_0_l, atan_0 in A. lra.
  Qed.
End Direction.

Lemma camera_rigid cc tc jc jt m C : rigid (base_offset cc) -> rigid (base_offset tc) ->
  dual_camera_to_target cc tc jc jt m numbered = Ok C -> rigid C.
Proof.
  intros Hc Ht H. change numbered with (constructParameters 0 1 2 3 4 5 6 7) in H. rewrite dual_eq in H.
  destruct (getFK cc jc (map_offsets m 0 (dof cc))) as [ a | | ] eqn:Ea; cbn [bind] in H; try discriminate.
  destruct (getFK tc jt (map_offsets m 1 (dof tc))) as [ b | | ] eqn:Eb; cbn [bind] in H; try discriminate.
  injection H as <-. apply kin_target_rigid; [ exact (fk_rigid _ _ _ _ Hc Ea) | exact (fk_rigid _ _ _ _ Ht Eb) ].
Qed.

Section Pose.
  Variables (e : R) (dirs : list (nat * nat)) (x : values).
  Notation JN := (jet_num e dirs).
  Hypothesis He : 0 <= e <= DBL_EPS.
  Hypotheses (T3 : clear_turn (read3 x 3)) (T5 : clear_turn (read3 x 5)) (T7 : clear_turn (read3 x 7)).
  Variables (cc tc : dh_chain) (me : kin_measurement) (w : R).
  Hypotheses (Rc : rigid (base_offset cc)) (Rt : rigid (base_offset tc)) (Rm : rigid (km_camera_to_target me)).
  Notation jc := (km_camera_chain_joints me).
  Notation jt := (km_target_chain_joints me).

  Lemma pose_generic y : gdualCostPose6D RN me cc tc w y = dualCostPose6D me cc tc w numbered y.
  Proof.
    unfold gdualCostPose6D, dualCostPose6D. rewrite <- i_camera_to_target. destruct (gcamera_to_target RN cc tc jc jt y) as [ a | | ]; try reflexivity.
    cbn [bind rmap]. cbv zeta. rewrite r_angular, !q_quat_of_mat. cbn [is_nan RN real_num].
    rewrite <- (i_cast (km_camera_to_target me)) at 4 5 6 7. rewrite <- i_inv, <- i_mul. reflexivity.
  Qed.
  Variable C : iso.
  Hypothesis EC : dual_camera_to_target cc tc jc jt x numbered = Ok C.

  (** The jets of the transform, for all directions at once *)
  Lemma jets_camera : exists j, gcamera_to_target JN cc tc jc jt (seed x) = Ok j /\
    forall b i, exists G, (forall s, gcamera_to_target RN cc tc jc jt (with_value x b i s) = Ok (G s)) /\
      relI (x b i) (b, i) G j /\ i_of (G (x b i)) = C /\ forall s, rigid (i_of (G s)).
  Proof.
    pose proof (relI_camera_to_target e dirs x He T3 T5 T7 cc tc jc jt) as H.
    pose proof (i_camera_to_target cc tc jc jt x) as EX. rewrite EC in EX.
    destruct (gcamera_to_target JN cc tc jc jt (seed x)) as [ j | er | ].
    - exists j. split; [ reflexivity | ]. intros b i. destruct (H b i) as (G & E & HG). exists G. split; [ exact E | ]. split; [ exact HG | ].
      split.
      + rewrite <- (with_same x b i), E in EX. cbn [rmap] in EX. injection EX. auto.
      + intros s. pose proof (i_camera_to_target cc tc jc jt (with_value x b i s)) as K. rewrite E in K. symmetry in K.
        exact (camera_rigid _ _ _ _ _ _ Rc Rt K).
    - specialize (H 0%nat 0%nat). cbn [relRes] in H. specialize (H (x 0%nat 0%nat)). rewrite with_same in H. rewrite H in EX. discriminate.
    - specialize (H 0%nat 0%nat). cbn [relRes] in H. specialize (H (x 0%nat 0%nat)). rewrite with_same in H. rewrite H in EX. discriminate.
  Qed.
  Lemma pose_derivatives a : angle_between (lin (km_camera_to_target me)) (lin C) a -> 0 < a < PI ->
    gives_derivatives_res (dualCostPose6D me cc tc w numbered) x (gdualCostPose6D JN me cc tc w (seed x)).
  Proof.
    intros Ha Pa. destruct jets_camera as (j & Ej & HJ).
    pose proof (camera_rigid _ _ _ _ _ _ Rc Rt EC) as RC.
    assert (Ad : angular_distance (quat_of_mat (lin (km_camera_to_target me))) (quat_of_mat (lin C)) = a).
    { apply (angle_between_unique (lin (km_camera_to_target me)) (lin C)); [ exact RC | | exact Ha ].
      apply angular_distance_angle; [ exact Rm | exact RC ]. }
    assert (Turn : forall b i G, (forall s, rigid (i_of (G s))) -> relI (x b i) (b, i) G j -> i_of (G (x b i)) = C ->
      rel (x b i) (b, i) (fun s => gangular_distance RN (gquat_of_mat RN (gcastM RN (lin (km_camera_to_target me)))) (gquat_of_mat RN (glin (G s))))
        (gangular_distance JN (gquat_of_mat JN (gcastM JN (lin (km_camera_to_target me)))) (gquat_of_mat JN (glin j)))).
    { intros b i G RG HG EG. apply (rel_turn (x b i) (b, i) e dirs (lin (km_camera_to_target me)) (fun s => glin (G s)) (glin j)).
      - exact Rm.
      - intros s. exact (RG s).
      - exact (proj1 HG).
      - change (m_of (glin (G (x b i)))) with (lin (i_of (G (x b i)))). rewrite EG, Ad. exact Pa. }
    assert (NN : jet_is_nan dirs (gangular_distance JN (gquat_of_mat JN (gcastM JN (lin (km_camera_to_target me)))) (gquat_of_mat JN (glin j))) = false).
    { unfold jet_is_nan. apply not_true_is_false. intros X. apply existsb_exists in X. destruct X as ([b i] & _ & X).
      destruct (HJ b i) as (G & E & HG & EG & RG). destruct (Turn b i G RG HG EG) as [_ (v & Ev & _)]. rewrite Ev in X. discriminate. }
    eapply gives_res.
    - unfold dualCostPose6D. rewrite EC. reflexivity.
    - intros b i. replace (fun s => dualCostPose6D me cc tc w numbered (with_value x b i s))
        with (fun s => gdualCostPose6D RN me cc tc w (with_value x b i s)) by (extensionality s; apply pose_generic).
      unfold gdualCostPose6D. rewrite Ej. cbn [bind]. cbv zeta.
      destruct (HJ b i) as (G & E & HG & EG & RG). eexists. split; [ intros s; rewrite E; reflexivity | ]. cbv beta zeta.
      pose proof (relI_mul (x b i) (b, i) e dirs _ _ _ _ (relI_cast (x b i) (b, i) e dirs (km_camera_to_target me))
        (relI_inv (x b i) (b, i) e dirs _ _ HG)) as [_ (Tx & Ty & Tz)].
      apply relL_cons; [ exact Tx | ]. apply relL_cons; [ exact Ty | ]. apply relL_cons; [ exact Tz | ]. apply relL_cons; [ | apply relL_nil ].
      cbn [glin gcastI is_nan jet_num RN real_num]. rewrite NN. cbn [mul lit]. apply rel_mul; [ apply rel_const | ]. exact (Turn b i G RG HG EG).
    - intros y. unfold dualCostPose6D. destruct (camera_ok cc tc jc jt x y) as [C' ->]; [ rewrite EC; eexists; reflexivity | ].
      eexists. reflexivity.
  Qed.
End Pose.

(** ** Equal orientations *)
Section Agreement.
  Variables (e : R) (dirs : list (nat * nat)).
  Notation JN := (jet_num e dirs).
  Definition nan (j : jet) : Prop := forall d, jv j d = NaN.
  Definition finite (j : jet) (d : nat * nat) : Prop := exists v, jv j d = Fin v.
  Lemma xmul_nan a : xmul a NaN = NaN.
  Proof. destruct a; reflexivity. Qed.
  Lemma xadd_nan a : xadd a NaN = NaN.
  Proof. destruct a; reflexivity. Qed.
  Lemma rel_finite t0 d f j : rel t0 d f j -> finite j d.
  Proof. intros [_ (v & H & _)]. exists v. exact H. Qed.
  Lemma square_zero j d : ja j = 0 -> finite j d -> jv (jet_mul j j) d = Fin 0.
  Proof. intros Z (v & H). unfold jet_mul. cbn [jv]. rewrite H, Z. cbn [xmul xadd]. f_equal. ring. Qed.
  Lemma norm_zero_nan (v : gvec jet) d : ja (gx v) = 0 -> ja (gy v) = 0 -> ja (gz v) = 0 ->
    finite (gx v) d -> finite (gy v) d -> finite (gz v) d -> ja (gnorm JN v) = 0 /\ jv (gnorm JN v) d = NaN.
  Proof.
    intros X Y Z Fx Fy Fz. unfold gnorm, gdot. cbn [jet_num nsqrt add mul].
    set (j := jet_add (jet_add (jet_mul (gx v) (gx v)) (jet_mul (gy v) (gy v))) (jet_mul (gz v) (gz v))).
    assert (A : ja j = 0). { unfold j, jet_add, jet_mul. cbn [ja]. rewrite X, Y, Z. ring. }
    assert (B : jv j d = Fin 0).
    { pose proof (square_zero (gx v) d X Fx) as Sx. pose proof (square_zero (gy v) d Y Fy) as Sy. pose proof (square_zero (gz v) d Z Fz) as Sz.
      revert Sx Sy Sz. unfold j. generalize (jet_mul (gx v) (gx v)) (jet_mul (gy v) (gy v)) (jet_mul (gz v) (gz v)). intros a b c Sx Sy Sz.
      unfold jet_add. cbn [jv]. rewrite Sx, Sy, Sz. cbn [xadd]. f_equal. ring. }
    change (ja (jet_sqrt j) = 0 /\ jv (jet_sqrt j) d = NaN).
    clearbody j. unfold jet_sqrt. cbn [ja jv]. rewrite A, B, sqrt_0. split; [ reflexivity | ]. unfold xinv.
    destruct (Req_EM_T (2 * 0) 0) as [ _ | X0 ]; [ | lra ]. cbn [xmul]. unfold inf_times.
    destruct (Req_EM_T 0 0) as [ _ | X0 ]; [ reflexivity | lra ].
  Qed.
  Lemma angular_nan (a b : gquat jet) d : ja (gi (gqmul JN a (gqconj JN b))) = 0 -> ja (gj (gqmul JN a (gqconj JN b))) = 0 ->
    ja (gk (gqmul JN a (gqconj JN b))) = 0 -> finite (gi (gqmul JN a (gqconj JN b))) d -> finite (gj (gqmul JN a (gqconj JN b))) d ->
    finite (gk (gqmul JN a (gqconj JN b))) d -> jv (gangular_distance JN a b) d = NaN.
  Proof.
    intros X Y Z Fx Fy Fz. unfold gangular_distance. cbv zeta.
    set (D := gqmul JN a _) in *. destruct (norm_zero_nan (G3 (gi D) (gj D) (gk D)) d X Y Z Fx Fy Fz) as [N0 N1].
    cbn [jet_num mul lit natan2 nabs]. unfold jet_mul, jet_atan2. cbn [jv ja jet_lit]. rewrite N1.
    rewrite xmul_nan, xadd_nan, xmul_nan. reflexivity.
  Qed.
End Agreement.
Section Agree.
  Variables (e : R) (dirs : list (nat * nat)) (x : values).
  Notation JN := (jet_num e dirs).
  Hypothesis He : 0 <= e <= DBL_EPS.
  Hypotheses (T3 : clear_turn (read3 x 3)) (T5 : clear_turn (read3 x 5)) (T7 : clear_turn (read3 x 7)).
  Variables (cc tc : dh_chain) (me : kin_measurement) (w : R).
  Hypotheses (Rc : rigid (base_offset cc)) (Rt : rigid (base_offset tc)) (Rm : rigid (km_camera_to_target me)).
  Variable C : iso.
  Hypothesis EC : dual_camera_to_target cc tc (km_camera_chain_joints me) (km_target_chain_joints me) x numbered = Ok C.
  Lemma pose_agreement : dirs <> [] -> lin (km_camera_to_target me) = lin C ->
    exists tx ty tz, gdualCostPose6D JN me cc tc w (seed x) = Ok [tx; ty; tz; jet_lit 0].
  Proof.
    intros Hd HL. destruct (jets_camera e dirs x He T3 T5 T7 cc tc me Rc Rt C EC) as (j & Ej & HJ).
    unfold gdualCostPose6D. rewrite Ej. cbn [bind]. cbv zeta. cbn [glin gcastI is_nan jet_num].
    assert (NN : jet_is_nan dirs (gangular_distance JN (gquat_of_mat JN (gcastM JN (lin (km_camera_to_target me)))) (gquat_of_mat JN (glin j))) = true).
    { assert (exists b i, In (b, i) dirs) as (b & i & Hi).
      { destruct dirs as [ | [b i] ds ]; [ congruence | ]. exists b, i. left. reflexivity. }
      unfold jet_is_nan. apply existsb_exists. exists (b, i). split; [ exact Hi | ].
      destruct (HJ b i) as (G & E & HG & EG & RG).
      assert (Last : forall q, q = NaN -> match q with NaN => true | _ => false end = true) by (intros q ->; reflexivity). apply Last. clear Last.
      rewrite (quat_chosen JN (glin j)), (quat_chosen JN (gcastM JN _)).
      set (k := chosen JN (glin j)). set (l := chosen JN (gcastM JN (lin (km_camera_to_target me)))).
      pose proof (chosen_root e dirs (glin j)) as Pk. fold k in Pk. pose proof (chosen_root e dirs (gcastM JN (lin (km_camera_to_target me)))) as Pl. fold l in Pl.
      pose proof (rel_root (x b i) (b, i) e dirs k _ _ (proj1 HG)) as Rk. pose proof (proj1 Rk) as Ek. cbv beta in Ek.
      assert (Pk' : 0 < root RN k (glin (G (x b i)))) by exact (eq_ind_r (fun z => 0 < z) Pk Ek). clear Pk. rename Pk' into Pk.
      pose proof (relM_cast (x b i) (b, i) e dirs (lin (km_camera_to_target me))) as Rcast.
      pose proof (rel_root (x b i) (b, i) e dirs l _ _ Rcast) as Rl. pose proof (proj1 Rl) as El. cbv beta in El.
      assert (Pl' : 0 < root RN l (gcastM RN (lin (km_camera_to_target me)))) by exact (eq_ind_r (fun z => 0 < z) Pl El). clear Pl. rename Pl' into Pl.
      pose proof (relQ_mul _ _ e dirs _ _ _ _ (relQ_way (x b i) (b, i) e dirs l _ _ Rcast Pl)
        (relQ_conj _ _ e dirs _ _ (relQ_way (x b i) (b, i) e dirs k _ _ (proj1 HG) Pk))) as [[Q1 Q2] [Q3 Q4]].
      assert (S : q_of (read_way RN l (gcastM RN (lin (km_camera_to_target me)))) = q_of (read_way RN k (glin (G (x b i)))) \/
                  q_of (read_way RN l (gcastM RN (lin (km_camera_to_target me)))) = qneg (q_of (read_way RN k (glin (G (x b i)))))).
      { apply (qprods_sign _ _ (lin (km_camera_to_target me))).
        - rewrite <- (m_cast (lin (km_camera_to_target me))) at 2. apply way_prods; [ rewrite m_cast; exact Rm | exact Pl ].
        - rewrite HL, <- EG. apply way_prods; [ apply RG | exact Pk ]. }
      set (A := read_way RN l (gcastM RN (lin (km_camera_to_target me)))) in S. set (B := read_way RN k (glin (G (x b i)))) in S.
      assert (V : gi (gqmul RN A (gqconj RN B)) = 0 /\ gj (gqmul RN A (gqconj RN B)) = 0 /\ gk (gqmul RN A (gqconj RN B)) = 0).
      { clearbody A B. destruct A as [a0 a1 a2 a3], B as [b0 b1 b2 b3]. unfold q_of, qneg in S. cbn [gw gi gj gk qw qx qy qz] in S.
        unfold gqmul, gqconj. cbn [gw gi gj gk RN real_num T mul add sub opp].
        destruct S as [ S | S ]; injection S as -> -> -> ->; (split; [ ring | split; ring ]). }
      destruct V as (V1 & V2 & V3).
      apply angular_nan; [ exact (eq_trans (eq_sym (proj1 Q2)) V1) | exact (eq_trans (eq_sym (proj1 Q3)) V2) | exact (eq_trans (eq_sym (proj1 Q4)) V3)
        | exact (rel_finite _ _ _ _ Q2) | exact (rel_finite _ _ _ _ Q3) | exact (rel_finite _ _ _ _ Q4) ]. }
    rewrite NN. eexists _, _, _. reflexivity.
  Qed.
End Agree.
