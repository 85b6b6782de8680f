(** The templates on doubles are the residuals of the model; on jets they give the derivatives. *)
From Coq Require Import Reals Lra Lia List Bool Arith.
From Verif.Base Require Import Geom Outcome Matrix.
From Verif.Model Require Import Pose HandEye DhChain Kinematic MaxLikelihood Jet Functors.
From Verif.Spec Require Import DerivativeSpec.
From Verif.Proofs Require Import JetProofs.
Import ListNotations.
Local Open Scope R_scope.

Lemma DBL_EPS_pos : 0 < DBL_EPS.
Proof. unfold DBL_EPS. apply Rinv_0_lt_compat, pow_lt. lra. Qed.

(** ** On doubles *)
Notation RN := real_num.
Definition v_of (a : gvec R) : vec3 := V3 (gx a) (gy a) (gz a).
Definition v2_of (a : gvec2 R) : vec2 := V2 (g2x a) (g2y a).
Definition m_of (a : gmat R) : mat3 := M3 (g00 a) (g01 a) (g02 a) (g10 a) (g11 a) (g12 a) (g20 a) (g21 a) (g22 a).
Definition i_of (a : giso R) : iso := Iso (m_of (glin a)) (v_of (gtr a)).
Definition q_of (a : gquat R) : quat := Q (gw a) (gi a) (gj a) (gk a).
Ltac open := cbn [T lit add sub mul div opp nsqrt nsin ncos nabs natan2 gt is_zero is_nan eps real_num jet_num
  gx gy gz g2x g2y g00 g01 g02 g10 g11 g12 g20 g21 g22 glin gtr gw gi gj gk ge0 ge1 ge2 ge3
  vx vy vz px py m00 m01 m02 m10 m11 m12 m20 m21 m22 lin tr qw qx qy qz
  v_of v2_of m_of i_of q_of gcast gcastM gcastI].
Lemma bool_if {A} (P : Prop) (c : {P} + {~ P}) (a b : A) : (if (if c then true else false) then a else b) = (if c then a else b).
Proof. destruct c; reflexivity. Qed.

Lemma v_cast v : v_of (gcast RN v) = v.
Proof. destruct v; reflexivity. Qed.
Lemma m_cast m : m_of (gcastM RN m) = m.
Proof. destruct m; reflexivity. Qed.
Lemma i_cast m : i_of (gcastI RN m) = m.
Proof. destruct m as [l t]. unfold i_of, gcastI. open. rewrite <- (m_cast l) at 2. rewrite <- (v_cast t) at 2. reflexivity. Qed.
Lemma v_normalized (a : gvec R) : v_of (gnormalized RN a) = normalized (v_of a).
Proof.
  unfold gnormalized, normalized, norm, gdot, dot, vscale. open. rewrite bool_if. destruct (Rlt_dec _ _); [ | reflexivity ].
  unfold v_of. open. unfold Rdiv. f_equal; apply Rmult_comm.
Qed.
Lemma m_aa angle axis : m_of (gaa_matrix RN angle axis) = aa_matrix angle (v_of axis).
Proof. reflexivity. Qed.
Lemma i_mul a b : i_of (giso_mul RN a b) = iso_mul (i_of a) (i_of b).
Proof. reflexivity. Qed.
Lemma i_app a v : v_of (giso_app RN a v) = iso_app (i_of a) (v_of v).
Proof. reflexivity. Qed.
Lemma i_inv a : i_of (giso_inv RN a) = iso_inv (i_of a).
Proof. reflexivity. Qed.
Lemma v_rotate (a p : gvec R) : v_of (gaa_rotate_point RN a p) = aa_rotate_point (v_of a) (v_of p).
Proof.
  unfold gaa_rotate_point, aa_rotate_point. cbv zeta. open. rewrite bool_if.
  change (gdot RN a a) with (dot (v_of a) (v_of a)). destruct (Rlt_dec _ _); [ | reflexivity ].
  unfold gcross, gdot, cross, dot. open. unfold Rdiv. rewrite !Rmult_1_l. reflexivity.
Qed.
Lemma v_transform a t p : v_of (gtransformPoint RN a t p) = transformPoint (v_of a) (v_of t) (v_of p).
Proof. unfold gtransformPoint, transformPoint. cbv zeta. rewrite <- v_rotate. reflexivity. Qed.
Lemma v_pose pose p : v_of (gposeTransformPoint RN pose p) = poseTransformPoint pose (v_of p).
Proof. unfold gposeTransformPoint, poseTransformPoint. rewrite v_transform. reflexivity. Qed.
Lemma v_project_arr intr (p : gvec R) : v2_of (gprojectPoint_arr RN intr p) = projectPoint_arr intr (v_of p).
Proof.
  unfold gprojectPoint_arr, projectPoint_arr, v2_of, v_of. cbv zeta. open. rewrite !bool_if. destruct (Req_EM_T (gz p) 0); reflexivity.
Qed.
Lemma v_project_eig intr (p : gvec R) : v2_of (gprojectPoint_eig RN intr p) = projectPoint_eig intr (v_of p).
Proof.
  unfold gprojectPoint_eig, projectPoint_eig, v2_of, v_of. cbv zeta. open. rewrite !bool_if. destruct (Rlt_dec _ _); reflexivity.
Qed.

(** ** On jets *)
Section Direction.
  Variables (t0 : R) (d : nat * nat) (e : R) (dirs : list (nat * nat)).
  Notation JN := (jet_num e dirs).
  Notation rel := (rel t0 d).
  Notation near := (near t0).

  Definition rel2 (F : R -> gvec2 R) (J : gvec2 jet) : Prop := rel (fun s => g2x (F s)) (g2x J) /\ rel (fun s => g2y (F s)) (g2y J).
  Definition rel3 (F : R -> gvec R) (J : gvec jet) : Prop :=
    rel (fun s => gx (F s)) (gx J) /\ rel (fun s => gy (F s)) (gy J) /\ rel (fun s => gz (F s)) (gz J).
  Definition relM (F : R -> gmat R) (J : gmat jet) : Prop :=
    (rel (fun s => g00 (F s)) (g00 J) /\ rel (fun s => g01 (F s)) (g01 J) /\ rel (fun s => g02 (F s)) (g02 J)) /\
    (rel (fun s => g10 (F s)) (g10 J) /\ rel (fun s => g11 (F s)) (g11 J) /\ rel (fun s => g12 (F s)) (g12 J)) /\
    (rel (fun s => g20 (F s)) (g20 J) /\ rel (fun s => g21 (F s)) (g21 J) /\ rel (fun s => g22 (F s)) (g22 J)).
  Definition relI (F : R -> giso R) (J : giso jet) : Prop := relM (fun s => glin (F s)) (glin J) /\ rel3 (fun s => gtr (F s)) (gtr J).
  Definition relQ (F : R -> gquat R) (J : gquat jet) : Prop :=
    (rel (fun s => gw (F s)) (gw J) /\ rel (fun s => gi (F s)) (gi J)) /\ (rel (fun s => gj (F s)) (gj J) /\ rel (fun s => gk (F s)) (gk J)).

  Ltac goals := repeat match goal with
    | |- rel2 _ _ => split
    | |- rel3 _ _ => split
    | |- relM _ _ => split
    | |- relI _ _ => split
    | |- relQ _ _ => split
    | |- _ /\ _ => split
    end.
  Ltac by_near N := revert N; apply near_imp; intros ? ->; reflexivity.
  Lemma rel2_near F G J : near (fun s => F s = G s) -> rel2 G J -> rel2 F J.
  Proof. intros N [A B]. split; (eapply rel_near; [ | eassumption ]); by_near N. Qed.
  Lemma rel3_near F G J : near (fun s => F s = G s) -> rel3 G J -> rel3 F J.
  Proof. intros N (A & B & C). goals; (eapply rel_near; [ | eassumption ]); by_near N. Qed.
  Lemma relM_near F G J : near (fun s => F s = G s) -> relM G J -> relM F J.
  Proof. intros N ((A & B & C) & (D & E & G') & (H & I & K)). goals; (eapply rel_near; [ | eassumption ]); by_near N. Qed.
  Lemma relI_near F G J : near (fun s => F s = G s) -> relI G J -> relI F J.
  Proof. intros N [A B]. split; [ eapply relM_near; [ | eassumption ] | eapply rel3_near; [ | eassumption ] ]; by_near N. Qed.
  Lemma relQ_near F G J : near (fun s => F s = G s) -> relQ G J -> relQ F J.
  Proof. intros N [[A B] [C D]]. goals; (eapply rel_near; [ | eassumption ]); by_near N. Qed.
  Lemma near_if {A} (c : R -> bool) jc (F G : R -> A) : near (fun s => c s = jc) ->
    near (fun s => (if c s then F s else G s) = (if jc then F s else G s)).
  Proof. apply near_imp. intros s ->. reflexivity. Qed.
  Lemma rel3_if (c : R -> bool) jc F G J K : near (fun s => c s = jc) -> (jc = true -> rel3 F J) -> (jc = false -> rel3 G K) ->
    rel3 (fun s => if c s then F s else G s) (if jc then J else K).
  Proof. intros N A B. apply (rel3_near _ _ _ (near_if c jc F G N)). destruct jc; auto. Qed.
  Lemma relI_if (c : R -> bool) jc F G J K : near (fun s => c s = jc) -> (jc = true -> relI F J) -> (jc = false -> relI G K) ->
    relI (fun s => if c s then F s else G s) (if jc then J else K).
  Proof. intros N A B. apply (relI_near _ _ _ (near_if c jc F G N)). destruct jc; auto. Qed.
  Lemma relQ_if (c : R -> bool) jc F G J K : near (fun s => c s = jc) -> (jc = true -> relQ F J) -> (jc = false -> relQ G K) ->
    relQ (fun s => if c s then F s else G s) (if jc then J else K).
  Proof. intros N A B. apply (relQ_near _ _ _ (near_if c jc F G N)). destruct jc; auto. Qed.

  Ltac rels := open; repeat first [ assumption | apply rel_const | apply rel_add | apply rel_sub | apply rel_mul | apply rel_opp
    | apply rel_sin | apply rel_cos ].
  Ltac split_all := repeat match goal with
    | H : rel2 _ _ |- _ => destruct H
    | H : rel3 _ _ |- _ => destruct H as (? & ? & ?)
    | H : relM _ _ |- _ => destruct H as ((? & ? & ?) & (? & ? & ?) & (? & ? & ?))
    | H : relI _ _ |- _ => destruct H
    | H : relQ _ _ |- _ => destruct H as ((? & ?) & (? & ?))
    end.

  Lemma rel3_cast v : rel3 (fun _ => gcast RN v) (gcast JN v).
  Proof. goals; rels. Qed.
  Lemma relI_cast v : relI (fun _ => gcastI RN v) (gcastI JN v).
  Proof. goals; rels. Qed.
  Lemma rel_dot A B JA JB : rel3 A JA -> rel3 B JB -> rel (fun s => gdot RN (A s) (B s)) (gdot JN JA JB).
  Proof. intros. split_all. unfold gdot. rels. Qed.
  Lemma relI_mul A B JA JB : relI A JA -> relI B JB -> relI (fun s => giso_mul RN (A s) (B s)) (giso_mul JN JA JB).
  Proof. intros. split_all. unfold giso_mul, gmmul, gadd, gmvec. goals; rels. Qed.
  Lemma relI_inv A JA : relI A JA -> relI (fun s => giso_inv RN (A s)) (giso_inv JN JA).
  Proof. intros. split_all. unfold giso_inv, gT, gneg, gmvec. goals; rels. Qed.
  Lemma rel3_app A B JA JB : relI A JA -> rel3 B JB -> rel3 (fun s => giso_app RN (A s) (B s)) (giso_app JN JA JB).
  Proof. intros. split_all. unfold giso_app, gadd, gmvec. goals; rels. Qed.
  Lemma relI_trans A JA : rel3 A JA -> relI (fun s => giso_trans RN (A s)) (giso_trans JN JA).
  Proof. intros. split_all. unfold giso_trans, gI3. goals; rels. Qed.
  Lemma relI_rot A JA : relM A JA -> relI (fun s => giso_rot RN (A s)) (giso_rot JN JA).
  Proof. intros. split_all. unfold giso_rot, g0. goals; rels. Qed.
  Lemma relI_id : relI (fun s => giso_id RN) (giso_id JN).
  Proof. unfold giso_id, gI3, g0. goals; rels. Qed.
  Lemma relM_aa A B JA JB : rel A JA -> rel3 B JB -> relM (fun s => gaa_matrix RN (A s) (B s)) (gaa_matrix JN JA JB).
  Proof. intros. split_all. unfold gaa_matrix. cbv zeta. goals; rels. Qed.
  Lemma rel_norm A JA : 0 < gdot RN (A t0) (A t0) -> rel3 A JA -> rel (fun s => gnorm RN (A s)) (gnorm JN JA).
  Proof. intros P H. unfold gnorm. open. apply rel_sqrt; [ exact P | ]. apply rel_dot; exact H. Qed.
  Lemma gt_true f jf g jg : rel f jf -> rel g jg -> jet_gt jf jg = true -> g t0 < f t0.
  Proof. intros [-> _] [-> _]. unfold jet_gt. destruct (Rlt_dec _ _); [ auto | discriminate ]. Qed.
  Lemma gt_false f jf g jg : rel f jf -> rel g jg -> jet_gt jf jg = false -> f t0 <= g t0.
  Proof. intros [-> _] [-> _]. unfold jet_gt. destruct (Rlt_dec _ _); [ discriminate | intros; lra ]. Qed.
  Lemma rel3_normalized A JA : 0 < gdot RN (A t0) (A t0) -> rel3 A JA -> rel3 (fun s => gnormalized RN (A s)) (gnormalized JN JA).
  Proof.
    intros P H. unfold gnormalized. cbv zeta. open. pose proof (rel_dot A A JA JA H H) as D.
    apply rel3_if.
    - apply (near_gt t0 d (fun s => gdot RN (A s) (A s)) (fun _ => 0) _ _ D (rel_const _ _ 0)). lra.
    - intros _. pose proof (rel_sqrt t0 d _ _ P D) as Q. pose proof (sqrt_lt_R0 _ P). cbn beta in *. split_all.
      goals; open; apply rel_div; try assumption; apply Rgt_not_eq; assumption.
    - intros _. exact H.
  Qed.
  Lemma rel3_rotate A B JA JB : rel3 A JA -> rel3 B JB -> gdot RN (A t0) (A t0) <> DBL_EPS ->
    rel3 (fun s => gaa_rotate_point RN (A s) (B s)) (gaa_rotate_point JN JA JB).
  Proof.
    intros HA HB NE. unfold gaa_rotate_point. cbv zeta. open. pose proof (rel_dot A A JA JA HA HA) as D.
    apply rel3_if.
    - apply (near_gt t0 d (fun s => gdot RN (A s) (A s)) (fun _ => DBL_EPS) _ _ D (rel_const _ _ DBL_EPS)). exact NE.
    - intros Hgt. pose proof (gt_true _ _ (fun _ => DBL_EPS) _ D (rel_const _ _ DBL_EPS) Hgt) as G. cbn beta in G. pose proof DBL_EPS_pos.
      assert (P : 0 < gdot RN (A t0) (A t0)) by lra.
      pose proof (rel_sqrt t0 d _ _ P D) as Q. pose proof (sqrt_lt_R0 _ P).
      assert (Qi : rel (fun s => 1 / sqrt (gdot RN (A s) (A s))) (jet_div (jet_lit 1) (jet_sqrt (gdot JN JA JA)))).
      { apply rel_div; [ apply Rgt_not_eq; assumption | apply rel_const | exact Q ]. }
      cbn beta in *. clear D. split_all. unfold gcross, gdot at 3 4 6 7 9 10. goals; rels.
    - intros _. split_all. unfold gcross. goals; rels.
  Qed.
  Lemma rel3_transform A B P JA JB JP : rel3 A JA -> rel3 B JB -> rel3 P JP -> gdot RN (A t0) (A t0) <> DBL_EPS ->
    rel3 (fun s => gtransformPoint RN (A s) (B s) (P s)) (gtransformPoint JN JA JB JP).
  Proof.
    intros HA HB HP NE. pose proof (rel3_rotate A P JA JP HA HP NE) as Q. unfold gtransformPoint. cbv zeta. split_all. goals; rels.
  Qed.
  (** Rotations that do not change may be on the switch. *)
  Lemma rel3_pose pose P JP : rel3 P JP -> rel3 (fun s => gposeTransformPoint RN pose (P s)) (gposeTransformPoint JN pose JP).
  Proof.
    intros HP. set (A := G3 (p_rx pose) (p_ry pose) (p_rz pose) : gvec R).
    destruct (Req_dec (gdot RN A A) DBL_EPS) as [E | NE].
    - unfold gposeTransformPoint, gtransformPoint. cbv zeta.
      assert (Q : rel3 (fun s => gaa_rotate_point RN A (P s))
        (gaa_rotate_point JN (G3 (jet_lit (p_rx pose)) (jet_lit (p_ry pose)) (jet_lit (p_rz pose))) JP)).
      { unfold gaa_rotate_point. cbv zeta. apply rel3_if.
        - apply near_all. intros s. unfold gdot. open. unfold jet_gt. cbn [ja jet_add jet_mul jet_lit]. reflexivity.
        - unfold gdot at 1. open. unfold jet_gt. cbn [ja jet_add jet_mul jet_lit]. unfold gdot, A in E. cbn in E. rewrite E.
          destruct (Rlt_dec DBL_EPS DBL_EPS); [ lra | discriminate ].
        - intros _. unfold A. split_all. unfold gcross. goals; rels. }
      unfold A in Q. split_all. goals; rels.
    - unfold gposeTransformPoint.
      apply (rel3_transform (fun _ => A) (fun _ => G3 (p_x pose) (p_y pose) (p_z pose))); [ unfold A; goals; rels | goals; rels | exact HP | exact NE ].
  Qed.
  Lemma rel_zif f g h jf jg jh : h t0 <> 0 -> rel f jf -> rel g jg -> rel h jh ->
    rel (fun s => if (if Req_EM_T (h s) 0 then true else false) then f s else g s) (if jet_is_zero jh then jf else jg).
  Proof. intros N Hf Hg Hh. apply rel_if; [ exact (near_zero t0 d h jh Hh N) | auto | auto ]. Qed.
  Lemma rel2_project_arr intr P JP : gz (P t0) <> 0 -> rel3 P JP ->
    rel2 (fun s => gprojectPoint_arr RN intr (P s)) (gprojectPoint_arr JN intr JP).
  Proof.
    intros N H. unfold gprojectPoint_arr. cbv zeta. split_all.
    goals; open; apply rel_add; try apply rel_const; (apply rel_mul; [ apply rel_const | ]); apply rel_zif; try assumption;
      apply rel_div; assumption.
  Qed.
  Lemma rel2_project_eig intr P JP : gz (P t0) <> 1 / 10 ^ 10 -> rel3 P JP ->
    rel2 (fun s => gprojectPoint_eig RN intr (P s)) (gprojectPoint_eig JN intr JP).
  Proof.
    intros N H. unfold gprojectPoint_eig. cbv zeta.
    assert (Q : rel3 (fun s => if gt RN (sub RN (gz (P s)) (lit RN 0)) (lit RN (1 / 10 ^ 10))
        then G3 (div RN (gx (P s)) (gz (P s))) (div RN (gy (P s)) (gz (P s))) (lit RN 1) else G3 (gx (P s)) (gy (P s)) (lit RN 1))
      (if gt JN (sub JN (gz JP) (lit JN 0)) (lit JN (1 / 10 ^ 10)) then G3 (div JN (gx JP) (gz JP)) (div JN (gy JP) (gz JP)) (lit JN 1)
       else G3 (gx JP) (gy JP) (lit JN 1))).
    { destruct H as (Hx & Hy & Hz).
      assert (Hz0 : rel (fun s => gz (P s) - 0) (jet_sub (gz JP) (jet_lit 0))) by (apply rel_sub; [ exact Hz | apply rel_const ]).
      apply rel3_if.
      - apply (near_gt t0 d (fun s => gz (P s) - 0) (fun _ => 1 / 10 ^ 10) _ _ Hz0 (rel_const _ _ _)). lra.
      - intros G. apply (gt_true _ _ (fun _ => 1 / 10 ^ 10) _ Hz0 (rel_const _ _ _)) in G. cbn beta in G.
        assert (0 < 1 / 10 ^ 10) by (apply Rdiv_lt_0_compat; [ lra | apply pow_lt; lra ]).
        goals; open; try apply rel_const; apply rel_div; try assumption; lra.
      - intros _. goals; rels. }
    split_all. unfold gmvec. goals; open; repeat (first [ apply rel_add | apply rel_mul | apply rel_const ]); assumption.
  Qed.
  Lemma rel2_project2 K P JK JP : (forall i, rel (fun s => K s i) (JK i)) -> gz (P t0) <> 0 -> rel3 P JP ->
    rel2 (fun s => gprojectPoints2 RN (K s) (P s)) (gprojectPoints2 JN JK JP).
  Proof.
    intros HK N H. unfold gprojectPoints2. cbv zeta. destruct H as (Hx & Hy & Hz).
    pose proof (rel_zif _ _ _ _ _ _ N Hx (rel_div t0 d _ _ _ _ N Hx Hz) Hz) as QX.
    pose proof (rel_zif _ _ _ _ _ _ N Hy (rel_div t0 d _ _ _ _ N Hy Hz) Hz) as QY.
    goals; open; repeat first [ apply HK | exact QX | exact QY | apply rel_const | apply rel_add | apply rel_mul ].
  Qed.
  (** Lists *)
  Definition relL (F : R -> list R) (J : list jet) : Prop :=
    (forall s, length (F s) = length J) /\ forall k, (k < length J)%nat -> rel (fun s => nth k (F s) 0) (nth k J (jet_lit 0)).
  Lemma relL_nil : relL (fun _ => []) [].
  Proof. split; [ reflexivity | ]. cbn. lia. Qed.
  Lemma relL_cons f F j J : rel f j -> relL F J -> relL (fun s => f s :: F s) (j :: J).
  Proof.
    intros H [L HL]. split; [ cbn; congruence | ]. intros [ | k ] Hk; [ exact H | ]. apply (HL k). cbn in Hk. lia.
  Qed.
  Lemma relL_map {A} (f : R -> A -> R) (j : A -> jet) l : (forall a, In a l -> rel (fun s => f s a) (j a)) -> relL (fun s => map (f s) l) (map j l).
  Proof.
    induction l as [ | a l IH ]; intros H; [ apply relL_nil | ]. cbn [map]. apply relL_cons; [ apply H; left; reflexivity | ].
    apply IH. intros b Hb. apply H. right. exact Hb.
  Qed.
  Lemma relL_app F G J K : relL F J -> relL G K -> relL (fun s => F s ++ G s)%list (J ++ K)%list.
  Proof.
    intros [L1 H1] [L2 H2]. split; [ intros s; rewrite !app_length; congruence | ]. intros k Hk. rewrite app_length in Hk.
    destruct (Nat.lt_ge_cases k (length J)) as [ C | C ].
    - rewrite (app_nth1 J) by exact C. apply (rel_ext _ _ _ (fun s => nth k (F s) 0)); [ | apply H1, C ].
      intros s. apply app_nth1. rewrite L1. exact C.
    - rewrite (app_nth2 J) by exact C. apply (rel_ext _ _ _ (fun s => nth (k - length J) (G s) 0)); [ | apply H2; lia ].
      intros s. rewrite app_nth2; rewrite L1; [ reflexivity | exact C ].
  Qed.
  Lemma relL_flat_map {A} (f : R -> A -> list R) (j : A -> list jet) l : (forall a, In a l -> relL (fun s => f s a) (j a)) ->
    relL (fun s => flat_map (f s) l) (flat_map j l).
  Proof.
    induction l as [ | a l IH ]; intros H; [ apply relL_nil | ]. cbn [flat_map]. apply relL_app; [ apply H; left; reflexivity | ].
    apply IH. intros b Hb. apply H. right. exact Hb.
  Qed.
  Lemma relL_image intr P JP obs : gz (P t0) <> 0 -> rel3 P JP -> relL (fun s => image_error RN intr (P s) obs) (image_error JN intr JP obs).
  Proof.
    intros N H. pose proof (rel2_project_arr intr P JP N H) as [A B]. unfold image_error. cbv zeta.
    repeat apply relL_cons; try apply relL_nil; open; (apply rel_sub; [ assumption | apply rel_const ]).
  Qed.
  Lemma relL_point P JP obs : rel3 P JP -> relL (fun s => point_error RN (P s) obs) (point_error JN JP obs).
  Proof.
    intros H. split_all. unfold point_error.
    repeat apply relL_cons; try apply relL_nil; open; (apply rel_sub; [ assumption | apply rel_const ]).
  Qed.
End Direction.
