(** Poses from nearly perfect data tend to the true pose. *)
From Coq Require Import Reals Lra Psatz List.
From Verif.Base Require Import Geom.
From Verif.Model Require Import Pose.
From Verif.Spec Require Import PinHole HomographySpec PnpSpec UniqueSpec.
From Verif.Proofs Require Import GeomLemmas RotLemmas AngleAxisLemmas UniqueLemmas LimitLemmas.
Import ListNotations.
Local Open Scope R_scope.

Ltac vec := apply vec3_ext; unfold iso_app; unfold vadd, vsub, vscale, vneg, cross, dot, mvec; cbn [vx vy vz].

(** A vector in terms of two others and their product *)
Definition in_frame (u w a b e : vec3) : vec3 :=
  vscale (/ dot (cross u w) (cross u w))
    (vadd (vadd (vscale (dot (cross e w) (cross u w)) a) (vscale (dot (cross u e) (cross u w)) b)) (vscale (dot e (cross u w)) (cross a b))).
Lemma in_frame_self u w e : cross u w <> vzero -> in_frame u w u w e = e.
Proof.
  intros N. assert (P : dot (cross u w) (cross u w) <> 0) by (intros Z; apply N, dot_zero, Z). unfold in_frame.
  apply vec3_ext; unfold vadd, vscale; cbn [vx vy vz]; apply (Rmult_eq_reg_l (dot (cross u w) (cross u w))); try exact P;
    rewrite <- Rmult_assoc, Rinv_r, Rmult_1_l by exact P; unfold dot, cross; cbn [vx vy vz]; ring.
Qed.
Lemma mvec_vadd A u v : mvec A (vadd u v) = vadd (mvec A u) (mvec A v).
Proof. vec; ring. Qed.
Lemma mvec_vscale A s v : mvec A (vscale s v) = vscale s (mvec A v).
Proof. vec; ring. Qed.
Lemma mvec_vsub A u v : mvec A (vsub u v) = vsub (mvec A u) (mvec A v).
Proof. vec; ring. Qed.
Lemma in_frame_turned A u w e : is_rot A -> cross u w <> vzero -> mvec A e = in_frame u w (mvec A u) (mvec A w) e.
Proof.
  intros HA N. rewrite <- (in_frame_self u w e N) at 1. unfold in_frame.
  rewrite mvec_vscale, !mvec_vadd, !mvec_vscale, rot_cross by exact HA. reflexivity.
Qed.

Section Near.
Context {X : Type} (F : (X -> Prop) -> Prop) (HF : is_filter F).

Lemma in_frame_tends u w a b e u0 w0 a0 b0 e0 : vtends F u u0 -> vtends F w w0 -> vtends F a a0 -> vtends F b b0 -> vtends F e e0 -> cross u0 w0 <> vzero ->
  vtends F (fun x => in_frame (u x) (w x) (a x) (b x) (e x)) (in_frame u0 w0 a0 b0 e0).
Proof.
  intros U W A B E N. unfold in_frame.
  assert (P : dot (cross u0 w0) (cross u0 w0) <> 0) by (intros Z; apply N, dot_zero, Z).
  apply (v_scale F HF).
  - apply (t_inv F HF); [ | exact P ]. apply (t_dot F HF); apply (v_cross F HF); assumption.
  - apply (v_add F HF); [ apply (v_add F HF) | ]; apply (v_scale F HF);
      try (apply (t_dot F HF)); try (apply (v_cross F HF)); assumption.
Qed.
Lemma cross_away u w u0 w0 : vtends F u u0 -> vtends F w w0 -> cross u0 w0 <> vzero -> F (fun x => cross (u x) (w x) <> vzero).
Proof.
  intros U W N. assert (P : dot (cross u0 w0) (cross u0 w0) <> 0) by (intros Z; apply N, dot_zero, Z).
  pose proof (t_dot F HF _ _ _ _ (v_cross F HF _ _ _ _ U W) (v_cross F HF _ _ _ _ U W)) as T.
  apply (f_imp F HF _ _ (t_away F HF _ _ T P)). intros x H Z. rewrite Z in H.
  replace (dot vzero vzero) with 0 in H by (unfold dot, vzero; cbn; ring). rewrite Rabs_R0 in H.
  pose proof (Rabs_pos (dot (cross u0 w0) (cross u0 w0))). lra.
Qed.
(** A rotation that takes two vectors to two others *)
Lemma turn_tends A A0 u w a b u0 w0 : F (fun x => is_rot (A x)) -> is_rot A0 ->
  F (fun x => mvec (A x) (u x) = a x) -> F (fun x => mvec (A x) (w x) = b x) ->
  vtends F u u0 -> vtends F w w0 -> vtends F a (mvec A0 u0) -> vtends F b (mvec A0 w0) -> cross u0 w0 <> vzero -> mtends F A A0.
Proof.
  intros HA HA0 Ea Eb U W TA TB N. apply (m_axes F HF). intros e.
  rewrite (in_frame_turned A0 u0 w0 e HA0 N).
  apply (v_ext F HF (fun x => in_frame (u x) (w x) (a x) (b x) e)).
  - apply (f_imp F HF _ _ (f_and F HF _ _ (f_and F HF _ _ HA (cross_away _ _ _ _ U W N)) (f_and F HF _ _ Ea Eb))).
    intros x [[H1 H2] [<- <-]]. symmetry. apply in_frame_turned; assumption.
  - apply in_frame_tends; auto. apply (v_const F HF).
Qed.
(** A pose that takes three points to three others *)
Lemma points_tend T T0 a b c : F (fun x => rigid (T x)) -> rigid T0 -> triangle a b c ->
  (forall p, In p [a; b; c] -> vtends F (fun x => iso_app (T x) p) (iso_app T0 p)) -> itends F T T0.
Proof.
  intros HT H0 N H.
  assert (D : forall T p q, mvec (lin T) (vsub p q) = vsub (iso_app T p) (iso_app T q)) by (intros; vec; ring).
  assert (L : mtends F (fun x => lin (T x)) (lin T0)).
  { apply (turn_tends _ _ (fun _ => vsub b a) (fun _ => vsub c a) (fun x => vsub (iso_app (T x) b) (iso_app (T x) a)) (fun x => vsub (iso_app (T x) c) (iso_app (T x) a)) (vsub b a) (vsub c a)); auto.
    - apply (f_all F HF). intros x. apply D.
    - apply (f_all F HF). intros x. apply D.
    - apply (v_const F HF).
    - apply (v_const F HF).
    - rewrite D. apply (v_sub F HF); apply H; cbn; auto.
    - rewrite D. apply (v_sub F HF); apply H; cbn; auto. }
  split; [ exact L | ].
  assert (E : forall T, tr T = vsub (iso_app T a) (mvec (lin T) a)) by (intros; vec; ring).
  rewrite E. apply (v_ext F HF (fun x => vsub (iso_app (T x) a) (mvec (lin (T x)) a))); [ apply (f_all F HF); intros x; symmetry; apply E | ].
  apply (v_sub F HF); [ apply H; cbn; auto | apply (v_mvec F HF); [ exact L | apply (v_const F HF) ] ].
Qed.

(** ** Images *)
(** The viewing ray of a pixel *)
Definition ray (k : intrinsics) (p : vec2) : vec3 := V3 ((px p - cx k) / fx k) ((py p - cy k) / fy k) 1.
Lemma on_ray k q : fx k <> 0 -> fy k <> 0 -> vz q <> 0 -> q = vscale (vz q) (ray k (pinhole k q)).
Proof. intros Fx Fy Z. unfold ray, pinhole, vscale. cbn [px py]. apply vec3_ext; cbn [vx vy vz]; field; auto. Qed.
Definition bracket (a b c : vec3) : R := dot a (cross b c).
Lemma bracket_scale r s t a b c : bracket (vscale r a) (vscale s b) (vscale t c) = r * s * t * bracket a b c.
Proof. unfold bracket, dot, cross, vscale; cbn [vx vy vz]; ring. Qed.
Lemma bracket_tends a b c a0 b0 c0 : vtends F a a0 -> vtends F b b0 -> vtends F c c0 -> tends F (fun x => bracket (a x) (b x) (c x)) (bracket a0 b0 c0).
Proof. intros. apply (t_dot F HF); [ assumption | apply (v_cross F HF); assumption ]. Qed.
Lemma ray_tends k p p0 : tends F (fun x => px (p x)) (px p0) -> tends F (fun x => py (p x)) (py p0) -> vtends F (fun x => ray k (p x)) (ray k p0).
Proof.
  intros A B. repeat split; cbn [ray vx vy vz]; [ | | apply (t_const F HF) ];
    (apply (t_mult F HF); [ apply (t_minus F HF); [ assumption | apply (t_const F HF) ] | apply (t_const F HF) ]).
Qed.
(** Depths in units of the depth of the fourth point *)
Definition depth_of (va vb vc wb1 wb2 wb3 : vec3) (A1 A2 : R) : R := A1 * bracket wb1 wb2 wb3 / (A2 * bracket va vb vc).
Lemma depth_right z z' s t A1 A2 K B1 B2 : z * s * t * B1 = A1 * K -> z' * s * t * B2 = A2 * K -> s <> 0 -> t <> 0 -> z' <> 0 -> A2 <> 0 -> B1 <> 0 -> K <> 0 ->
  z = z' * (A1 * B2 / (A2 * B1)).
Proof.
  intros E1 E2 Hs Ht Hz' H2 HB HK.
  apply (Rmult_eq_reg_r (s * t * B1 * A2)); [ | repeat apply Rmult_integral_contrapositive_currified; assumption ].
  replace (z' * (A1 * B2 / (A2 * B1)) * (s * t * B1 * A2)) with (A1 * (z' * s * t * B2)) by (field; auto).
  replace (z * (s * t * B1 * A2)) with (A2 * (z * s * t * B1)) by ring. rewrite E1, E2. ring.
Qed.
Lemma image_tends k T T0 a b c d : F (fun x => rigid (T x)) -> rigid T0 -> ~ edge_on T0 -> fx k <> 0 -> fy k <> 0 ->
  vz a = 0 -> vz b = 0 -> vz c = 0 -> vz d = 0 -> general_position a b c d ->
  (forall p, In p [a; b; c; d] -> 0 < vz (iso_app T0 p) /\ F (fun x => 0 < vz (iso_app (T x) p)) /\
     tends F (fun x => px (pinhole k (iso_app (T x) p))) (px (pinhole k (iso_app T0 p))) /\
     tends F (fun x => py (pinhole k (iso_app (T x) p))) (py (pinhole k (iso_app T0 p)))) -> itends F T T0.
Proof.
  intros HT H0 NE Fx Fy Za Zb Zc Zd (Gabc & Gabd & Gacd & Gbcd) H.
  set (v := fun p S => ray k (pinhole k (iso_app S p))).
  assert (V : forall p, In p [a; b; c; d] -> vtends F (fun x => v p (T x)) (v p T0)).
  { intros p Hp. destruct (H p Hp) as (_ & _ & A & B). apply ray_tends; assumption. }
  (* depths of the points in a pose in which they are in front *)
  set (good := fun S => rigid S /\ (0 < vz (iso_app S a) /\ 0 < vz (iso_app S b)) /\ (0 < vz (iso_app S c) /\ 0 < vz (iso_app S d)) /\ bracket (v a S) (v b S) (v c S) <> 0).
  set (sa := fun S => area a b c * bracket (v d S) (v b S) (v c S) / (area d b c * bracket (v a S) (v b S) (v c S))).
  set (sb := fun S => area a b c * bracket (v a S) (v d S) (v c S) / (area a d c * bracket (v a S) (v b S) (v c S))).
  set (sc := fun S => area a b c * bracket (v a S) (v b S) (v d S) / (area a b d * bracket (v a S) (v b S) (v c S))).
  assert (Adbc : area d b c <> 0) by (intros Z; apply Gbcd; unfold area in Z; unfold not_collinear; lra).
  assert (Aadc : area a d c <> 0) by (intros Z; apply Gacd; unfold area in Z; unfold not_collinear; lra).
  assert (Aabd : area a b d <> 0) by exact Gabd.
  assert (Q : forall S p, 0 < vz (iso_app S p) -> iso_app S p = vscale (vz (iso_app S p)) (v p S)).
  { intros S p Hp. apply on_ray; auto. lra. }
  assert (Br : forall S p q r, 0 < vz (iso_app S p) -> 0 < vz (iso_app S q) -> 0 < vz (iso_app S r) -> vz p = 0 -> vz q = 0 -> vz r = 0 ->
    vz (iso_app S p) * vz (iso_app S q) * vz (iso_app S r) * bracket (v p S) (v q S) (v r S) = area p q r *
      dot (tr S) (cross (V3 (m00 (lin S)) (m10 (lin S)) (m20 (lin S))) (V3 (m01 (lin S)) (m11 (lin S)) (m21 (lin S))))).
  { intros S p q r P1 P2 P3 Z1 Z2 Z3. rewrite <- flat_det, <- bracket_scale, <- !Q by assumption. reflexivity. }
  assert (D : forall S, good S -> vz (iso_app S a) = vz (iso_app S d) * sa S /\ vz (iso_app S b) = vz (iso_app S d) * sb S /\ vz (iso_app S c) = vz (iso_app S d) * sc S).
  { intros S (HS & (Pa & Pb) & (Pc & Pd) & B0).
    set (K := dot (tr S) (cross (V3 (m00 (lin S)) (m10 (lin S)) (m20 (lin S))) (V3 (m01 (lin S)) (m11 (lin S)) (m21 (lin S))))) in Br.
    pose proof (Br S a b c Pa Pb Pc Za Zb Zc) as E0. fold K in E0.
    assert (HK : K <> 0).
    { intros Z. rewrite Z, Rmult_0_r in E0. revert E0. repeat apply Rmult_integral_contrapositive_currified; auto; lra. }
    pose proof (Br S d b c Pd Pb Pc Zd Zb Zc) as E1. pose proof (Br S a d c Pa Pd Pc Za Zd Zc) as E2. pose proof (Br S a b d Pa Pb Pd Za Zb Zd) as E3. fold K in E1, E2, E3.
    unfold sa, sb, sc. split; [ | split ].
    - apply (depth_right _ _ (vz (iso_app S b)) (vz (iso_app S c)) _ _ K); auto; lra.
    - apply (depth_right _ _ (vz (iso_app S a)) (vz (iso_app S c)) _ _ K); auto; try lra; rewrite <- ?E0, <- ?E2; ring.
    - apply (depth_right _ _ (vz (iso_app S a)) (vz (iso_app S b)) _ _ K); auto; try lra; rewrite <- ?E0, <- ?E3; ring. }
  assert (G0 : good T0).
  { split; [ exact H0 | ]. split; [ split; apply H; cbn; auto | split; [ split; apply H; cbn; auto | ] ].
    intros Z. apply (flat_independent T0 a b c H0 NE Za Zb Zc Gabc).
    destruct (H a ltac:(cbn; auto)) as (Pa & _), (H b ltac:(cbn; auto)) as (Pb & _), (H c ltac:(cbn; auto)) as (Pc & _).
    rewrite flat_det by assumption. rewrite <- (Br T0 a b c Pa Pb Pc Za Zb Zc), Z. ring. }
  pose proof (bracket_tends _ _ _ _ _ _ (V a ltac:(cbn; auto)) (V b ltac:(cbn; auto)) (V c ltac:(cbn; auto))) as Tb. cbv beta in Tb.
  assert (G : F (fun x => good (T x))).
  { pose proof (t_away F HF _ _ Tb (proj2 (proj2 (proj2 G0)))) as B.
    destruct (H a ltac:(cbn; auto)) as (_ & Pa & _), (H b ltac:(cbn; auto)) as (_ & Pb & _), (H c ltac:(cbn; auto)) as (_ & Pc & _), (H d ltac:(cbn; auto)) as (_ & Pd & _).
    apply (f_imp F HF _ _ (f_and F HF _ _ HT (f_and F HF _ _ (f_and F HF _ _ Pa Pb) (f_and F HF _ _ (f_and F HF _ _ Pc Pd) B)))).
    intros x (R1 & R2 & R3 & R4). split; [ exact R1 | split; [ exact R2 | split; [ exact R3 | ] ] ]. intros Z. rewrite Z, Rabs_R0 in R4.
    pose proof (Rabs_pos (bracket (v a T0) (v b T0) (v c T0))). lra. }
  assert (Nb : bracket (v a T0) (v b T0) (v c T0) <> 0) by apply G0.
  assert (S1 : forall A1 A2 p q r, A2 <> 0 -> In p [a; b; c; d] -> In q [a; b; c; d] -> In r [a; b; c; d] ->
    tends F (fun x => A1 * bracket (v p (T x)) (v q (T x)) (v r (T x)) / (A2 * bracket (v a (T x)) (v b (T x)) (v c (T x))))
      (A1 * bracket (v p T0) (v q T0) (v r T0) / (A2 * bracket (v a T0) (v b T0) (v c T0)))).
  { intros A1 A2 p q r N Ip Iq Ir. apply (t_div F HF); [ | | apply Rmult_integral_contrapositive_currified; assumption ];
      (apply (t_mult F HF); [ apply (t_const F HF) | ]); [ apply bracket_tends; apply V; assumption | exact Tb ]. }
  assert (Ta : tends F (fun x => sa (T x)) (sa T0)) by (apply S1; cbn; auto).
  assert (Tbb : tends F (fun x => sb (T x)) (sb T0)) by (apply S1; cbn; auto).
  assert (Tc : tends F (fun x => sc (T x)) (sc T0)) by (apply S1; cbn; auto).
  clear S1 Tb.
  (* the scale *)
  set (w := fun S => vsub (vscale (sa S) (v a S)) (vscale (sb S) (v b S))).
  assert (Tw : vtends F (fun x => w (T x)) (w T0)).
  { apply (v_sub F HF); apply (v_scale F HF); auto; apply V; cbn; auto. }
  assert (P0 : forall S, good S -> iso_app S a = vscale (vz (iso_app S d)) (vscale (sa S) (v a S)) /\ iso_app S b = vscale (vz (iso_app S d)) (vscale (sb S) (v b S)) /\
    iso_app S c = vscale (vz (iso_app S d)) (vscale (sc S) (v c S))).
  { intros S HS. destruct (D S HS) as (Da & Db & Dc). destruct HS as (_ & (Pa & Pb) & (Pc & Pd) & _).
    assert (SS : forall r s u, vscale r (vscale s u) = vscale (r * s) u) by (intros; unfold vscale; cbn [vx vy vz]; apply vec3_ext; cbn [vx vy vz]; ring).
    rewrite !SS, <- Da, <- Db, <- Dc, <- !Q by assumption. auto. }
  assert (Nab : dot (vsub a b) (vsub a b) <> 0).
  { intros Z. apply dot_zero in Z. apply Gabc. unfold vsub in Z. injection Z as Z1 Z2 Z3.
    replace (vx b) with (vx a) by lra. replace (vy b) with (vy a) by lra. ring. }
  assert (Sq : forall S, good S -> vz (iso_app S d) * vz (iso_app S d) * dot (w S) (w S) = dot (vsub a b) (vsub a b)).
  { intros S HS. destruct (P0 S HS) as (Qa & Qb & _).
    rewrite <- (rot_dot (lin S) (vsub a b) (vsub a b)) by apply HS.
    replace (mvec (lin S) (vsub a b)) with (vscale (vz (iso_app S d)) (w S)).
    2:{ replace (mvec (lin S) (vsub a b)) with (vsub (iso_app S a) (iso_app S b)) by (vec; ring). rewrite Qa, Qb. unfold w.
        unfold vscale, vsub; cbn [vx vy vz]; apply vec3_ext; cbn [vx vy vz]; ring. }
    unfold dot, vscale; cbn [vx vy vz]; ring. }
  assert (Nw : forall S, good S -> dot (w S) (w S) <> 0).
  { intros S HS Z. apply Nab. rewrite <- (Sq S HS), Z. ring. }
  assert (Td : tends F (fun x => vz (iso_app (T x) d)) (vz (iso_app T0 d))).
  { apply (t_root F HF).
    - apply (f_imp F HF _ _ G). intros x HS. apply HS.
    - apply G0.
    - assert (E : forall S, good S -> vz (iso_app S d) * vz (iso_app S d) = dot (vsub a b) (vsub a b) / dot (w S) (w S)).
      { intros S HS. rewrite <- (Sq S HS). field. apply Nw, HS. }
      rewrite (E T0 G0). apply (t_ext F HF (fun x => dot (vsub a b) (vsub a b) / dot (w (T x)) (w (T x)))).
      + apply (f_imp F HF _ _ G). intros x HS. symmetry. apply E, HS.
      + apply (t_div F HF); [ apply (t_const F HF) | apply (t_dot F HF); exact Tw | apply Nw, G0 ]. }
  apply (points_tend T T0 a b c HT H0).
  - intros Z. apply Gabc. unfold cross, vsub in Z. injection Z as _ _ Z. cbn [vx vy] in Z. lra.
  - destruct (P0 T0 G0) as (Qa & Qb & Qc). intros p [<-|[<-|[<-|[]]]].
    + rewrite Qa. apply (v_ext F HF (fun x => vscale (vz (iso_app (T x) d)) (vscale (sa (T x)) (v a (T x))))).
      * apply (f_imp F HF _ _ G). intros x HS. symmetry. apply P0, HS.
      * apply (v_scale F HF); [ exact Td | apply (v_scale F HF); [ exact Ta | apply V; cbn; auto ] ].
    + rewrite Qb. apply (v_ext F HF (fun x => vscale (vz (iso_app (T x) d)) (vscale (sb (T x)) (v b (T x))))).
      * apply (f_imp F HF _ _ G). intros x HS. symmetry. apply P0, HS.
      * apply (v_scale F HF); [ exact Td | apply (v_scale F HF); [ exact Tbb | apply V; cbn; auto ] ].
    + rewrite Qc. apply (v_ext F HF (fun x => vscale (vz (iso_app (T x) d)) (vscale (sc (T x)) (v c (T x))))).
      * apply (f_imp F HF _ _ G). intros x HS. symmetry. apply P0, HS.
      * apply (v_scale F HF); [ exact Td | apply (v_scale F HF); [ exact Tc | apply V; cbn; auto ] ].
Qed.
End Near.
