(** Geometry behind the uniqueness of optima. *)
From Coq Require Import Reals List Lra Psatz.
From Verif.Base Require Import Geom.
From Verif.Model Require Import Pose Solver HandEye BlockSolver.
From Verif.Spec Require Import PinHole HomographySpec PnpSpec UniqueSpec.
From Verif.Proofs Require Import GeomLemmas PoseProofs.
Import ListNotations.
Local Open Scope R_scope.

Lemma dot_cross_indep r e1 e2 e3 : dot e1 (cross e2 e3) <> 0 ->
  dot r e1 = 0 -> dot r e2 = 0 -> dot r e3 = 0 -> r = vzero.
Proof.
  destruct r as [a b c], e1 as [x1 y1 z1], e2 as [x2 y2 z2], e3 as [x3 y3 z3].
  unfold dot, cross; cbn [vx vy vz]; intros D H1 H2 H3.
  set (d := x1 * (y2 * z3 - z2 * y3) + y1 * (z2 * x3 - x2 * z3) + z1 * (x2 * y3 - y2 * x3)) in *.
  assert (A : a * d = 0).
  { transitivity ((a * x1 + b * y1 + c * z1) * (y2 * z3 - z2 * y3) + (a * x2 + b * y2 + c * z2) * (z1 * y3 - y1 * z3)
                   + (a * x3 + b * y3 + c * z3) * (y1 * z2 - z1 * y2)); [unfold d; ring|]. rewrite H1, H2, H3; ring. }
  assert (B : b * d = 0).
  { transitivity ((a * x1 + b * y1 + c * z1) * (z2 * x3 - x2 * z3) + (a * x2 + b * y2 + c * z2) * (x1 * z3 - z1 * x3)
                   + (a * x3 + b * y3 + c * z3) * (z1 * x2 - x1 * z2)); [unfold d; ring|]. rewrite H1, H2, H3; ring. }
  assert (C : c * d = 0).
  { transitivity ((a * x1 + b * y1 + c * z1) * (x2 * y3 - y2 * x3) + (a * x2 + b * y2 + c * z2) * (y1 * x3 - x1 * y3)
                   + (a * x3 + b * y3 + c * z3) * (x1 * y2 - y1 * x2)); [unfold d; ring|]. rewrite H1, H2, H3; ring. }
  apply vec3_ext; cbn [vx vy vz];
    [destruct (Rmult_integral _ _ A) | destruct (Rmult_integral _ _ B) | destruct (Rmult_integral _ _ C)]; tauto.
Qed.

(** Linear combinations of independent vectors. *)
Lemma combination_zero c1 c2 c3 v1 v2 v3 : dot v1 (cross v2 v3) <> 0 ->
  vadd (vscale c1 v1) (vadd (vscale c2 v2) (vscale c3 v3)) = vzero -> c1 = 0 /\ c2 = 0 /\ c3 = 0.
Proof.
  destruct v1 as [x1 y1 z1], v2 as [x2 y2 z2], v3 as [x3 y3 z3].
  unfold dot, cross, vadd, vscale, vzero; cbn [vx vy vz]; intros D H. injection H as HX HY HZ.
  set (d := x1 * (y2 * z3 - z2 * y3) + y1 * (z2 * x3 - x2 * z3) + z1 * (x2 * y3 - y2 * x3)) in *.
  assert (A : c1 * d = 0).
  { transitivity ((c1 * x1 + (c2 * x2 + c3 * x3)) * (y2 * z3 - z2 * y3) + (c1 * y1 + (c2 * y2 + c3 * y3)) * (z2 * x3 - x2 * z3)
                   + (c1 * z1 + (c2 * z2 + c3 * z3)) * (x2 * y3 - y2 * x3)); [unfold d; ring|]. rewrite HX, HY, HZ; ring. }
  assert (B : c2 * d = 0).
  { transitivity ((c1 * x1 + (c2 * x2 + c3 * x3)) * (y3 * z1 - z3 * y1) + (c1 * y1 + (c2 * y2 + c3 * y3)) * (z3 * x1 - x3 * z1)
                   + (c1 * z1 + (c2 * z2 + c3 * z3)) * (x3 * y1 - y3 * x1)); [unfold d; ring|]. rewrite HX, HY, HZ; ring. }
  assert (C : c3 * d = 0).
  { transitivity ((c1 * x1 + (c2 * x2 + c3 * x3)) * (y1 * z2 - z1 * y2) + (c1 * y1 + (c2 * y2 + c3 * y3)) * (z1 * x2 - x1 * z2)
                   + (c1 * z1 + (c2 * z2 + c3 * z3)) * (x1 * y2 - y1 * x2)); [unfold d; ring|]. rewrite HX, HY, HZ; ring. }
  split; [|split]; [destruct (Rmult_integral _ _ A) | destruct (Rmult_integral _ _ B) | destruct (Rmult_integral _ _ C)]; tauto.
Qed.

Lemma triple_cross a b : dot a (cross b (cross a b)) = dot (cross a b) (cross a b).
Proof. unfold dot, cross; cbn [vx vy vz]; ring. Qed.
Lemma cross_independent a b : cross a b <> vzero -> dot a (cross b (cross a b)) <> 0.
Proof. intros H E. rewrite triple_cross in E. apply H, dot_zero, E. Qed.

Lemma rot_cross A u v : is_rot A -> mvec A (cross u v) = cross (mvec A u) (mvec A v).
Proof.
  intros H. pose proof (is_rot_adj A H) as E.
  destruct A as [a b c d e f g h i], u as [u1 u2 u3], v as [v1 v2 v3].
  unfold mT, adj in E; cbn [m00 m01 m02 m10 m11 m12 m20 m21 m22] in E.
  injection E as E1 E2 E3 E4 E5 E6 E7 E8 E9.
  unfold mvec, cross; cbn [vx vy vz m00 m01 m02 m10 m11 m12 m20 m21 m22].
  apply vec3_ext; cbn [vx vy vz].
  - rewrite E1, E4, E7; ring.
  - rewrite E2, E5, E8; ring.
  - rewrite E3, E6, E9; ring.
Qed.

(** Two matrices that agree on independent vectors are equal. *)
Definition row0 A := V3 (m00 A) (m01 A) (m02 A).
Definition row1 A := V3 (m10 A) (m11 A) (m12 A).
Definition row2 A := V3 (m20 A) (m21 A) (m22 A).
Lemma mvec_rows A v : mvec A v = V3 (dot (row0 A) v) (dot (row1 A) v) (dot (row2 A) v).
Proof. reflexivity. Qed.
Lemma dot_sub r s v : dot (vsub r s) v = dot r v - dot s v.
Proof. unfold dot, vsub; cbn [vx vy vz]; ring. Qed.
Lemma mat_agree A B e1 e2 e3 : dot e1 (cross e2 e3) <> 0 ->
  mvec A e1 = mvec B e1 -> mvec A e2 = mvec B e2 -> mvec A e3 = mvec B e3 -> A = B.
Proof.
  intros D H1 H2 H3. rewrite !mvec_rows in H1, H2, H3.
  injection H1 as X1 Y1 Z1; injection H2 as X2 Y2 Z2; injection H3 as X3 Y3 Z3.
  assert (R0 : vsub (row0 A) (row0 B) = vzero) by (apply (dot_cross_indep _ e1 e2 e3 D); rewrite dot_sub; lra).
  assert (R1 : vsub (row1 A) (row1 B) = vzero) by (apply (dot_cross_indep _ e1 e2 e3 D); rewrite dot_sub; lra).
  assert (R2 : vsub (row2 A) (row2 B) = vzero) by (apply (dot_cross_indep _ e1 e2 e3 D); rewrite dot_sub; lra).
  unfold vsub, row0, row1, row2, vzero in *; cbn [vx vy vz] in *.
  injection R0 as; injection R1 as; injection R2 as. apply mat3_ext; lra.
Qed.

Lemma app_diff T a b : vsub (iso_app T b) (iso_app T a) = mvec (lin T) (vsub b a).
Proof. unfold iso_app, vsub, vadd, mvec; cbn [vx vy vz]; apply vec3_ext; cbn [vx vy vz]; ring. Qed.
Lemma app_tr T a : tr T = vsub (iso_app T a) (mvec (lin T) a).
Proof. unfold iso_app, vsub, vadd; cbn [vx vy vz]; apply vec3_ext; cbn [vx vy vz]; ring. Qed.

(** A rigid transform is known by its effect on three points. *)
Lemma three_points S T a b c : rigid S -> rigid T -> triangle a b c ->
  iso_app S a = iso_app T a -> iso_app S b = iso_app T b -> iso_app S c = iso_app T c -> S = T.
Proof.
  intros HS HT Tri Ea Eb Ec. unfold triangle in Tri.
  set (e1 := vsub b a) in *. set (e2 := vsub c a) in *.
  assert (H1 : mvec (lin S) e1 = mvec (lin T) e1) by (unfold e1; rewrite <- !app_diff, Ea, Eb; reflexivity).
  assert (H2 : mvec (lin S) e2 = mvec (lin T) e2) by (unfold e2; rewrite <- !app_diff, Ea, Ec; reflexivity).
  assert (L : lin S = lin T).
  { apply (mat_agree _ _ e1 e2 (cross e1 e2)); auto using cross_independent.
    rewrite !rot_cross by assumption. rewrite H1, H2; reflexivity. }
  apply iso_ext; [exact L|]. rewrite (app_tr S a), (app_tr T a), Ea, L. reflexivity.
Qed.
Lemma points_pose S T cs : rigid S -> rigid T -> not_on_a_line (map in_target cs) ->
  (forall c : correspondence vec3, In c cs -> iso_app S (in_target c) = iso_app T (in_target c)) -> S = T.
Proof.
  intros HS HT (a & b & c & Ha & Hb & Hc & Tri) H.
  apply in_map_iff in Ha as (ca & <- & Ia); apply in_map_iff in Hb as (cb & <- & Ib); apply in_map_iff in Hc as (cc & <- & Ic).
  eapply three_points; eauto.
Qed.

(** Four points of a plane. *)
Definition area (a b c : vec3) : R := (vx b - vx a) * (vy c - vy a) - (vx c - vx a) * (vy b - vy a).
Lemma area_not a b c : not_collinear a b c <-> area a b c <> 0.
Proof. reflexivity. Qed.
Lemma flat_det T a b c : vz a = 0 -> vz b = 0 -> vz c = 0 ->
  dot (iso_app T a) (cross (iso_app T b) (iso_app T c)) =
  area a b c * dot (tr T) (cross (V3 (m00 (lin T)) (m10 (lin T)) (m20 (lin T))) (V3 (m01 (lin T)) (m11 (lin T)) (m21 (lin T)))).
Proof.
  destruct a as [ax ay az], b as [bx bY bz], c as [cX cY cz], T as [[n1 n2 n3 n4 n5 n6 n7 n8 n9] [t1 t2 t3]]; cbn [vz]; intros -> -> ->.
  unfold dot, cross, iso_app, area, mvec, vadd; cbn [vx vy vz lin tr m00 m01 m02 m10 m11 m12 m20 m21 m22]; ring.
Qed.
Lemma rot_col2 A : is_rot A -> cross (V3 (m00 A) (m10 A) (m20 A)) (V3 (m01 A) (m11 A) (m21 A)) = col2 A.
Proof.
  intros H. pose proof (is_rot_adj A H) as E. destruct A as [a b c d e f g h i].
  unfold mT, adj in E; cbn [m00 m01 m02 m10 m11 m12 m20 m21 m22] in E.
  injection E as E1 E2 E3 E4 E5 E6 E7 E8 E9.
  unfold cross, col2; cbn [vx vy vz m00 m01 m02 m10 m11 m12 m20 m21 m22]; apply vec3_ext; cbn [vx vy vz]; lra.
Qed.
Lemma flat_independent T a b c : rigid T -> ~ edge_on T -> vz a = 0 -> vz b = 0 -> vz c = 0 -> not_collinear a b c ->
  dot (iso_app T a) (cross (iso_app T b) (iso_app T c)) <> 0.
Proof.
  intros HT NE Ha Hb Hc N. rewrite flat_det, rot_col2 by assumption.
  apply Rmult_integral_contrapositive_currified; assumption.
Qed.

(** Barycentric coordinates: the image of the fourth point. *)
Lemma fourth_point T a b c d : vz a = 0 -> vz b = 0 -> vz c = 0 -> vz d = 0 ->
  vscale (area a b c) (iso_app T d) =
  vadd (vscale (area d b c) (iso_app T a)) (vadd (vscale (area a d c) (iso_app T b)) (vscale (area a b d) (iso_app T c))).
Proof.
  destruct a as [ax ay az], b as [bx bY bz], c as [cX cY cz], d as [dx dy dz], T as [[n1 n2 n3 n4 n5 n6 n7 n8 n9] [t1 t2 t3]]; cbn [vz]; intros -> -> -> ->.
  unfold area, iso_app, mvec, vadd, vscale; cbn [vx vy vz lin tr m00 m01 m02 m10 m11 m12 m20 m21 m22].
  apply vec3_ext; cbn [vx vy vz]; ring.
Qed.

Lemma scales_equal S T a b c d sa sb sc sd : rigid T -> ~ edge_on T ->
  vz a = 0 -> vz b = 0 -> vz c = 0 -> vz d = 0 -> general_position a b c d ->
  iso_app S a = vscale sa (iso_app T a) -> iso_app S b = vscale sb (iso_app T b) ->
  iso_app S c = vscale sc (iso_app T c) -> iso_app S d = vscale sd (iso_app T d) ->
  sa = sd /\ sb = sd /\ sc = sd.
Proof.
  intros HT NE Za Zb Zc Zd (Nabc & Nabd & Nacd & Nbcd) Ea Eb Ec Ed.
  pose proof (flat_independent T a b c HT NE Za Zb Zc Nabc) as D.
  pose proof (fourth_point S a b c d Za Zb Zc Zd) as FS. pose proof (fourth_point T a b c d Za Zb Zc Zd) as FT.
  rewrite Ea, Eb, Ec, Ed in FS.
  set (A := iso_app T a) in *; set (B := iso_app T b) in *; set (C := iso_app T c) in *; set (E := iso_app T d) in *.
  destruct (combination_zero (area d b c * (sa - sd)) (area a d c * (sb - sd)) (area a b d * (sc - sd)) A B C D) as (H1 & H2 & H3).
  { assert (Q : vscale sd (vscale (area a b c) E) = vscale (area a b c) (vscale sd E))
      by (unfold vscale; apply vec3_ext; cbn [vx vy vz]; ring).
    rewrite FT, FS in Q. clear - Q. clearbody A B C. unfold vadd, vscale, vzero in *; cbn [vx vy vz] in *.
    injection Q as QX QY QZ. apply vec3_ext; cbn [vx vy vz].
    - symmetry in QX; apply Rminus_diag_eq in QX; rewrite <- QX; ring.
    - symmetry in QY; apply Rminus_diag_eq in QY; rewrite <- QY; ring.
    - symmetry in QZ; apply Rminus_diag_eq in QZ; rewrite <- QZ; ring. }
  assert (N1 : area d b c <> 0) by (intros Q; apply Nbcd; unfold area in Q; lra).
  assert (N2 : area a d c <> 0) by (intros Q; apply Nacd; unfold area in Q; lra).
  assert (N3 : area a b d <> 0) by (intros Q; apply Nabd; unfold area in Q; lra).
  destruct (Rmult_integral _ _ H1); [tauto|]. destruct (Rmult_integral _ _ H2); [tauto|].
  destruct (Rmult_integral _ _ H3); [tauto|]. lra.
Qed.

Lemma flat_triangle a b c : vz a = 0 -> vz b = 0 -> vz c = 0 -> not_collinear a b c -> triangle a b c.
Proof.
  intros Za Zb Zc N E. apply N. unfold cross, vsub, vzero in E; cbn [vx vy vz] in E. injection E as _ _ E. lra.
Qed.

(** The pose of four points of a plane from their pixels. *)
Lemma flat_pose k S T a b c d : rigid S -> rigid T -> ~ edge_on T -> fx k <> 0 -> fy k <> 0 ->
  vz a = 0 -> vz b = 0 -> vz c = 0 -> vz d = 0 -> general_position a b c d ->
  (forall p, In p [a; b; c; d] -> 0 < vz (iso_app S p) /\ 0 < vz (iso_app T p) /\
     pinhole k (iso_app S p) = pinhole k (iso_app T p)) -> S = T.
Proof.
  intros HS HT NE Fx Fy Za Zb Zc Zd GP H.
  assert (Ray : forall p, In p [a; b; c; d] -> exists s, 0 < s /\ iso_app S p = vscale s (iso_app T p)).
  { intros p Hp. destruct (H p Hp) as (Z1 & Z2 & E). exact (pinhole_inj k _ _ Fx Fy Z2 Z1 (eq_sym E)). }
  destruct (Ray a ltac:(cbn; tauto)) as (sa & Pa & Ea). destruct (Ray b ltac:(cbn; tauto)) as (sb & Pb & Eb).
  destruct (Ray c ltac:(cbn; tauto)) as (sc & Pc & Ec). destruct (Ray d ltac:(cbn; tauto)) as (sd & Pd & Ed).
  destruct (scales_equal S T a b c d sa sb sc sd HT NE Za Zb Zc Zd GP Ea Eb Ec Ed) as (-> & -> & ->).
  assert (One : sd = 1).
  { assert (Q : mvec (lin S) (vsub b a) = vscale sd (mvec (lin T) (vsub b a))).
    { rewrite <- !app_diff, Ea, Eb. unfold vscale, vsub; apply vec3_ext; cbn [vx vy vz]; ring. }
    pose proof (rot_dot (lin S) (vsub b a) (vsub b a) HS) as DS. pose proof (rot_dot (lin T) (vsub b a) (vsub b a) HT) as DT.
    rewrite Q in DS.
    assert (DS' : sd * sd * dot (vsub b a) (vsub b a) = dot (vsub b a) (vsub b a))
      by (rewrite <- DT at 1; rewrite <- DS; unfold dot, vscale; cbn [vx vy vz]; ring).
    assert (NZ : dot (vsub b a) (vsub b a) <> 0).
    { intros Z. apply dot_zero in Z. destruct GP as (N & _). apply N. unfold vsub, vzero in Z; injection Z as ZX ZY ZZ.
      rewrite ZX, ZY; ring. }
    assert (sd * sd = 1) by (apply (Rmult_eq_reg_r (dot (vsub b a) (vsub b a))); [lra|assumption]). nra. }
  subst sd. destruct GP as (N & _).
  apply (three_points S T a b c HS HT (flat_triangle a b c Za Zb Zc N)).
  - rewrite Ea; unfold vscale; apply vec3_ext; cbn [vx vy vz]; ring.
  - rewrite Eb; unfold vscale; apply vec3_ext; cbn [vx vy vz]; ring.
  - rewrite Ec; unfold vscale; apply vec3_ext; cbn [vx vy vz]; ring.
Qed.
Lemma image_pose k S T (cs : list (correspondence vec2)) : rigid S -> rigid T -> ~ edge_on T -> fx k <> 0 -> fy k <> 0 ->
  four_flat_points (map in_target cs) ->
  (forall c, In c cs -> 0 < vz (iso_app S (in_target c)) /\ 0 < vz (iso_app T (in_target c)) /\
     pinhole k (iso_app S (in_target c)) = pinhole k (iso_app T (in_target c))) -> S = T.
Proof.
  intros HS HT NE Fx Fy (a & b & c & d & Ha & Hb & Hc & Hd & Za & Zb & Zc & Zd & GP) H.
  apply (flat_pose k S T a b c d); auto. intros p Hp.
  assert (I : In p (map in_target cs)) by (cbn in Hp; intuition (subst; auto)).
  apply in_map_iff in I as (x & <- & Hx). auto.
Qed.

(** ** Motions *)
Definition skew (w : vec3) : mat3 := M3 0 (- vz w) (vy w) (vz w) 0 (- vx w) (- vy w) (vx w) 0.
Definition msub A B := M3 (m00 A - m00 B) (m01 A - m01 B) (m02 A - m02 B) (m10 A - m10 B) (m11 A - m11 B) (m12 A - m12 B)
  (m20 A - m20 B) (m21 A - m21 B) (m22 A - m22 B).
Lemma skew_vec w v : mvec (skew w) v = cross w v.
Proof. unfold mvec, skew, cross; cbn [vx vy vz m00 m01 m02 m10 m11 m12 m20 m21 m22]; apply vec3_ext; cbn [vx vy vz]; ring. Qed.
Lemma skew_inj v w : skew v = skew w -> v = w.
Proof. unfold skew; intros E; injection E as; apply vec3_ext; lra. Qed.
Lemma aa_skew a u : msub (aa_matrix a u) (mT (aa_matrix a u)) = skew (vscale (2 * sin a) u).
Proof. unfold msub, mT, aa_matrix, skew, vscale; cbn [vx vy vz m00 m01 m02 m10 m11 m12 m20 m21 m22]. apply mat3_ext; cbn [m00 m01 m02 m10 m11 m12 m20 m21 m22]; ring. Qed.
Lemma mvec_msub A B v : mvec (msub A B) v = vsub (mvec A v) (mvec B v).
Proof. unfold mvec, msub, vsub; cbn [vx vy vz m00 m01 m02 m10 m11 m12 m20 m21 m22]; apply vec3_ext; cbn [vx vy vz]; ring. Qed.

(** A rotation that commutes with a turn about an axis leaves the axis alone. *)
Lemma commuting_keeps_axis D a u : is_rot D -> sin a <> 0 -> mmul D (aa_matrix a u) = mmul (aa_matrix a u) D -> mvec D u = u.
Proof.
  intros HD Sa C. set (A := aa_matrix a u) in *.
  assert (C' : mmul D (mT A) = mmul (mT A) D).
  { (* transpose of A D^T = D^T A *)
    assert (Q : mmul (mT D) A = mmul A (mT D)).
    { rewrite <- (mmul_I_r (mmul (mT D) A)), <- (is_rot_right D HD), <- mmul_assoc, (mmul_assoc (mT D) A D), <- C.
      rewrite <- (mmul_assoc (mT D) D A). destruct HD as [HD _]. rewrite HD, mmul_I_l. reflexivity. }
    apply (f_equal mT) in Q. rewrite !mT_mmul, !mT_mT in Q. symmetry; exact Q. }
  assert (E : forall v, cross (mvec D (vscale (2 * sin a) u)) v = cross (vscale (2 * sin a) u) v).
  { intros v. rewrite <- (skew_vec (vscale (2 * sin a) u)), <- aa_skew. fold A.
    set (w := mvec (mT D) v). assert (Ev : v = mvec D w) by (unfold w; rewrite <- mvec_mmul, is_rot_right, mvec_I by assumption; reflexivity).
    rewrite Ev, <- rot_cross by assumption.
    rewrite <- (skew_vec (vscale (2 * sin a) u)), <- aa_skew. fold A.
    rewrite !mvec_msub. rewrite <- !mvec_mmul. rewrite <- C, <- C'.
    rewrite !mvec_mmul. unfold vsub, mvec; cbn [vx vy vz]; apply vec3_ext; cbn [vx vy vz]; ring. }
  assert (E2 : mvec D (vscale (2 * sin a) u) = vscale (2 * sin a) u).
  { apply skew_inj. apply (mat_agree _ _ unitX unitY unitZ).
    - unfold dot, cross, unitX, unitY, unitZ; cbn [vx vy vz]; lra.
    - rewrite !skew_vec; apply E. - rewrite !skew_vec; apply E. - rewrite !skew_vec; apply E. }
  assert (E3 : vscale (2 * sin a) (mvec D u) = vscale (2 * sin a) u).
  { transitivity (mvec D (vscale (2 * sin a) u)); [|exact E2]. unfold vscale, mvec; cbn [vx vy vz]; apply vec3_ext; cbn [vx vy vz]; ring. }
  unfold vscale in E3; injection E3 as X Y Z. assert (2 * sin a <> 0) by lra.
  apply vec3_ext; [apply (Rmult_eq_reg_l (2 * sin a)) | apply (Rmult_eq_reg_l (2 * sin a)) | apply (Rmult_eq_reg_l (2 * sin a))]; assumption.
Qed.
Lemma turned_parallel a u t : sin a <> 0 -> dot u u = 1 -> mvec (aa_matrix a u) t = t -> cross u t = vzero.
Proof.
  intros Sa U E.
  assert (E' : mvec (mT (aa_matrix a u)) t = t).
  { rewrite <- E at 1. rewrite <- mvec_mmul. destruct (aa_matrix_rot a u U) as [H _]. rewrite H. apply mvec_I. }
  assert (S0 : mvec (msub (aa_matrix a u) (mT (aa_matrix a u))) t = vzero).
  { rewrite mvec_msub, E, E'. unfold vsub, vzero; f_equal; ring. }
  rewrite aa_skew, skew_vec in S0. unfold cross, vscale, vzero in S0; cbn [vx vy vz] in S0. injection S0 as X Y Z.
  unfold cross, vzero; f_equal; apply (Rmult_eq_reg_l (2 * sin a)); lra.
Qed.
Lemma parallel_scale u t : cross u t = vzero -> vscale (dot t t) u = vscale (dot t u) t.
Proof.
  destruct u as [u1 u2 u3], t as [t1 t2 t3]. unfold cross, vscale, dot, vzero; cbn [vx vy vz]; intros H; injection H as A B C.
  apply vec3_ext; cbn [vx vy vz]; apply Rminus_diag_uniq.
  - transitivity ((u1 * t2 - u2 * t1) * t2 - (u3 * t1 - u1 * t3) * t3); [ring|]. rewrite B, C; ring.
  - transitivity ((u2 * t3 - u3 * t2) * t3 - (u1 * t2 - u2 * t1) * t1); [ring|]. rewrite A, C; ring.
  - transitivity ((u3 * t1 - u1 * t3) * t1 - (u2 * t3 - u3 * t2) * t2); [ring|]. rewrite A, B; ring.
Qed.
Lemma parallel_both u v t : cross u v <> vzero -> cross u t = vzero -> cross v t = vzero -> t = vzero.
Proof.
  intros N Hu Hv. apply dot_zero. destruct (Req_dec (dot t t) 0) as [|NZ]; [assumption|exfalso; apply N].
  pose proof (parallel_scale u t Hu) as Su. pose proof (parallel_scale v t Hv) as Sv.
  assert (Q : vscale (dot t t * dot t t) (cross u v) = vzero).
  { transitivity (cross (vscale (dot t t) u) (vscale (dot t t) v)).
    - unfold vscale, cross; apply vec3_ext; cbn [vx vy vz]; ring.
    - rewrite Su, Sv. unfold vscale, cross, vzero; apply vec3_ext; cbn [vx vy vz]; ring. }
  assert (NN : dot t t * dot t t <> 0) by (apply Rmult_integral_contrapositive_currified; assumption).
  unfold vscale, vzero in Q; injection Q as X Y Z.
  apply vec3_ext; apply (Rmult_eq_reg_l (dot t t * dot t t)); try assumption; cbn [vx vy vz vzero]; rewrite Rmult_0_r; assumption.
Qed.

Lemma vadd_swap_cancel a b c : vadd a b = vadd c a -> c = b.
Proof. unfold vadd; intros H; injection H as; apply vec3_ext; lra. Qed.
Lemma commuting_identity D As : rigid D -> two_axes As -> (forall A, In A As -> iso_mul D A = iso_mul A D) -> D = iso_id.
Proof.
  intros HD (A & B & u & v & IA & IB & (Uu & a & LA & Sa) & (Uv & b & LB & Sb) & N) C.
  pose proof (C A IA) as CA. pose proof (C B IB) as CB.
  assert (KA : mvec (lin D) u = u) by (apply (commuting_keeps_axis _ a); auto; rewrite <- LA; exact (f_equal lin CA)).
  assert (KB : mvec (lin D) v = v) by (apply (commuting_keeps_axis _ b); auto; rewrite <- LB; exact (f_equal lin CB)).
  assert (L : lin D = I3).
  { apply (mat_agree _ _ u v (cross u v) (cross_independent u v N)); rewrite ?rot_cross by assumption; rewrite ?KA, ?KB, ?mvec_I; reflexivity. }
  apply iso_ext; [exact L|]. cbn [tr iso_id].
  apply (parallel_both u v _ N).
  - apply (turned_parallel a); auto. rewrite <- LA. apply (f_equal tr) in CA. unfold iso_mul in CA; cbn [tr] in CA. rewrite L, mvec_I in CA.
    exact (vadd_swap_cancel _ _ _ CA).
  - apply (turned_parallel b); auto. rewrite <- LB. apply (f_equal tr) in CB. unfold iso_mul in CB; cbn [tr] in CB. rewrite L, mvec_I in CB.
    exact (vadd_swap_cancel _ _ _ CB).
Qed.

(** ** Costs *)
Lemma half_squares_zero rs : half_squares rs = 0 -> forall r, In r rs -> r = 0.
Proof.
  unfold half_squares. intros H.
  assert (P : forall l, 0 <= fold_right (fun r acc => r * r + acc) 0 l) by (induction l as [|x l IH]; cbn; [lra|nra]).
  assert (Z : fold_right (fun r acc => r * r + acc) 0 rs = 0) by lra. clear H.
  induction rs as [|x rs IH]; [intros r []|]. cbn in Z. pose proof (P rs). intros r [<-|I]; [nra|]. apply IH; [nra|assumption].
Qed.
Lemma half_squares_all_zero rs : (forall r, In r rs -> r = 0) -> half_squares rs = 0.
Proof.
  unfold half_squares. intros H. enough (fold_right (fun r acc => r * r + acc) 0 rs = 0) by lra.
  induction rs as [|x rs IH]; [reflexivity|]. cbn. rewrite IH by (intros; apply H; now right). rewrite (H x (or_introl eq_refl)); ring.
Qed.
