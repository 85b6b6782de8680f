From Coq Require Import Reals Lra Psatz.
From Verif.Base Require Import Geom.
From Verif.Model Require Import Pose.
From Verif.Spec Require Import PinHole.
From Verif.Proofs Require Import GeomLemmas RotLemmas AngleAxisLemmas.
Local Open Scope R_scope.

(** ** C01 *)
Lemma cal_to_eigen_acts p pt : iso_app (poseCalToEigen p) pt = poseTransformPoint p pt.
Proof.
  unfold poseCalToEigen, poseTransformPoint, transformPoint, aa_rotate_point.
  set (rr := V3 (p_rx p) (p_ry p) (p_rz p)).
  destruct (Rlt_dec DBL_EPS (dot rr rr)) as [H|H].
  - pose proof DBL_EPS_pos as He. unfold normalized.
    destruct (Rlt_dec 0 (dot rr rr)) as [H0|H0]; [ | lra ].
    fold (norm rr). set (n := norm rr).
    unfold aa_matrix, iso_app, vadd, mvec, vscale, cross, dot.
    cbn [lin tr m00 m01 m02 m10 m11 m12 m20 m21 m22 vx vy vz].
    geo_ext; cbn [vx vy vz]; ring.
  - unfold iso_app, vadd, mvec, cross.
    cbn [lin tr m00 m01 m02 m10 m11 m12 m20 m21 m22 vx vy vz].
    geo_ext; cbn [vx vy vz]; ring.
Qed.

Lemma transformPoint_pose p pt :
  transformPoint (pose_aa p) (pose_pos p) pt = iso_app (poseCalToEigen p) pt.
Proof. symmetry. apply cal_to_eigen_acts. Qed.

(** ** C02 *)
Lemma cal_to_eigen_rigid p :
  pose_aa p = vzero \/ DBL_EPS < dot (pose_aa p) (pose_aa p) -> rigid (poseCalToEigen p).
Proof.
  unfold pose_aa, rigid, poseCalToEigen. set (rr := V3 (p_rx p) (p_ry p) (p_rz p)).
  intros H. destruct (Rlt_dec DBL_EPS (dot rr rr)) as [L|L]; cbn [lin].
  - apply aa_norm_rot.
  - destruct H as [E|E]; [ rewrite E | lra ].
    replace (M3 _ _ _ _ _ _ _ _ _) with I3; [ apply is_rot_I | ].
    geo_unfold. f_equal; ring.
Qed.

(** In the linearised branch R^T R - I is exactly |rr|^2 I - rr rr^T. *)
Lemma cal_to_eigen_small_gram p :
  dot (pose_aa p) (pose_aa p) <= DBL_EPS ->
  mat_close DBL_EPS (mmul (mT (lin (poseCalToEigen p))) (lin (poseCalToEigen p))) I3.
Proof.
  unfold pose_aa, poseCalToEigen. set (rr := V3 (p_rx p) (p_ry p) (p_rz p)).
  intros H. destruct (Rlt_dec DBL_EPS (dot rr rr)) as [L|L]; [ lra | ]. cbn [lin].
  unfold mat_close. destruct rr as [x y z]. unfold dot in H. cbn [vx vy vz] in *.
  geo_unfold. pose proof (Rle_0_sqr (x - y)). pose proof (Rle_0_sqr (x + y)).
  pose proof (Rle_0_sqr (x - z)). pose proof (Rle_0_sqr (x + z)).
  pose proof (Rle_0_sqr (y - z)). pose proof (Rle_0_sqr (y + z)). unfold Rsqr in *.
  repeat split; apply Rabs_le; split; nra.
Qed.

Lemma cal_to_eigen_gram p :
  mat_close DBL_EPS (mmul (mT (lin (poseCalToEigen p))) (lin (poseCalToEigen p))) I3.
Proof.
  destruct (Rlt_dec DBL_EPS (dot (pose_aa p) (pose_aa p))) as [L|L].
  - destruct (cal_to_eigen_rigid p (or_intror L)) as [E _]. rewrite E.
    unfold mat_close. pose proof DBL_EPS_pos. geo_unfold.
    rewrite !Rminus_eq_0, !Rabs_R0. repeat split; lra.
  - apply cal_to_eigen_small_gram. lra.
Qed.

Lemma cal_to_eigen_rigid_iff p :
  rigid (poseCalToEigen p) <->
  pose_aa p = vzero \/ DBL_EPS < dot (pose_aa p) (pose_aa p).
Proof.
  split; [ | apply cal_to_eigen_rigid ].
  unfold pose_aa, rigid, poseCalToEigen. set (rr := V3 (p_rx p) (p_ry p) (p_rz p)).
  destruct (Rlt_dec DBL_EPS (dot rr rr)) as [L|L]; [ right; exact L | ].
  cbn [lin]. intros [H _]. left. destruct rr as [x y z].
  unfold mmul, mT, I3 in H. cbn [m00 m01 m02 m10 m11 m12 m20 m21 m22 vx vy vz] in H.
  injection H as H1 H2 H3 H4 H5 H6 H7 H8 H9.
  geo_unfold. f_equal; nra.
Qed.

(** ** C03 *)
Lemma eigen_to_cal_aa T :
  pose_aa (poseEigenToCal T) = vscale (aa_angle (aa_of_mat (lin T))) (aa_axis (aa_of_mat (lin T))).
Proof. unfold pose_aa, poseEigenToCal, vscale; cbn [p_rx p_ry p_rz vx vy vz]. f_equal; ring. Qed.
Lemma eigen_to_cal_pos T : pose_pos (poseEigenToCal T) = tr T.
Proof. destruct T as [A [x y z]]. reflexivity. Qed.

Lemma eigen_to_cal_sq T : rigid T ->
  dot (pose_aa (poseEigenToCal T)) (pose_aa (poseEigenToCal T)) =
  aa_angle (aa_of_mat (lin T)) * aa_angle (aa_of_mat (lin T)).
Proof.
  intros H. destruct (aa_of_mat_spec _ H) as (U & _ & _). rewrite eigen_to_cal_aa.
  set (a := aa_angle _) in *. set (u := aa_axis _) in *.
  replace (dot _ _) with (a * a * dot u u) by (geo_unfold; ring). rewrite U. ring.
Qed.
Lemma eigen_to_cal_norm T : rigid T ->
  norm (pose_aa (poseEigenToCal T)) = aa_angle (aa_of_mat (lin T)).
Proof.
  intros H. unfold norm. rewrite eigen_to_cal_sq by exact H.
  apply sqrt_square. apply aa_of_mat_spec, H.
Qed.
Lemma eigen_to_cal_range T : rigid T -> norm (pose_aa (poseEigenToCal T)) <= PI.
Proof. intros H. rewrite eigen_to_cal_norm by exact H. apply aa_of_mat_spec, H. Qed.

Lemma normalized_scaled a u : 0 < a -> dot u u = 1 ->
  norm (vscale a u) = a /\ normalized (vscale a u) = u.
Proof.
  intros Ha Hu.
  assert (D : dot (vscale a u) (vscale a u) = a * a).
  { replace (dot _ _) with (a * a * dot u u) by (geo_unfold; ring). rewrite Hu. ring. }
  assert (N : norm (vscale a u) = a) by (unfold norm; rewrite D; apply sqrt_square; lra).
  split; [ exact N | ]. unfold normalized. rewrite D.
  destruct (Rlt_dec 0 (a * a)) as [_|L]; [ | nra ].
  rewrite N. geo_unfold. destruct u; geo_ext; cbn; field; lra.
Qed.

Lemma round_trip_exact T : rigid T ->
  pose_aa (poseEigenToCal T) = vzero \/
  DBL_EPS < dot (pose_aa (poseEigenToCal T)) (pose_aa (poseEigenToCal T)) ->
  poseCalToEigen (poseEigenToCal T) = T.
Proof.
  intros H Hd. destruct (aa_of_mat_spec _ H) as (U & A & M).
  assert (Hpos : V3 (p_x (poseEigenToCal T)) (p_y (poseEigenToCal T)) (p_z (poseEigenToCal T)) = tr T)
    by apply eigen_to_cal_pos.
  pose proof (eigen_to_cal_aa T) as E. unfold pose_aa in E, Hd.
  unfold poseCalToEigen. rewrite Hpos. rewrite E in *.
  set (a := aa_angle (aa_of_mat (lin T))) in *. set (u := aa_axis (aa_of_mat (lin T))) in *.
  destruct (Rlt_dec DBL_EPS (dot (vscale a u) (vscale a u))) as [L|L].
  - assert (0 < a).
    { destruct A as [[?|E0] _]; [ assumption | exfalso ]. rewrite <- E0 in L.
      pose proof DBL_EPS_pos. revert L. geo_unfold. lra. }
    destruct (normalized_scaled a u) as [-> ->]; [ assumption | exact U | ].
    rewrite M. destruct T; reflexivity.
  - destruct Hd as [Z|Z]; [ | lra ]. rewrite Z. 
    assert (a = 0).
    { assert (D : dot (vscale a u) (vscale a u) = a * a).
      { replace (dot _ _) with (a * a * dot u u) by (geo_unfold; ring). rewrite U. ring. }
      rewrite Z in D. revert D. geo_unfold. nra. }
    rewrite H0, aa_matrix_0 in M. destruct T as [l t]. cbn [lin tr] in *. subst l.
    geo_unfold. f_equal. f_equal; ring.
Qed.

Lemma round_trip_close T : rigid T ->
  tr (poseCalToEigen (poseEigenToCal T)) = tr T /\
  mat_close DBL_EPS (lin (poseCalToEigen (poseEigenToCal T))) (lin T).
Proof.
  intros H.
  destruct (Rlt_dec DBL_EPS (dot (pose_aa (poseEigenToCal T)) (pose_aa (poseEigenToCal T)))) as [L|L].
  { rewrite round_trip_exact; auto. split; [ reflexivity | ].
    pose proof DBL_EPS_pos. unfold mat_close. rewrite !Rminus_eq_0, !Rabs_R0. repeat split; lra. }
  assert (Hsq := eigen_to_cal_sq T H).
  destruct (aa_of_mat_spec _ H) as (U & A & M).
  assert (Hpos : V3 (p_x (poseEigenToCal T)) (p_y (poseEigenToCal T)) (p_z (poseEigenToCal T)) = tr T)
    by apply eigen_to_cal_pos.
  pose proof (eigen_to_cal_aa T) as E. unfold pose_aa in E, L, Hsq.
  unfold poseCalToEigen. rewrite Hpos.
  destruct (Rlt_dec _ _) as [L'|L']; [ contradiction | ]. cbn [tr lin]. split; [ reflexivity | ].
  rewrite Hsq in L. rewrite E.
  set (a := aa_angle (aa_of_mat (lin T))) in *. set (u := aa_axis (aa_of_mat (lin T))) in *.
  rewrite <- M. clearbody a u. clear E M Hsq L' Hpos H T.
  pose proof DBL_EPS_small as Hsm.
  assert (Ha1 : 0 <= a <= 1).
  { split; [ lra | ]. destruct (Rle_dec a 1); [ assumption | nra ]. }
  pose proof (sin_le_x a (proj1 Ha1)) as S1. pose proof (sin_ge_cubic a Ha1) as S2.
  pose proof (cos_ge_quad a (proj1 Ha1)) as C1. pose proof (COS_bound a) as [_ C2].
  assert (Haa : a * a <= DBL_EPS) by lra.
  assert (S3 : a - sin a <= a * a / 6) by nra.
  unfold mat_close, aa_matrix. destruct u as [x y z]. unfold dot in U.
  cbn [vx vy vz m00 m01 m02 m10 m11 m12 m20 m21 m22 vscale] in *.
  set (s := sin a) in *. set (c := cos a) in *. set (k := 1 - c).
  assert (Hk : 0 <= k <= a * a / 2) by (unfold k; lra).
  assert (Hd : 0 <= a - s <= a * a / 6) by lra.
  set (d := a - s) in *.
  assert (Hx2 : 0 <= x * x <= 1) by nra. assert (Hy2 : 0 <= y * y <= 1) by nra.
  assert (Hz2 : 0 <= z * z <= 1) by nra.
  assert (Hx : -1 <= x <= 1) by nra. assert (Hy : -1 <= y <= 1) by nra.
  assert (Hz : -1 <= z <= 1) by nra.
  assert (Hxy : -1 <= x * y <= 1) by nra. assert (Hxz : -1 <= x * z <= 1) by nra.
  assert (Hyz : -1 <= y * z <= 1) by nra.
  assert (B1 : forall t, 0 <= t <= 1 -> Rabs (k * t) <= a * a / 2).
  { intros t Ht. apply Rabs_le. split; nra. }
  assert (B2 : forall t v, -1 <= t <= 1 -> -1 <= v <= 1 -> Rabs (k * t + d * v) <= a * a).
  { intros t v Ht Hv. apply Rabs_le. split; nra. }
  assert (Ha2 : 0 <= a * a) by nra.
  assert (B3 : forall t, Rabs t <= a * a / 2 -> Rabs t <= DBL_EPS) by (intros; lra).
  assert (B4 : forall t, Rabs t <= a * a -> Rabs t <= DBL_EPS) by (intros; lra).
  repeat split.
  - apply B3. replace (_ - _) with (k * (1 - x * x)) by (unfold k; ring). apply B1. lra.
  - apply B4. rewrite <- Rabs_Ropp. replace (- _) with (k * (x * y) + d * z) by (unfold k, d; ring). apply B2; lra.
  - apply B4. rewrite <- Rabs_Ropp. replace (- _) with (k * (x * z) + d * (- y)) by (unfold k, d; ring). apply B2; lra.
  - apply B4. rewrite <- Rabs_Ropp. replace (- _) with (k * (x * y) + d * (- z)) by (unfold k, d; ring). apply B2; lra.
  - apply B3. replace (_ - _) with (k * (1 - y * y)) by (unfold k; ring). apply B1. lra.
  - apply B4. rewrite <- Rabs_Ropp. replace (- _) with (k * (y * z) + d * x) by (unfold k, d; ring). apply B2; lra.
  - apply B4. rewrite <- Rabs_Ropp. replace (- _) with (k * (x * z) + d * y) by (unfold k, d; ring). apply B2; lra.
  - apply B4. rewrite <- Rabs_Ropp. replace (- _) with (k * (y * z) + d * (- x)) by (unfold k, d; ring). apply B2; lra.
  - apply B3. replace (_ - _) with (k * (1 - z * z)) by (unfold k; ring). apply B1. lra.
Qed.

(** The other direction. *)
Lemma round_trip_cal p :
  DBL_EPS < dot (pose_aa p) (pose_aa p) -> norm (pose_aa p) < PI ->
  poseEigenToCal (poseCalToEigen p) = p.
Proof.
  intros L Hn. unfold pose_aa in *. unfold poseCalToEigen. set (rr := V3 (p_rx p) (p_ry p) (p_rz p)) in *.
  destruct (Rlt_dec DBL_EPS (dot rr rr)) as [_|C]; [ | contradiction ].
  pose proof DBL_EPS_pos.
  assert (N0 : rr <> vzero).
  { intros E. rewrite E in L. revert L. geo_unfold. lra. }
  assert (Hp : 0 < norm rr).
  { destruct (norm_nonneg rr) as [?|E]; [ assumption | ].
    exfalso. apply N0, norm_zero. symmetry; exact E. }
  unfold poseEigenToCal. cbn [lin tr].
  rewrite aa_of_mat_aa; [ | apply norm_normalized; exact N0 | lra ].
  cbn [aa_axis aa_angle].
  pose proof (norm_normalized_scale rr) as E. unfold vscale in E.
  destruct p as [rx ry rz x y z]. cbn [p_rx p_ry p_rz p_x p_y p_z vx vy vz] in *.
  unfold rr in E at 7. injection E as E1 E2 E3. 
  f_equal; [ rewrite <- E1 | rewrite <- E2 | rewrite <- E3 ]; apply Rmult_comm.
Qed.

(** ** C07, C08 *)
Lemma arr_pinhole k p : vz p <> 0 -> projectPoint_arr k p = pinhole k p.
Proof.
  intros H. unfold projectPoint_arr, pinhole.
  destruct (Req_EM_T (vz p) 0) as [E|E]; [ contradiction | reflexivity ].
Qed.
Lemma eig_pinhole k p : 1 / 10 ^ 10 < vz p -> projectPoint_eig k p = pinhole k p.
Proof.
  intros H. unfold projectPoint_eig, pinhole. rewrite Rminus_0_r.
  destruct (Rlt_dec (1 / 10 ^ 10) (vz p)) as [_|E]; [ | contradiction ].
  geo_unfold. f_equal; ring.
Qed.
Lemma eig_small k p : vz p <= 1 / 10 ^ 10 ->
  projectPoint_eig k p = V2 (fx k * vx p + cx k) (fy k * vy p + cy k).
Proof.
  intros H. unfold projectPoint_eig. rewrite Rminus_0_r.
  destruct (Rlt_dec (1 / 10 ^ 10) (vz p)) as [C|_]; [ lra | ].
  geo_unfold. f_equal; ring.
Qed.
Lemma arr_zero k p : vz p = 0 ->
  projectPoint_arr k p = V2 (fx k * vx p + cx k) (fy k * vy p + cy k).
Proof.
  intros H. unfold projectPoint_arr. destruct (Req_EM_T (vz p) 0) as [_|E]; [ reflexivity | contradiction ].
Qed.

Lemma div_self_eq f a z : z <> 0 -> f * (a / z) = f * a <-> (f = 0 \/ a = 0 \/ z = 1).
Proof.
  intros Hz. split.
  - intros H. assert (E : f * a * (1 - z) = 0).
    { replace (f * a * (1 - z)) with (f * a - z * (f * a)) by ring.
      rewrite <- H at 2. field_simplify; [ | exact Hz ]. ring. }
    apply Rmult_integral in E as [E|E]; [ apply Rmult_integral in E as [E|E] | ]; auto.
    right; right; lra.
  - intros [->|[->| ->]]; field; lra.
Qed.

Lemma overloads_agree_iff k p :
  projectPoint_arr k p = projectPoint_eig k p <->
  (vz p = 0 \/ 1 / 10 ^ 10 < vz p \/
   ((fx k = 0 \/ vx p = 0) /\ (fy k = 0 \/ vy p = 0))).
Proof.
  assert (Hc : 0 < 1 / 10 ^ 10 < 1).
  { split; [ apply Rdiv_lt_0_compat; [ lra | apply pow_lt; lra ] | ].
    apply (Rmult_lt_reg_r (10 ^ 10)); [ apply pow_lt; lra | ].
    unfold Rdiv. rewrite Rmult_assoc, Rinv_l, Rmult_1_r, Rmult_1_l; [ cbn; lra | ].
    apply pow_nonzero; lra. }
  set (c := 1 / 10 ^ 10) in *.
  destruct (Req_dec (vz p) 0) as [Z|Z].
  { rewrite arr_zero, eig_small by (fold c; lra). tauto. }
  destruct (Rlt_dec c (vz p)) as [L|L].
  { rewrite arr_pinhole, eig_pinhole by assumption. tauto. }
  rewrite arr_pinhole, eig_small by (fold c; lra). unfold pinhole.
  split.
  - intros H. injection H as H1 H2. right; right.
    assert (E1 : fx k * (vx p / vz p) = fx k * vx p) by lra.
    assert (E2 : fy k * (vy p / vz p) = fy k * vy p) by lra.
    apply div_self_eq in E1; [ | exact Z ]. apply div_self_eq in E2; [ | exact Z ].
    split; [ destruct E1 as [?|[?|?]] | destruct E2 as [?|[?|?]] ]; auto; lra.
  - intros [?|[?|[A B]]]; [ contradiction | contradiction | ]. f_equal; f_equal.
    + apply div_self_eq; [ exact Z | tauto ].
    + apply div_self_eq; [ exact Z | tauto ].
Qed.

Lemma pinhole_ray k p s : 0 < s -> vz p <> 0 -> pinhole k (vscale s p) = pinhole k p.
Proof. intros Hs Hz. unfold pinhole, vscale; cbn [vx vy vz]. f_equal; f_equal; field; lra. Qed.
Lemma pinhole_inj k p q : fx k <> 0 -> fy k <> 0 -> 0 < vz p -> 0 < vz q ->
  pinhole k p = pinhole k q -> same_ray p q.
Proof.
  intros Hf Hg Hp Hq H. unfold pinhole in H. injection H as H1 H2.
  assert (E1 : vx p / vz p = vx q / vz q) by (apply (Rmult_eq_reg_l (fx k)); [ lra | exact Hf ]).
  assert (E2 : vy p / vz p = vy q / vz q) by (apply (Rmult_eq_reg_l (fy k)); [ lra | exact Hg ]).
  exists (vz q / vz p). split; [ apply Rdiv_lt_0_compat; assumption | ].
  destruct p as [x y z], q as [x' y' z']; unfold vscale; cbn [vx vy vz] in *.
  f_equal.
  - replace (z' / z * x) with (z' * (x / z)) by (field; lra). rewrite E1. field. lra.
  - replace (z' / z * y) with (z' * (y / z)) by (field; lra). rewrite E2. field. lra.
  - field. lra.
Qed.

Lemma cal_to_eigen_det p : Rabs (det (lin (poseCalToEigen p)) - 1) <= DBL_EPS.
Proof.
  destruct (Rlt_dec DBL_EPS (dot (pose_aa p) (pose_aa p))) as [L|L].
  - destruct (cal_to_eigen_rigid p (or_intror L)) as [_ ->].
    rewrite Rminus_eq_0, Rabs_R0. left. apply DBL_EPS_pos.
  - revert L. unfold pose_aa, poseCalToEigen. set (rr := V3 (p_rx p) (p_ry p) (p_rz p)).
    intros L. destruct (Rlt_dec _ _) as [L'|_]; [ contradiction | ]. cbn [lin].
    apply Rnot_lt_le in L. pose proof (dot_pos rr) as D. revert L D.
    unfold dot, det. cbn [m00 m01 m02 m10 m11 m12 m20 m21 m22]. intros L D.
    apply Rabs_le. lra.
Qed.

(** Concrete values used by the examples. *)
Definition quarter_x : pose6 := P6 (PI / 2) 0 0 1 2 3.
Lemma quarter_x_norm : norm (pose_aa quarter_x) = PI / 2.
Proof.
  unfold norm, pose_aa, quarter_x, dot; cbn [p_rx p_ry p_rz vx vy vz].
  replace (_ + _) with ((PI / 2) * (PI / 2)) by ring. apply sqrt_square. pose proof PI_RGT_0. lra.
Qed.
Lemma quarter_x_big : DBL_EPS < dot (pose_aa quarter_x) (pose_aa quarter_x).
Proof.
  unfold pose_aa, quarter_x, dot; cbn [p_rx p_ry p_rz vx vy vz].
  pose proof DBL_EPS_small. pose proof PI2_1. nra.
Qed.
Lemma quarter_x_acts : poseTransformPoint quarter_x (V3 0 1 0) = V3 1 2 4.
Proof.
  rewrite <- cal_to_eigen_acts. unfold poseCalToEigen.
  fold (pose_aa quarter_x). pose proof quarter_x_big as B.
  change (V3 (p_rx quarter_x) (p_ry quarter_x) (p_rz quarter_x)) with (pose_aa quarter_x).
  destruct (Rlt_dec _ _) as [_|C]; [ | contradiction ].
  replace (pose_aa quarter_x) with (vscale (PI / 2) unitX)
    by (unfold pose_aa, quarter_x; geo_unfold; cbn; f_equal; ring).
  pose proof PI_RGT_0.
  destruct (normalized_scaled (PI / 2) unitX) as [-> ->]; [ lra | geo_unfold; ring | ].
  unfold aa_matrix. rewrite sin_PI2, cos_PI2. unfold quarter_x. geo_unfold; cbn.
  f_equal; ring.
Qed.

Lemma small_not_rigid : exists p, ~ rigid (poseCalToEigen p).
Proof.
  exists (P6 DBL_EPS 0 0 0 0 0). intros H. apply cal_to_eigen_rigid_iff in H.
  unfold pose_aa in H; cbn [p_rx p_ry p_rz] in H.
  pose proof DBL_EPS_pos. pose proof DBL_EPS_small. destruct H as [H|H].
  - unfold vzero in H. injection H as H. lra.
  - unfold dot in H; cbn [vx vy vz] in H. nra.
Qed.

Lemma quarter_x_round : poseEigenToCal (poseCalToEigen quarter_x) = quarter_x.
Proof.
  apply round_trip_cal; [ apply quarter_x_big | rewrite quarter_x_norm ].
  pose proof PI_RGT_0. lra.
Qed.

Lemma half_x_round :
  poseCalToEigen (poseEigenToCal (Iso (M3 1 0 0 0 (-1) 0 0 0 (-1)) (V3 1 2 3)))
  = Iso (M3 1 0 0 0 (-1) 0 0 0 (-1)) (V3 1 2 3).
Proof.
  set (T := Iso (M3 1 0 0 0 (-1) 0 0 0 (-1)) (V3 1 2 3)).
  assert (R : rigid T).
  { unfold rigid, T, is_rot, det; cbn [lin]. geo_unfold. split; [ f_equal; ring | ring ]. }
  apply round_trip_exact; [ exact R | right ]. rewrite eigen_to_cal_sq by exact R.
  destruct (aa_of_mat_spec _ R) as (U & A & M).
  set (a := aa_angle _) in *. set (u := aa_axis _) in *.
  assert (E : cos a = -1).
  { pose proof (f_equal trace M) as E. unfold aa_matrix, trace, T in E.
    cbn [m00 m01 m02 m10 m11 m12 m20 m21 m22 lin] in E.
    unfold dot in U. nra. }
  pose proof DBL_EPS_small.
  assert (1 <= a); [ | nra ].
  destruct (Rle_dec 1 a) as [?|N]; [ assumption | exfalso ].
  pose proof (cos_ge_quad a (proj1 A)). nra.
Qed.

Lemma small_c : 0 < 1 / 10 ^ 10 < 1.
Proof.
  split; [ apply Rdiv_lt_0_compat; [ lra | apply pow_lt; lra ] | ].
  apply (Rmult_lt_reg_r (10 ^ 10)); [ apply pow_lt; lra | ].
  unfold Rdiv. rewrite Rmult_assoc, Rinv_l, Rmult_1_r, Rmult_1_l; [ cbn; lra | ].
  apply pow_nonzero; lra.
Qed.
Lemma overloads_differ : exists k p, projectPoint_arr k p <> projectPoint_eig k p.
Proof.
  exists (Intr 500 500 320 240), (V3 1 1 (-2)). intros H.
  apply overloads_agree_iff in H. cbn [vx vy vz fx fy] in H. pose proof small_c. lra.
Qed.
Lemma both_pinhole k p : 1 / 10 ^ 10 < vz p ->
  projectPoint_arr k p = pinhole k p /\ projectPoint_eig k p = pinhole k p.
Proof.
  intros H. pose proof small_c. split; [ apply arr_pinhole; lra | apply eig_pinhole, H ].
Qed.
Lemma both_ray k p s : 0 < s -> 1 / 10 ^ 10 < vz p -> 1 / 10 ^ 10 < s * vz p ->
  projectPoint_arr k (vscale s p) = projectPoint_arr k p /\
  projectPoint_eig k (vscale s p) = projectPoint_eig k p.
Proof.
  intros H H1 H2. pose proof small_c.
  destruct (both_pinhole k p H1) as [-> ->].
  destruct (both_pinhole k (vscale s p)) as [-> ->]; [ exact H2 | ].
  split; apply pinhole_ray; lra.
Qed.
Lemma both_inj k p q : fx k <> 0 -> fy k <> 0 -> 1 / 10 ^ 10 < vz p -> 1 / 10 ^ 10 < vz q ->
  (projectPoint_arr k p = projectPoint_arr k q -> same_ray p q) /\
  (projectPoint_eig k p = projectPoint_eig k q -> same_ray p q).
Proof.
  intros Hf Hg H1 H2. pose proof small_c.
  destruct (both_pinhole k p H1) as [-> ->]. destruct (both_pinhole k q H2) as [-> ->].
  split; apply pinhole_inj; lra.
Qed.
Lemma pixel_example : projectPoint_eig (Intr 500 400 320 240) (V3 1 (-2) 4) = V2 445 40.
Proof.
  rewrite eig_pinhole; [ | cbn [vz]; pose proof small_c; lra ].
  unfold pinhole; cbn [vx vy vz fx fy cx cy]. f_equal; lra.
Qed.
