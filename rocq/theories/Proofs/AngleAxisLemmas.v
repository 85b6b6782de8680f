(** Angle-axis extraction, and small-angle bounds. *)
From Coq Require Import Reals Lra Psatz.
From Verif.Base Require Import Geom.
From Verif.Proofs Require Import GeomLemmas RotLemmas.
Local Open Scope R_scope.

Lemma qnorm2_split q : qnorm2 q = qw q * qw q + dot (qvec q) (qvec q).
Proof. unfold qnorm2, dot, qvec; cbn [vx vy vz]. ring. Qed.

Lemma half_atan2 n w : 0 <= n -> n * n + w * w = 1 ->
  cos (atan2 n (Rabs w)) = Rabs w /\ sin (atan2 n (Rabs w)) = n.
Proof.
  intros Hn H.
  assert (Ha : Rabs w * Rabs w = w * w) by (rewrite <- Rabs_mult; apply Rabs_right; nra).
  assert (Hne : Rabs w <> 0 \/ n <> 0).
  { destruct (Req_dec n 0) as [E|E]; [ | right; exact E ]. left. intros E'. nra. }
  destruct (atan2_spec n (Rabs w) Hne) as [C S].
  replace (Rabs w * Rabs w + n * n) with 1 in C, S by lra.
  rewrite sqrt_1 in C, S. split; [ rewrite C | rewrite S ]; field.
Qed.

(** The angle-axis of a unit quaternion has a unit axis, an angle between 0 and pi,
    and the same rotation matrix. *)
Lemma aa_of_quat_spec q : qnorm2 q = 1 ->
  dot (aa_axis (aa_of_quat q)) (aa_axis (aa_of_quat q)) = 1 /\
  0 <= aa_angle (aa_of_quat q) <= PI /\
  aa_matrix (aa_angle (aa_of_quat q)) (aa_axis (aa_of_quat q)) = q_matrix q.
Proof.
  intros H. unfold aa_of_quat. pose proof PI_RGT_0.
  destruct (Req_EM_T (norm (qvec q)) 0) as [E|E]; cbn [aa_axis aa_angle].
  - apply norm_zero in E. rewrite aa_matrix_0.
    split; [ geo_unfold; ring | ]. split; [ lra | ].
    destruct q as [w x y z]. unfold qvec, vzero in E. cbn [qw qx qy qz] in E.
    injection E as Ex Ey Ez. subst. unfold q_matrix; cbn [qw qx qy qz]. geo_unfold. f_equal; ring.
  - set (n := norm (qvec q)) in *.
    assert (Hn : 0 < n) by (pose proof (norm_nonneg (qvec q)); fold n in H1; lra).
    assert (Hd : dot (qvec q) (qvec q) = n * n) by (unfold n; rewrite norm_sq; reflexivity).
    rewrite qnorm2_split, Hd in H.
    destruct (half_atan2 n (qw q)) as [C S]; [ lra | lra | ].
    pose proof (atan2_quadrant n (Rabs (qw q)) (Rlt_le _ _ Hn) (Rabs_pos _)) as [Q1 Q2].
    set (n' := if Rlt_dec (qw q) 0 then - n else n).
    assert (Hn' : n' * n' = n * n) by (unfold n'; destruct (Rlt_dec (qw q) 0); ring).
    assert (Hn'0 : n' <> 0) by (intros E0; rewrite E0 in Hn'; nra).
    assert (Hs : Rabs (qw q) * n = qw q * n').
    { unfold n', Rabs. destruct (Rcase_abs (qw q)), (Rlt_dec (qw q) 0); try lra. }
    split.
    { replace (dot _ _) with (dot (qvec q) (qvec q) / (n' * n'))
        by (unfold dot, qvec; cbn [vx vy vz]; field; exact Hn'0).
      rewrite Hd, Hn'. field. lra. }
    split; [ lra | ].
    set (h := atan2 n (Rabs (qw q))) in *.
    assert (C2 : cos (2 * h) = 1 - 2 * (n * n)) by (rewrite cos_2a_sin, S; ring).
    assert (S2 : sin (2 * h) = 2 * (qw q * n')) by (rewrite sin_2a, C, S; lra).
    unfold aa_matrix. rewrite C2, S2. cbn [vx vy vz].
    destruct q as [w x y z]. unfold dot, qvec in Hd. cbn [qw qx qy qz vx vy vz] in *.
    assert (Hz : x * x + y * y + z * z = n' * n') by lra.
    unfold q_matrix. cbn [qw qx qy qz]. rewrite <- Hn'.
    geo_ext; cbn [m00 m01 m02 m10 m11 m12 m20 m21 m22].
    1: replace (1 - (2 * y * y + 2 * z * z)) with (1 - 2 * (n' * n') + 2 * (x * x)) by lra.
    5: replace (1 - (2 * x * x + 2 * z * z)) with (1 - 2 * (n' * n') + 2 * (y * y)) by lra.
    9: replace (1 - (2 * x * x + 2 * y * y)) with (1 - 2 * (n' * n') + 2 * (z * z)) by lra.
    all: field; exact Hn'0.
Qed.

Lemma aa_of_mat_spec m : is_rot m ->
  dot (aa_axis (aa_of_mat m)) (aa_axis (aa_of_mat m)) = 1 /\
  0 <= aa_angle (aa_of_mat m) <= PI /\
  aa_matrix (aa_angle (aa_of_mat m)) (aa_axis (aa_of_mat m)) = m.
Proof.
  intros H. destruct (aa_of_quat_spec _ (quat_of_mat_unit m H)) as (A & B & C).
  unfold aa_of_mat. rewrite q_matrix_quat_of_mat in C by exact H. auto.
Qed.

(** A quaternion and its negative give the same angle-axis unless the scalar part
    is zero. *)
Lemma aa_of_quat_neg q : qw q <> 0 -> aa_of_quat (qneg q) = aa_of_quat q.
Proof.
  intros Hw. unfold aa_of_quat.
  replace (norm (qvec (qneg q))) with (norm (qvec q))
    by (unfold norm; f_equal; unfold dot, qvec, qneg; cbn [vx vy vz qx qy qz]; ring).
  destruct (Req_EM_T (norm (qvec q)) 0) as [E|E]; [ reflexivity | ].
  unfold qneg; cbn [qw qx qy qz]. rewrite Rabs_Ropp.
  f_equal. destruct (Rlt_dec (- qw q) 0), (Rlt_dec (qw q) 0); try lra;
    geo_ext; cbn [vx vy vz]; field; exact E.
Qed.

(** The unit quaternion of a rotation by [a] about [u]. *)
Definition quat_aa a u := Q (cos (a / 2)) (sin (a / 2) * vx u) (sin (a / 2) * vy u) (sin (a / 2) * vz u).

Lemma quat_aa_unit a u : dot u u = 1 -> qnorm2 (quat_aa a u) = 1.
Proof.
  intros H. unfold dot in H. unfold qnorm2, quat_aa; cbn [qw qx qy qz].
  pose proof (sc1 (a / 2)).
  replace (_ + _ + _ + _) with
    (cos (a / 2) * cos (a / 2) + (sin (a / 2) * sin (a / 2)) * (vx u * vx u + vy u * vy u + vz u * vz u)) by ring.
  rewrite H. lra.
Qed.
Lemma quat_aa_matrix a u : dot u u = 1 -> q_matrix (quat_aa a u) = aa_matrix a u.
Proof.
  intros H. unfold dot in H.
  assert (C : cos a = 1 - 2 * sin (a / 2) * sin (a / 2)) by (rewrite <- cos_2a_sin; f_equal; field).
  assert (S : sin a = 2 * sin (a / 2) * cos (a / 2)) by (rewrite <- sin_2a; f_equal; field).
  unfold aa_matrix, q_matrix, quat_aa. rewrite C, S. cbn [qw qx qy qz].
  set (s := sin (a / 2)) in *. set (c := cos (a / 2)) in *.
  destruct u as [x y z]; cbn [vx vy vz] in *.
  assert (Hx : x * x = 1 - y * y - z * z) by lra.
  geo_ext; cbn [m00 m01 m02 m10 m11 m12 m20 m21 m22]; ring [Hx].
Qed.

Lemma aa_of_quat_aa a u : dot u u = 1 -> 0 < a < PI -> aa_of_quat (quat_aa a u) = AA a u.
Proof.
  intros Hu Ha. pose proof PI_RGT_0.
  assert (Hs : 0 < sin (a / 2)) by (apply sin_gt_0; lra).
  assert (Hc : 0 < cos (a / 2)) by (apply cos_gt_0; lra).
  unfold aa_of_quat.
  assert (Hn : norm (qvec (quat_aa a u)) = sin (a / 2)).
  { unfold norm. replace (dot _ _) with (sin (a / 2) * sin (a / 2) * dot u u)
      by (unfold dot, qvec, quat_aa; cbn [vx vy vz qx qy qz]; ring).
    rewrite Hu, Rmult_1_r. apply sqrt_square. lra. }
  rewrite Hn. destruct (Req_EM_T (sin (a / 2)) 0); [ lra | ].
  unfold quat_aa; cbn [qw qx qy qz].
  destruct (Rlt_dec (cos (a / 2)) 0); [ lra | ].
  rewrite Rabs_right by lra.
  pose proof (atan2_polar 1 (a / 2) Rlt_0_1 ltac:(lra)) as E. rewrite !Rmult_1_l in E. rewrite E.
  f_equal; [ field | ]. geo_ext; cbn [vx vy vz]; field; lra.
Qed.

(** Extracting the angle-axis of an angle-axis matrix, for angles in (0, pi). *)
Lemma aa_of_mat_aa a u : dot u u = 1 -> 0 < a < PI -> aa_of_mat (aa_matrix a u) = AA a u.
Proof.
  intros Hu Ha. unfold aa_of_mat. rewrite <- quat_aa_matrix by exact Hu.
  assert (Hc : cos (a / 2) <> 0) by (assert (0 < cos (a / 2)) by (apply cos_gt_0; lra); lra).
  destruct (quat_of_mat_q_matrix _ (quat_aa_unit a u Hu)) as [E|E]; rewrite E.
  - apply aa_of_quat_aa; assumption.
  - rewrite aa_of_quat_neg by exact Hc. apply aa_of_quat_aa; assumption.
Qed.

(** ** Small angles *)
Lemma sin_le_x x : 0 <= x -> sin x <= x.
Proof.
  intros H. destruct (Req_dec x 0) as [->|N]; [ rewrite sin_0; lra | ].
  left. apply sin_lt_x. lra.
Qed.
Lemma cos_ge_quad x : 0 <= x -> 1 - x * x / 2 <= cos x.
Proof.
  intros H. assert (E : cos x = 1 - 2 * sin (x / 2) * sin (x / 2))
    by (rewrite <- cos_2a_sin; f_equal; field).
  rewrite E.
  destruct (Rle_dec (x / 2) PI) as [L|L].
  - pose proof (sin_le_x (x / 2) ltac:(lra)). assert (0 <= sin (x / 2)) by (apply sin_ge_0; lra). nra.
  - pose proof (SIN_bound (x / 2)). pose proof PI2_3_2. assert (1 < x / 2) by lra. nra.
Qed.

Lemma sin_ge_cubic x : 0 <= x <= 1 -> x - x * x * x / 6 <= sin x.
Proof.
  intros H. pose proof PI2_3_2.
  destruct (SIN x) as [L _]; [ lra | lra | ].
  refine (Rle_trans _ _ _ _ L). unfold sin_lb, sin_approx, sum_f_R0, sin_term.
  cbn [Nat.mul Nat.add fact pow]. rewrite !INR_IZR_INZ. cbn -[Rdiv].
  assert (0 <= x ^ 5) by (apply pow_le; lra).
  assert (x ^ 7 <= x ^ 5).
  { replace (x ^ 7) with (x ^ 5 * (x * x)) by ring. rewrite <- (Rmult_1_r (x ^ 5)) at 2.
    apply Rmult_le_compat_l; nra. }
  match goal with |- _ <= ?e => replace e with (x - x * x * x / 6 + x ^ 5 / 120 - x ^ 7 / 5040) by field end.
  lra.
Qed.
