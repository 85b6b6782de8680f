(** Rotation matrices, quaternions and angle-axis: the conversions are inverse to
    each other. *)
From Coq Require Import Reals Lra Psatz.
From Verif.Base Require Import Geom.
From Verif.Proofs Require Import GeomLemmas.
Local Open Scope R_scope.

(** ** atan2 *)

Lemma sqrt_quot x y : x <> 0 ->
  sqrt (1 + (y / x)²) = sqrt (x * x + y * y) / Rabs x.
Proof.
  intros Hx.
  replace (1 + (y / x)²) with ((x * x + y * y) / (x * x)) by (unfold Rsqr; field; exact Hx).
  assert (0 < x * x) by nra.
  rewrite sqrt_div; [ | nra | lra ]. f_equal. apply sqrt_Rsqr_abs.
Qed.

Lemma hyp_pos x y : (x <> 0 \/ y <> 0) -> 0 < sqrt (x * x + y * y).
Proof. intros H. apply sqrt_lt_R0. destruct H; nra. Qed.

Lemma atan2_spec y x : (x <> 0 \/ y <> 0) ->
  cos (atan2 y x) = x / sqrt (x * x + y * y) /\ sin (atan2 y x) = y / sqrt (x * x + y * y).
Proof.
  intros H. pose proof (hyp_pos x y H) as Hr. unfold atan2.
  destruct (Rlt_dec 0 x) as [Hx|Hx].
  - rewrite cos_atan, sin_atan, sqrt_quot, Rabs_right by lra.
    split; field; lra.
  - destruct (Rlt_dec x 0) as [Hx'|Hx'].
    + destruct (Rle_dec 0 y) as [Hy|Hy].
      * rewrite neg_cos, neg_sin, cos_atan, sin_atan, sqrt_quot, Rabs_left by lra.
        split; field; lra.
      * replace (atan (y / x) - PI) with (- (PI - atan (y / x))) by ring.
        rewrite cos_neg, sin_neg.
        replace (PI - atan (y / x)) with (- atan (y / x) + PI) by ring.
        rewrite neg_cos, neg_sin, cos_neg, sin_neg, cos_atan, sin_atan, sqrt_quot, Rabs_left by lra.
        split; field; lra.
    + assert (x = 0) by lra. subst x.
      replace (0 * 0 + y * y) with (y * y) in * by ring.
      assert (Hy0 : y <> 0) by (destruct H; lra).
      destruct (Rlt_dec 0 y) as [Hy|Hy].
      * rewrite cos_PI2, sin_PI2, sqrt_square by lra. split; field; lra.
      * destruct (Rlt_dec y 0) as [Hy'|Hy']; [ | lra ].
        rewrite cos_neg, sin_neg, cos_PI2, sin_PI2.
        replace (y * y) with ((- y) * (- y)) by ring. rewrite sqrt_square by lra.
        split; field; lra.
Qed.

(** For a non-negative abscissa and ordinate the angle is in the first quadrant. *)
Lemma atan2_quadrant y x : 0 <= y -> 0 <= x -> 0 <= atan2 y x <= PI / 2.
Proof.
  intros Hy Hx. pose proof PI_RGT_0. unfold atan2.
  destruct (Rlt_dec 0 x) as [H1|H1].
  - assert (0 <= y / x) by (apply Rmult_le_pos; [ lra | left; apply Rinv_0_lt_compat; lra ]).
    pose proof (atan_bound (y / x)). split; [ | lra ].
    destruct (Req_dec (y / x) 0) as [E|E].
    + rewrite E, atan_0. lra.
    + left. rewrite <- atan_0. apply atan_increasing. lra.
  - destruct (Rlt_dec x 0); [ lra | ].
    destruct (Rlt_dec 0 y); [ lra | ]. destruct (Rlt_dec y 0); lra.
Qed.

Lemma atan2_range y x : - PI < atan2 y x <= PI.
Proof.
  unfold atan2. pose proof PI_RGT_0. pose proof (atan_bound (y / x)) as B.
  destruct (Rlt_dec 0 x); [ lra | ]. destruct (Rlt_dec x 0) as [Hx|Hx].
  - destruct (Rle_dec 0 y) as [Hy|Hy].
    + assert (Q : y / x <= 0).
      { unfold Rdiv. assert (/ x < 0) by (apply Rinv_lt_0_compat; exact Hx). nra. }
      assert (A : atan (y / x) <= 0).
      { destruct Q as [Q|Q]; [ apply atan_increasing in Q; rewrite atan_0 in Q; lra | rewrite Q, atan_0; lra ]. }
      lra.
    + assert (Q : 0 < y / x).
      { unfold Rdiv. assert (/ x < 0) by (apply Rinv_lt_0_compat; exact Hx). nra. }
      apply atan_increasing in Q. rewrite atan_0 in Q. lra.
  - destruct (Rlt_dec 0 y); [ lra | ]. destruct (Rlt_dec y 0); lra.
Qed.

Lemma atan2_polar r a : 0 < r -> - PI < a <= PI -> atan2 (r * sin a) (r * cos a) = a.
Proof.
  intros Hr Ha. pose proof PI_RGT_0 as Hpi. unfold atan2.
  destruct (Rlt_dec 0 (r * cos a)) as [H1|H1].
  - assert (Hc : 0 < cos a) by nra.
    replace (r * sin a / (r * cos a)) with (tan a) by (unfold tan; field; lra).
    apply atan_tan. destruct (Rlt_dec a (PI / 2)) as [A|A].
    + destruct (Rlt_dec (- (PI / 2)) a) as [B|B]; [ lra | ].
      assert (cos a <= 0); [ | lra ].
      rewrite <- cos_neg. apply cos_le_0; lra.
    + assert (cos a <= 0); [ | lra ]. apply cos_le_0; lra.
  - destruct (Rlt_dec (r * cos a) 0) as [H2|H2].
    + assert (Hc : cos a < 0) by nra.
      replace (r * sin a / (r * cos a)) with (tan a) by (unfold tan; field; lra).
      destruct (Rle_dec 0 (r * sin a)) as [H3|H3].
      * assert (Hs : 0 <= sin a) by nra.
        assert (Ha0 : PI / 2 < a).
        { destruct (Rlt_dec (PI / 2) a); [ assumption | exfalso ].
          destruct (Rlt_dec a (- (PI/2))) as [B|B].
          - assert (sin a < 0); [ | lra ].
            rewrite <- (Ropp_involutive a), sin_neg.
            assert (0 < sin (- a)); [ | lra ]. apply sin_gt_0; lra.
          - assert (0 <= cos a); [ | lra ]. apply cos_ge_0; lra. }
        replace (tan a) with (tan (a - PI)).
        { rewrite atan_tan; lra. }
        unfold tan. rewrite sin_minus, cos_minus, sin_PI, cos_PI. field. lra.
      * assert (Hs : sin a < 0) by nra.
        assert (Ha0 : a < - (PI / 2)).
        { destruct (Rlt_dec a (- (PI / 2))); [ assumption | exfalso ].
          destruct (Rlt_dec (PI/2) a) as [B|B].
          - assert (0 <= sin a); [ | lra ]. apply sin_ge_0; lra.
          - assert (0 <= cos a); [ | lra ]. apply cos_ge_0; lra. }
        replace (tan a) with (tan (a + PI)).
        { rewrite atan_tan; lra. }
        unfold tan. rewrite neg_cos, neg_sin. field. lra.
    + assert (Hc : cos a = 0) by nra.
      assert (Hs1 : sin a * sin a = 1) by (pose proof (sc1 a); nra).
      destruct (Rlt_dec 0 (r * sin a)) as [H3|H3].
      * assert (sin a = 1) by nra.
        assert (Hap : 0 < a).
        { destruct (Rlt_dec 0 a); [ assumption | exfalso ].
          assert (0 <= sin (- a)) by (apply sin_ge_0; lra). rewrite sin_neg in *. lra. }
        apply cos_inj; try lra. rewrite cos_PI2. lra.
      * destruct (Rlt_dec (r * sin a) 0) as [H4|H4]; [ | nra ].
        assert (sin a = -1) by nra.
        assert (Hap : a < 0).
        { destruct (Rlt_dec a 0); [ assumption | exfalso ].
          assert (0 <= sin a) by (apply sin_ge_0; lra). lra. }
        assert (E : PI / 2 = - a); [ | lra ].
        apply cos_inj; try lra. rewrite cos_PI2, cos_neg. lra.
Qed.

(** ** Quaternion of a rotation matrix *)

(** The products of quaternion components, linear in the matrix entries. *)
Definition kww m := 1 + m00 m + m11 m + m22 m.
Definition kxx m := 1 + m00 m - m11 m - m22 m.
Definition kyy m := 1 - m00 m + m11 m - m22 m.
Definition kzz m := 1 - m00 m - m11 m + m22 m.
Definition kwx m := m21 m - m12 m.
Definition kwy m := m02 m - m20 m.
Definition kwz m := m10 m - m01 m.
Definition kxy m := m01 m + m10 m.
Definition kxz m := m02 m + m20 m.
Definition kyz m := m12 m + m21 m.

Record rank1 m : Prop := {
  r_wxx : kwx m * kwx m = kww m * kxx m;  r_wyy : kwy m * kwy m = kww m * kyy m;
  r_wzz : kwz m * kwz m = kww m * kzz m;  r_wxy : kwx m * kwy m = kww m * kxy m;
  r_wxz : kwx m * kwz m = kww m * kxz m;  r_wyz : kwy m * kwz m = kww m * kyz m;
  r_xyy : kxy m * kxy m = kxx m * kyy m;  r_xzz : kxz m * kxz m = kxx m * kzz m;
  r_xwy : kwx m * kxy m = kxx m * kwy m;  r_xwz : kwx m * kxz m = kxx m * kwz m;
  r_xyz : kxy m * kxz m = kxx m * kyz m;
  r_yzz : kyz m * kyz m = kyy m * kzz m;
  r_ywx : kwy m * kxy m = kyy m * kwx m;  r_ywz : kwy m * kyz m = kyy m * kwz m;
  r_yxz : kxy m * kyz m = kyy m * kxz m;
  r_zwx : kwz m * kxz m = kzz m * kwx m;  r_zwy : kwz m * kyz m = kzz m * kwy m;
  r_zxy : kxz m * kyz m = kzz m * kxy m
}.

Lemma rot_rank1 m : is_rot m -> rank1 m.
Proof.
  intros H. pose proof (is_rot_adj m H) as Ha. pose proof (is_rot_right m H) as Hr.
  destruct H as [Hl _].
  destruct m as [a b c d e f g h i]. unfold adj, mmul, mT, I3 in *.
  cbn [m00 m01 m02 m10 m11 m12 m20 m21 m22] in *.
  injection Ha as A1 A2 A3 A4 A5 A6 A7 A8 A9.
  injection Hr as B1 B2 B3 B4 B5 B6 B7 B8 B9.
  injection Hl as C1 C2 C3 C4 C5 C6 C7 C8 C9.
  constructor; unfold kww, kxx, kyy, kzz, kwx, kwy, kwz, kxy, kxz, kyz;
    cbn [m00 m01 m02 m10 m11 m12 m20 m21 m22]; lra.
Qed.

(** All products of components of the extracted quaternion. *)
Record qprods (q : quat) (m : mat3) : Prop := {
  p_ww : 4 * (qw q * qw q) = kww m; p_xx : 4 * (qx q * qx q) = kxx m;
  p_yy : 4 * (qy q * qy q) = kyy m; p_zz : 4 * (qz q * qz q) = kzz m;
  p_wx : 4 * (qw q * qx q) = kwx m; p_wy : 4 * (qw q * qy q) = kwy m;
  p_wz : 4 * (qw q * qz q) = kwz m; p_xy : 4 * (qx q * qy q) = kxy m;
  p_xz : 4 * (qx q * qz q) = kxz m; p_yz : 4 * (qy q * qz q) = kyz m
}.

(** The pivot step: from K_pp > 0 every product is right. *)
Lemma pivot_prod kpp kpa kpb kab : 0 < kpp -> kpa * kpb = kpp * kab ->
  4 * ((kpa * (/ 2 / sqrt kpp)) * (kpb * (/ 2 / sqrt kpp))) = kab.
Proof.
  intros Hp H. pose proof (sqrt_lt_R0 kpp Hp) as Hs. pose proof (sqrt_sqrt kpp (Rlt_le _ _ Hp)) as E.
  replace (4 * (kpa * (/ 2 / sqrt kpp) * (kpb * (/ 2 / sqrt kpp))))
    with ((kpa * kpb) / (sqrt kpp * sqrt kpp)) by (field; lra).
  rewrite E, H. field. lra.
Qed.
Lemma pivot_self kpp : 0 < kpp -> 4 * ((/ 2 * sqrt kpp) * (/ 2 * sqrt kpp)) = kpp.
Proof.
  intros Hp. pose proof (sqrt_sqrt kpp (Rlt_le _ _ Hp)) as E.
  replace (4 * (/ 2 * sqrt kpp * (/ 2 * sqrt kpp))) with (sqrt kpp * sqrt kpp) by field. exact E.
Qed.
Lemma pivot_one kpp kpa : 0 < kpp -> 4 * ((/ 2 * sqrt kpp) * (kpa * (/ 2 / sqrt kpp))) = kpa.
Proof. intros Hp. pose proof (sqrt_lt_R0 kpp Hp). field. lra. Qed.

Lemma quat_of_mat_prods m : is_rot m -> qprods (quat_of_mat m) m.
Proof.
  intros H. pose proof (rot_rank1 m H) as [].
  unfold quat_of_mat.
  replace (trace m + 1) with (kww m) by (unfold trace, kww; ring).
  replace (m22 m - m00 m - m11 m + 1) with (kzz m) by (unfold kzz; ring).
  replace (m11 m - m22 m - m00 m + 1) with (kyy m) by (unfold kyy; ring).
  replace (m00 m - m11 m - m22 m + 1) with (kxx m) by (unfold kxx; ring).
  fold (kwx m) (kwy m) (kwz m).
  replace (m10 m + m01 m) with (kxy m) by (unfold kxy; ring).
  replace (m20 m + m02 m) with (kxz m) by (unfold kxz; ring).
  replace (m21 m + m12 m) with (kyz m) by (unfold kyz; ring).
  fold (kxy m) (kxz m) (kyz m).
  destruct (Rlt_dec 0 (trace m)) as [Ht|Ht].
  { assert (Hp : 0 < kww m) by (unfold trace, kww in *; lra).
    constructor; cbn [qw qx qy qz];
      first [ apply pivot_self; exact Hp | apply pivot_one; exact Hp
            | apply pivot_prod; [ exact Hp | lra ] ]. }
  assert (Hz : m00 m <= m22 m -> m11 m <= m22 m -> 0 < kzz m) by (unfold trace, kzz in *; lra).
  assert (Hy : m00 m <= m11 m -> m22 m <= m11 m -> 0 < kyy m) by (unfold trace, kyy in *; lra).
  assert (Hx : m11 m <= m00 m -> m22 m <= m00 m -> 0 < kxx m) by (unfold trace, kxx in *; lra).
  destruct (Rlt_dec (m00 m) (m11 m)) as [H1|H1].
  - destruct (Rlt_dec (m11 m) (m22 m)) as [H2|H2].
    + assert (Hp : 0 < kzz m) by (apply Hz; lra).
      constructor; cbn [qw qx qy qz];
        first [ apply pivot_self; exact Hp
              | apply pivot_one; exact Hp
              | rewrite Rmult_comm with (r1 := _ * _) (r2 := / 2 * _) in *; apply pivot_one; exact Hp
              | apply pivot_prod; [ exact Hp | lra ] | idtac ];
        match goal with |- 4 * (?a * (/ 2 * sqrt _)) = _ => rewrite (Rmult_comm a) end;
        apply pivot_one; exact Hp.
    + assert (Hp : 0 < kyy m) by (apply Hy; lra).
      constructor; cbn [qw qx qy qz];
        first [ apply pivot_self; exact Hp | apply pivot_one; exact Hp
              | apply pivot_prod; [ exact Hp | lra ] | idtac ];
        match goal with |- 4 * (?a * (/ 2 * sqrt _)) = _ => rewrite (Rmult_comm a) end;
        apply pivot_one; exact Hp.
  - destruct (Rlt_dec (m00 m) (m22 m)) as [H2|H2].
    + assert (Hp : 0 < kzz m) by (apply Hz; lra).
      constructor; cbn [qw qx qy qz];
        first [ apply pivot_self; exact Hp | apply pivot_one; exact Hp
              | apply pivot_prod; [ exact Hp | lra ] | idtac ];
        match goal with |- 4 * (?a * (/ 2 * sqrt _)) = _ => rewrite (Rmult_comm a) end;
        apply pivot_one; exact Hp.
    + assert (Hp : 0 < kxx m) by (apply Hx; lra).
      constructor; cbn [qw qx qy qz];
        first [ apply pivot_self; exact Hp | apply pivot_one; exact Hp
              | apply pivot_prod; [ exact Hp | lra ] | idtac ];
        match goal with |- 4 * (?a * (/ 2 * sqrt _)) = _ => rewrite (Rmult_comm a) end;
        apply pivot_one; exact Hp.
Qed.

Lemma qprods_unit q m : qprods q m -> qnorm2 q = 1.
Proof. intros []. unfold qnorm2, kww, kxx, kyy, kzz in *. lra. Qed.
Lemma qprods_matrix q m : qprods q m -> q_matrix q = m.
Proof.
  intros []. unfold q_matrix, kww, kxx, kyy, kzz, kwx, kwy, kwz, kxy, kxz, kyz in *.
  geo_ext; cbn [m00 m01 m02 m10 m11 m12 m20 m21 m22]; lra.
Qed.

(** Extracting the quaternion of a rotation matrix loses nothing. *)
Lemma quat_of_mat_unit m : is_rot m -> qnorm2 (quat_of_mat m) = 1.
Proof. intros H. eapply qprods_unit, quat_of_mat_prods, H. Qed.
Lemma q_matrix_quat_of_mat m : is_rot m -> q_matrix (quat_of_mat m) = m.
Proof. intros H. eapply qprods_matrix, quat_of_mat_prods, H. Qed.

Lemma q_matrix_prods q : qnorm2 q = 1 -> qprods q (q_matrix q).
Proof.
  unfold qnorm2. intros H.
  constructor; unfold q_matrix, kww, kxx, kyy, kzz, kwx, kwy, kwz, kxy, kxz, kyz;
    cbn [m00 m01 m02 m10 m11 m12 m20 m21 m22]; lra.
Qed.

Lemma q_matrix_rot q : qnorm2 q = 1 -> is_rot (q_matrix q).
Proof.
  unfold qnorm2. destruct q as [w x y z]; cbn [qw qx qy qz]. intros H.
  assert (Hw : w * w = 1 - x * x - y * y - z * z) by lra.
  split; unfold q_matrix; cbn [qw qx qy qz].
  - geo_unfold. geo_ext; cbn; ring [Hw].
  - geo_unfold. ring [Hw].
Qed.

(** Unit quaternions with the same products are equal up to sign. *)
Lemma qprods_sign p q m : qprods p m -> qprods q m -> p = q \/ p = qneg q.
Proof.
  intros P P'. pose proof (qprods_unit _ _ P) as U. destruct P, P'.
  destruct p as [w x y z], q as [w' x' y' z']. unfold qnorm2, qneg in *. cbn [qw qx qy qz] in *.
  assert (S : forall a a', a * a = a' * a' -> a = a' \/ a = - a').
  { intros a a' E. assert ((a - a') * (a + a') = 0) by lra.
    destruct (Rmult_integral _ _ H); [ left | right ]; lra. }
  assert (C : forall a a' b b', a <> 0 -> a = a' -> a * b = a' * b' -> b = b').
  { intros a a' b b' Ha E Eb. subst a'. apply (Rmult_eq_reg_l a); assumption. }
  assert (C' : forall a a' b b', a <> 0 -> a = - a' -> a * b = a' * b' -> b = - b').
  { intros a a' b b' Ha E Eb. apply (Rmult_eq_reg_l a); [ | assumption ].
    rewrite Eb, E. ring. }
  destruct (Req_dec w 0) as [Hw|Hw];
    [ destruct (Req_dec x 0) as [Hx|Hx];
      [ destruct (Req_dec y 0) as [Hy|Hy]; [ destruct (Req_dec z 0) as [Hz|Hz]; [ subst; lra | ] | ] | ] | ].
  - destruct (S z z' ltac:(lra)) as [E|E]; [ left | right ]; f_equal; try assumption;
      try (apply (C z z'); [ assumption | assumption | lra ]);
      try (apply (C' z z'); [ assumption | assumption | lra ]).
  - destruct (S y y' ltac:(lra)) as [E|E]; [ left | right ]; f_equal; try assumption;
      try (apply (C y y'); [ assumption | assumption | lra ]);
      try (apply (C' y y'); [ assumption | assumption | lra ]).
  - destruct (S x x' ltac:(lra)) as [E|E]; [ left | right ]; f_equal; try assumption;
      try (apply (C x x'); [ assumption | assumption | lra ]);
      try (apply (C' x x'); [ assumption | assumption | lra ]).
  - destruct (S w w' ltac:(lra)) as [E|E]; [ left | right ]; f_equal; try assumption;
      try (apply (C w w'); [ assumption | assumption | lra ]);
      try (apply (C' w w'); [ assumption | assumption | lra ]).
Qed.

Lemma quat_of_mat_q_matrix q : qnorm2 q = 1 ->
  quat_of_mat (q_matrix q) = q \/ quat_of_mat (q_matrix q) = qneg q.
Proof.
  intros H. apply (qprods_sign _ _ (q_matrix q)).
  - apply quat_of_mat_prods, q_matrix_rot, H.
  - apply q_matrix_prods, H.
Qed.
