(** Lemmas about vectors, matrices and rigid transforms. *)
From Coq Require Import Reals Lra Psatz.
From Verif.Base Require Import Geom.
Local Open Scope R_scope.

Lemma vec3_ext a b : vx a = vx b -> vy a = vy b -> vz a = vz b -> a = b.
Proof. destruct a, b; cbn; intros; subst; reflexivity. Qed.
Lemma vec2_ext a b : px a = px b -> py a = py b -> a = b.
Proof. destruct a, b; cbn; intros; subst; reflexivity. Qed.
Lemma iso_ext S T : lin S = lin T -> tr S = tr T -> S = T.
Proof. destruct S, T; cbn; intros; subst; reflexivity. Qed.
Lemma quat_ext a b : qw a = qw b -> qx a = qx b -> qy a = qy b -> qz a = qz b -> a = b.
Proof. destruct a, b; cbn; intros; subst; reflexivity. Qed.
Lemma mat3_ext A B :
  m00 A = m00 B -> m01 A = m01 B -> m02 A = m02 B ->
  m10 A = m10 B -> m11 A = m11 B -> m12 A = m12 B ->
  m20 A = m20 B -> m21 A = m21 B -> m22 A = m22 B -> A = B.
Proof. destruct A, B; cbn; intros; subst; reflexivity. Qed.

Ltac geo_unfold :=
  unfold iso_mul, iso_app, iso_inv, iso_trans, iso_rot, iso_id, mmul, mvec, mT, det, trace,
    vadd, vsub, vneg, vscale, dot, cross, I3, vzero, unitX, unitY, unitZ, col2 in *;
  cbn [lin tr m00 m01 m02 m10 m11 m12 m20 m21 m22 vx vy vz px py qw qx qy qz] in *.
Ltac geo_ext :=
  repeat first [ apply iso_ext | apply vec3_ext | apply mat3_ext | apply vec2_ext | apply quat_ext ].
Ltac geo_ring := geo_unfold; geo_ext; cbn [lin tr m00 m01 m02 m10 m11 m12 m20 m21 m22 vx vy vz px py qw qx qy qz]; ring.

Lemma mmul_assoc A B C : mmul (mmul A B) C = mmul A (mmul B C).
Proof. geo_ring. Qed.
Lemma mmul_I_l A : mmul I3 A = A.
Proof. geo_ring. Qed.
Lemma mmul_I_r A : mmul A I3 = A.
Proof. geo_ring. Qed.
Lemma mT_mmul A B : mT (mmul A B) = mmul (mT B) (mT A).
Proof. geo_ring. Qed.
Lemma mT_mT A : mT (mT A) = A.
Proof. geo_ring. Qed.
Lemma mT_I : mT I3 = I3.
Proof. reflexivity. Qed.
Lemma mvec_mmul A B v : mvec (mmul A B) v = mvec A (mvec B v).
Proof. geo_ring. Qed.
Lemma mvec_I v : mvec I3 v = v.
Proof. geo_ring. Qed.
Lemma mvec_vadd A u v : mvec A (vadd u v) = vadd (mvec A u) (mvec A v).
Proof. geo_ring. Qed.
Lemma det_mmul A B : det (mmul A B) = det A * det B.
Proof. geo_unfold; ring. Qed.
Lemma det_mT A : det (mT A) = det A.
Proof. geo_unfold; ring. Qed.
Lemma det_I : det I3 = 1.
Proof. geo_unfold; ring. Qed.

Definition adj A := M3
  (m11 A * m22 A - m12 A * m21 A) (m02 A * m21 A - m01 A * m22 A) (m01 A * m12 A - m02 A * m11 A)
  (m12 A * m20 A - m10 A * m22 A) (m00 A * m22 A - m02 A * m20 A) (m02 A * m10 A - m00 A * m12 A)
  (m10 A * m21 A - m11 A * m20 A) (m01 A * m20 A - m00 A * m21 A) (m00 A * m11 A - m01 A * m10 A).
Lemma mmul_adj A : det A = 1 -> mmul A (adj A) = I3.
Proof. intros H. unfold adj. geo_unfold. geo_ext; cbn; try ring; rewrite <- H; ring. Qed.

Lemma is_rot_adj A : is_rot A -> mT A = adj A.
Proof.
  intros [H D]. rewrite <- (mmul_I_r (mT A)), <- (mmul_adj A D), <- mmul_assoc, H, mmul_I_l.
  reflexivity.
Qed.
Lemma is_rot_right A : is_rot A -> mmul A (mT A) = I3.
Proof. intros H. rewrite (is_rot_adj A H). apply mmul_adj, H. Qed.
Lemma is_rot_I : is_rot I3.
Proof. split; [ geo_ring | apply det_I ]. Qed.
Lemma is_rot_mmul A B : is_rot A -> is_rot B -> is_rot (mmul A B).
Proof.
  intros [HA DA] [HB DB]; split.
  - rewrite mT_mmul, mmul_assoc, <- (mmul_assoc (mT A)), HA, mmul_I_l. exact HB.
  - rewrite det_mmul, DA, DB. ring.
Qed.
Lemma is_rot_mT A : is_rot A -> is_rot (mT A).
Proof. intros H; split; [ rewrite mT_mT; apply is_rot_right, H | rewrite det_mT; apply H ]. Qed.

(** Rigid transforms form a group acting on points. *)
Lemma iso_mul_assoc S T U : iso_mul (iso_mul S T) U = iso_mul S (iso_mul T U).
Proof. geo_ring. Qed.
Lemma iso_mul_id_l T : iso_mul iso_id T = T.
Proof. geo_ring. Qed.
Lemma iso_mul_id_r T : iso_mul T iso_id = T.
Proof. geo_ring. Qed.
Lemma iso_app_mul S T v : iso_app (iso_mul S T) v = iso_app S (iso_app T v).
Proof. geo_ring. Qed.
Lemma iso_app_id v : iso_app iso_id v = v.
Proof. geo_ring. Qed.
Lemma vadd_neg_r v : vadd v (vneg v) = vzero.
Proof. geo_ring. Qed.
Lemma vadd_neg_l v : vadd (vneg v) v = vzero.
Proof. geo_ring. Qed.
Lemma mvec_vneg A v : mvec A (vneg v) = vneg (mvec A v).
Proof. geo_ring. Qed.
Lemma iso_inv_l T : rigid T -> iso_mul (iso_inv T) T = iso_id.
Proof.
  intros H. unfold iso_mul, iso_inv, iso_id; cbn [lin tr]. apply iso_ext; cbn [lin tr].
  - apply H.
  - apply vadd_neg_r.
Qed.
Lemma iso_inv_r T : rigid T -> iso_mul T (iso_inv T) = iso_id.
Proof.
  intros H. unfold iso_mul, iso_inv, iso_id; cbn [lin tr]. apply iso_ext; cbn [lin tr].
  - apply is_rot_right, H.
  - rewrite mvec_vneg, <- mvec_mmul, is_rot_right, mvec_I by exact H. apply vadd_neg_l.
Qed.
Lemma iso_inv_inv T : rigid T -> iso_inv (iso_inv T) = T.
Proof.
  intros H. unfold iso_inv; cbn [lin tr]. apply iso_ext; cbn [lin tr].
  - apply mT_mT.
  - rewrite mT_mT, mvec_vneg, <- mvec_mmul, is_rot_right, mvec_I by exact H. geo_ring.
Qed.
Lemma rigid_id : rigid iso_id.
Proof. apply is_rot_I. Qed.
Lemma rigid_mul S T : rigid S -> rigid T -> rigid (iso_mul S T).
Proof. apply is_rot_mmul. Qed.
Lemma rigid_inv T : rigid T -> rigid (iso_inv T).
Proof. apply is_rot_mT. Qed.
Lemma rigid_trans v : rigid (iso_trans v).
Proof. apply is_rot_I. Qed.
Lemma iso_inv_mul S T : rigid S ->
  iso_inv (iso_mul S T) = iso_mul (iso_inv T) (iso_inv S).
Proof.
  intros [H _]. unfold iso_inv, iso_mul; cbn [lin tr]. apply iso_ext; cbn [lin tr].
  - apply mT_mmul.
  - rewrite mT_mmul, mvec_vadd, mvec_mmul, <- (mvec_mmul (mT (lin S)) (lin S)), H, mvec_I,
      !mvec_mmul. geo_ring.
Qed.
Lemma iso_app_inv_l T v : rigid T -> iso_app (iso_inv T) (iso_app T v) = v.
Proof. intros H. rewrite <- iso_app_mul, iso_inv_l, iso_app_id by exact H. reflexivity. Qed.
Lemma iso_app_inv_r T v : rigid T -> iso_app T (iso_app (iso_inv T) v) = v.
Proof. intros H. rewrite <- iso_app_mul, iso_inv_r, iso_app_id by exact H. reflexivity. Qed.

(** A transform is determined by its action on points. *)
Lemma iso_app_inj S T : (forall v, iso_app S v = iso_app T v) -> S = T.
Proof.
  intros H.
  pose proof (H vzero) as H0. pose proof (H unitX) as HX.
  pose proof (H unitY) as HY. pose proof (H unitZ) as HZ.
  destruct S as [[a b c d e f g h i] [x y z]], T as [[a' b' c' d' e' f' g' h' i'] [x' y' z']].
  geo_unfold.
  injection H0 as ? ? ?. injection HX as ? ? ?. injection HY as ? ? ?. injection HZ as ? ? ?.
  geo_ext; cbn; lra.
Qed.

Lemma dot_pos v : 0 <= dot v v.
Proof. unfold dot. nra. Qed.
Lemma dot_zero v : dot v v = 0 -> v = vzero.
Proof. unfold dot. intros H. geo_ext; cbn; nra. Qed.
Lemma norm_sq v : norm v * norm v = dot v v.
Proof. unfold norm. apply sqrt_sqrt, dot_pos. Qed.
Lemma norm_nonneg v : 0 <= norm v.
Proof. apply sqrt_pos. Qed.
Lemma norm_zero v : norm v = 0 -> v = vzero.
Proof. intros H. apply dot_zero. rewrite <- norm_sq, H. ring. Qed.

(** Rotations preserve dot products, hence lengths. *)
Lemma rot_dot A u v : is_rot A -> dot (mvec A u) (mvec A v) = dot u v.
Proof.
  intros [H _].
  assert (E : dot (mvec A u) (mvec A v) = dot u (mvec (mmul (mT A) A) v)) by (geo_unfold; ring).
  rewrite E, H, mvec_I. reflexivity.
Qed.
Lemma rot_norm A u : is_rot A -> norm (mvec A u) = norm u.
Proof. intros H. unfold norm. rewrite rot_dot by exact H. reflexivity. Qed.
Lemma rigid_dist T u v : rigid T -> norm (vsub (iso_app T u) (iso_app T v)) = norm (vsub u v).
Proof.
  intros H. rewrite <- (rot_norm (lin T) (vsub u v) H). f_equal. geo_ring.
Qed.

(** Angle-axis matrices. *)
Lemma sc1 a : cos a * cos a + sin a * sin a = 1.
Proof. pose proof (sin2_cos2 a) as H. unfold Rsqr in H. lra. Qed.

Lemma aa_matrix_rot a u : dot u u = 1 -> is_rot (aa_matrix a u).
Proof.
  intros Hu. pose proof (sc1 a) as Hsc. unfold dot in Hu.
  destruct u as [x y z]; cbn in Hu.
  unfold is_rot, aa_matrix. cbn [vx vy vz]. set (s := sin a) in *. set (c := cos a) in *.
  assert (Hs : s * s = 1 - c * c) by lra.
  assert (Hx : x * x = 1 - y * y - z * z) by lra.
  split.
  - geo_unfold. geo_ext; cbn; ring [Hs Hx].
  - geo_unfold. ring [Hs Hx].
Qed.

Lemma aa_matrix_0 u : aa_matrix 0 u = I3.
Proof. unfold aa_matrix. rewrite sin_0, cos_0. geo_ring. Qed.

Lemma norm_normalized v : v <> vzero -> dot (normalized v) (normalized v) = 1.
Proof.
  intros Hv. unfold normalized. destruct (Rlt_dec 0 (dot v v)) as [H|H].
  - assert (E : dot (vscale (/ norm v) v) (vscale (/ norm v) v) = (/ norm v * / norm v) * dot v v)
      by (geo_unfold; ring).
    rewrite E, <- norm_sq.
    assert (norm v <> 0). { intros E0. rewrite <- norm_sq, E0 in H. lra. }
    field. assumption.
  - exfalso. apply Hv, dot_zero. pose proof (dot_pos v). lra.
Qed.
Lemma norm_normalized_scale v : vscale (norm v) (normalized v) = v.
Proof.
  unfold normalized. destruct (Rlt_dec 0 (dot v v)) as [H|H].
  - assert (norm v <> 0). { intros E0. rewrite <- norm_sq, E0 in H. lra. }
    geo_unfold; geo_ext; cbn; field; assumption.
  - pose proof (dot_pos v). assert (E : v = vzero) by (apply dot_zero; lra).
    rewrite E. geo_ring.
Qed.
Lemma normalized_zero : normalized vzero = vzero.
Proof. unfold normalized. destruct (Rlt_dec 0 _) as [H|H]; [ geo_ring | reflexivity ]. Qed.
Lemma norm_vzero : norm vzero = 0.
Proof. unfold norm. replace (dot vzero vzero) with 0 by (geo_unfold; ring). apply sqrt_0. Qed.

Lemma aa_norm_rot v : is_rot (aa_matrix (norm v) (normalized v)).
Proof.
  destruct (Req_EM_T (dot v v) 0) as [H|H].
  - rewrite (dot_zero v H), norm_vzero, aa_matrix_0. apply is_rot_I.
  - apply aa_matrix_rot, norm_normalized. intros E. apply H. rewrite E. geo_unfold. ring.
Qed.

Lemma DBL_EPS_pos : 0 < DBL_EPS.
Proof. unfold DBL_EPS. apply Rinv_0_lt_compat, pow_lt. lra. Qed.
Lemma DBL_EPS_small : DBL_EPS < 1 / 1000000.
Proof.
  unfold DBL_EPS. unfold Rdiv. rewrite Rmult_1_l. apply Rinv_lt_contravar.
  - apply Rmult_lt_0_compat; [ lra | apply pow_lt; lra ].
  - replace 52%nat with (20 + 32)%nat by reflexivity. rewrite pow_add.
    assert (1 <= 2 ^ 32) by (apply pow_R1_Rle; lra).
    assert (1000000 < 2 ^ 20) by (cbn; lra). nra.
Qed.
