From Coq Require Import Reals ZArith Lra Lia List Permutation Sorted.
From Verif.Base Require Import Geom Outcome Matrix.
From Verif.Model Require Import LocalParam.
From Verif.Spec Require Import FreezeSpec.
From Verif.Proofs Require Import GeomLemmas RotLemmas AngleAxisLemmas ListLemmas.
Import ListNotations.
Local Open Scope R_scope.

(** ** EigenQuaternionPlus *)
Lemma qmul_norm a b : qnorm2 (qmul a b) = qnorm2 a * qnorm2 b.
Proof. unfold qnorm2, qmul. cbn. ring. Qed.
Lemma qmul_assoc a b c : qmul (qmul a b) c = qmul a (qmul b c).
Proof. apply quat_ext; unfold qmul; cbn; ring. Qed.
Lemma qmul_one_l a : qmul (Q 1 0 0 0) a = a.
Proof. apply quat_ext; unfold qmul; cbn; ring. Qed.
Lemma qmul_one_r a : qmul a (Q 1 0 0 0) = a.
Proof. apply quat_ext; unfold qmul; cbn; ring. Qed.
Lemma qmul_conj a : qnorm2 a = 1 -> qmul (qconj a) a = Q 1 0 0 0.
Proof. unfold qnorm2. intros H. apply quat_ext; unfold qmul, qconj; cbn; try ring. lra. Qed.
Lemma qmul_conj_r a : qnorm2 a = 1 -> qmul a (qconj a) = Q 1 0 0 0.
Proof. unfold qnorm2. intros H. apply quat_ext; unfold qmul, qconj; cbn; try ring. lra. Qed.

Definition q_exp (d : vec3) : quat :=
  Q (cos (norm d)) (sin (norm d) * vx (normalized d)) (sin (norm d) * vy (normalized d)) (sin (norm d) * vz (normalized d)).
Lemma plus_exp x d : quaternion_plus x d = qmul (q_exp d) x.
Proof.
  unfold quaternion_plus, q_exp. f_equal.
  change (sqrt (vx d * vx d + vy d * vy d + vz d * vz d)) with (norm d).
  destruct (Rlt_dec 0 (norm d)) as [H|H].
  - unfold normalized. destruct (Rlt_dec 0 (dot d d)) as [D|D].
    + cbn. f_equal; field; lra.
    + exfalso. rewrite <- norm_sq in D. nra.
  - assert (norm d = 0) by (pose proof (norm_nonneg d); lra).
    rewrite (norm_zero d H0), normalized_zero, norm_vzero, cos_0, sin_0. cbn. f_equal; ring.
Qed.
Lemma q_exp_unit d : qnorm2 (q_exp d) = 1.
Proof.
  unfold q_exp, qnorm2. cbn. destruct (Req_dec (dot d d) 0) as [E|E].
  - rewrite (dot_zero d E), norm_vzero, cos_0, sin_0. ring.
  - assert (N : dot (normalized d) (normalized d) = 1).
    { apply norm_normalized. intros ->. apply E. geo_unfold; cbn; ring. }
    pose proof (sc1 (norm d)) as S. unfold dot in N.
    transitivity (cos (norm d) * cos (norm d) + sin (norm d) * sin (norm d) *
      (vx (normalized d) * vx (normalized d) + vy (normalized d) * vy (normalized d) + vz (normalized d) * vz (normalized d)));
      [ ring | rewrite N; lra ].
Qed.
Lemma plus_norm x d : qnorm2 (quaternion_plus x d) = qnorm2 x.
Proof. rewrite plus_exp, qmul_norm, q_exp_unit. ring. Qed.
Lemma plus_zero x : quaternion_plus x vzero = x.
Proof.
  rewrite plus_exp. unfold q_exp. rewrite norm_vzero, cos_0, sin_0. rewrite <- (qmul_one_l x) at 2. f_equal.
  f_equal; ring.
Qed.

(** [q_exp] along a unit direction does not depend on the sign of the length. *)
Lemma norm_vscale a u : dot u u = 1 -> norm (vscale a u) = Rabs a.
Proof.
  intros U. unfold norm. replace (dot (vscale a u) (vscale a u)) with (a * a * dot u u) by (unfold dot, vscale; cbn; ring).
  rewrite U, Rmult_1_r. rewrite <- (sqrt_Rsqr_abs a). reflexivity.
Qed.
Lemma q_exp_scale a u : dot u u = 1 -> q_exp (vscale a u) = Q (cos a) (sin a * vx u) (sin a * vy u) (sin a * vz u).
Proof.
  intros U. unfold q_exp. rewrite (norm_vscale a u U).
  assert (D : dot (vscale a u) (vscale a u) = a * a).
  { replace (dot (vscale a u) (vscale a u)) with (a * a * dot u u) by (unfold dot, vscale; cbn; ring). rewrite U; ring. }
  destruct (Req_dec a 0) as [->|Ha].
  - rewrite Rabs_R0, cos_0, sin_0. f_equal; ring.
  - unfold normalized. rewrite D. destruct (Rlt_dec 0 (a * a)) as [_|C]; [ | exfalso; apply C; nra ].
    rewrite (norm_vscale a u U). cbn.
    destruct (Rcase_abs a) as [N|P].
    + rewrite Rabs_left by exact N. rewrite cos_neg, sin_neg. f_equal; field; exact Ha.
    + rewrite Rabs_right by exact P. f_equal; field; exact Ha.
Qed.
Lemma vscale_norm_dir d : d = vzero \/ exists a u, dot u u = 1 /\ d = vscale a u.
Proof.
  destruct (Req_dec (dot d d) 0) as [E|E].
  - left. apply dot_zero. exact E.
  - right. exists (norm d), (normalized d). split.
    + apply norm_normalized. intros ->. apply E. geo_unfold; cbn; ring.
    + symmetry. apply norm_normalized_scale.
Qed.
Lemma vscale_vscale a b u : vscale a (vscale b u) = vscale (a * b) u.
Proof. apply vec3_ext; cbn; ring. Qed.
Lemma plus_add_same_dir x d a b :
  quaternion_plus (quaternion_plus x (vscale a d)) (vscale b d) = quaternion_plus x (vscale (a + b) d).
Proof.
  rewrite !plus_exp, <- qmul_assoc. f_equal.
  destruct (vscale_norm_dir d) as [->|(n & u & U & ->)].
  - assert (Z : forall k, vscale k vzero = vzero) by (intros; apply vec3_ext; cbn; ring).
    rewrite !Z. unfold q_exp. rewrite norm_vzero, cos_0, sin_0, normalized_zero. apply quat_ext; unfold qmul; cbn; ring.
  - rewrite !vscale_vscale, !q_exp_scale by exact U.
    replace ((a + b) * n) with (b * n + a * n) by ring. rewrite cos_plus, sin_plus.
    assert (UU : vx u * vx u + vy u * vy u + vz u * vz u = 1) by exact U.
    apply quat_ext; unfold qmul; cbn; try ring.
    transitivity (cos (b * n) * cos (a * n) - sin (b * n) * sin (a * n) * (vx u * vx u + vy u * vy u + vz u * vz u));
      [ ring | rewrite UU; ring ].
Qed.

(** Every unit quaternion is some [q_exp]. *)
Lemma q_exp_surj q : qnorm2 q = 1 -> exists d, norm d <= PI /\ q_exp d = q.
Proof.
  intros H. pose proof (qnorm2_split q) as S. rewrite H in S.
  destruct (Req_dec (dot (qvec q) (qvec q)) 0) as [E|E].
  - apply dot_zero in E. destruct q as [w x y z]. unfold qvec, vzero in E. cbn in E. injection E as -> -> ->.
    unfold qnorm2 in H. cbn in H. assert (W : w = 1 \/ w = -1) by nra. destruct W as [->| ->].
    + exists vzero. split; [ rewrite norm_vzero; pose proof PI_RGT_0; lra | ].
      unfold q_exp. rewrite norm_vzero, cos_0, sin_0. f_equal; ring.
    + exists (vscale PI unitX). assert (U : dot unitX unitX = 1) by (geo_unfold; cbn; ring). split.
      * rewrite norm_vscale by exact U. rewrite Rabs_right; [ lra | pose proof PI_RGT_0; lra ].
      * rewrite q_exp_scale by exact U. rewrite cos_PI, sin_PI. f_equal; ring.
  - set (n := norm (qvec q)). assert (Hn : 0 < n).
    { pose proof (norm_nonneg (qvec q)). pose proof (norm_sq (qvec q)). fold n in H0, H1 |- *.
      destruct (Req_dec n 0) as [Z|Z]; [ exfalso; apply E; rewrite <- H1, Z; ring | lra ]. }
    assert (N2 : n * n = dot (qvec q) (qvec q)) by apply norm_sq.
    destruct (atan2_spec n (qw q)) as (A1 & A2); [ right; lra | ].
    pose proof (atan2_range n (qw q)) as A3.
    assert (R1 : sqrt (qw q * qw q + n * n) = 1) by (rewrite <- sqrt_1; f_equal; lra).
    rewrite R1 in A1, A2. unfold Rdiv in A1, A2. rewrite Rinv_1, Rmult_1_r in A1, A2.
    set (a := atan2 n (qw q)) in *.
    assert (U : dot (vscale (/ n) (qvec q)) (vscale (/ n) (qvec q)) = 1).
    { replace (dot (vscale (/ n) (qvec q)) (vscale (/ n) (qvec q))) with (/ n * / n * dot (qvec q) (qvec q))
        by (unfold dot, vscale; cbn; ring). rewrite <- N2. field. lra. }
    exists (vscale a (vscale (/ n) (qvec q))). split.
    + rewrite norm_vscale by exact U. apply Rabs_le. lra.
    + rewrite q_exp_scale by exact U. destruct q as [w x y z]. cbn in *. f_equal; [ lra | | | ]; rewrite A2; field; lra.
Qed.
Lemma plus_reaches x y : qnorm2 x = 1 -> qnorm2 y = 1 ->
  exists d, norm d <= PI /\ quaternion_plus x d = y.
Proof.
  intros Hx Hy. destruct (q_exp_surj (qmul y (qconj x))) as (d & Hd & E).
  - rewrite qmul_norm, Hy. unfold qnorm2, qconj in *. cbn. lra.
  - exists d. split; [ exact Hd | ]. rewrite plus_exp, E, qmul_assoc, qmul_conj by exact Hx. apply qmul_one_r.
Qed.
Lemma q_matrix_mul a b : qnorm2 a = 1 -> qnorm2 b = 1 -> q_matrix (qmul a b) = mmul (q_matrix a) (q_matrix b).
Proof.
  destruct a as [aw ax ay az], b as [bw bx by_ bz]. unfold qnorm2. cbn. intros Ha Hb.
  assert (Ea : aw * aw = 1 - ax * ax - ay * ay - az * az) by lra.
  assert (Eb : bw * bw = 1 - bx * bx - by_ * by_ - bz * bz) by lra.
  apply mat3_ext; unfold q_matrix, qmul, mmul; cbn; ring [Ea Eb].
Qed.
Lemma plus_rotates x d : qnorm2 x = 1 ->
  q_matrix (quaternion_plus x d) = mmul (aa_matrix (2 * norm d) (normalized d)) (q_matrix x).
Proof.
  intros Hx. rewrite plus_exp, q_matrix_mul by (first [ exact Hx | apply q_exp_unit ]). f_equal.
  destruct (Req_dec (dot d d) 0) as [E|E].
  - rewrite (dot_zero d E). unfold q_exp. rewrite norm_vzero, cos_0, sin_0, normalized_zero.
    replace (2 * 0) with 0 by ring. rewrite aa_matrix_0. apply mat3_ext; cbn; ring.
  - assert (U : dot (normalized d) (normalized d) = 1).
    { apply norm_normalized. intros ->. apply E. geo_unfold; cbn; ring. }
    rewrite <- quat_aa_matrix by exact U. f_equal. unfold q_exp, quat_aa.
    replace (2 * norm d / 2) with (norm d) by field. reflexivity.
Qed.

(** ** sort and unique *)
Lemma insert_z_perm z l : Permutation (insert_z z l) (z :: l).
Proof.
  induction l as [|a r IH]; cbn; [ apply Permutation_refl | ].
  destruct (z <=? a)%Z; [ apply Permutation_refl | ].
  eapply Permutation_trans; [ apply perm_skip, IH | apply perm_swap ].
Qed.
Lemma sort_z_perm l : Permutation (sort_z l) l.
Proof.
  induction l as [|a r IH]; cbn; [ apply Permutation_refl | ].
  eapply Permutation_trans; [ apply insert_z_perm | apply perm_skip, IH ].
Qed.
Lemma insert_z_sorted z l : StronglySorted Z.le l -> StronglySorted Z.le (insert_z z l).
Proof.
  induction 1 as [|a r H IH F]; cbn; [ repeat constructor | ].
  destruct (Z.leb_spec z a).
  - constructor; [ constructor; assumption | constructor; [ assumption | ] ].
    eapply Forall_impl; [ | exact F ]. cbn. lia.
  - constructor; [ exact IH | ]. apply Forall_forall. intros x Hx.
    apply (Permutation_in _ (insert_z_perm z r)) in Hx. destruct Hx as [<-|Hx]; [ lia | ].
    rewrite Forall_forall in F. apply F, Hx.
Qed.
Lemma sort_z_sorted l : StronglySorted Z.le (sort_z l).
Proof. induction l; cbn; [ constructor | apply insert_z_sorted; assumption ]. Qed.
Lemma unique_z_in l x : In x (unique_z l) <-> In x l.
Proof.
  induction l as [|a [|b r] IH]; [ tauto | tauto | ].
  change (unique_z (a :: b :: r)) with (if (a =? b)%Z then unique_z (b :: r) else a :: unique_z (b :: r)).
  destruct (Z.eqb_spec a b) as [->|N].
  - rewrite IH. cbn. tauto.
  - cbn [In]. rewrite IH. cbn. tauto.
Qed.
Lemma unique_z_strict l : StronglySorted Z.le l -> StronglySorted Z.lt (unique_z l).
Proof.
  induction l as [|a [|b r] IH]; intros H; [ constructor | repeat constructor | ].
  change (unique_z (a :: b :: r)) with (if (a =? b)%Z then unique_z (b :: r) else a :: unique_z (b :: r)).
  inversion H as [|? ? H1 H2]; subst. specialize (IH H1).
  destruct (Z.eqb_spec a b) as [->|N]; [ exact IH | ].
  constructor; [ exact IH | ]. apply Forall_forall. intros x Hx. rewrite unique_z_in in Hx.
  inversion H2 as [|? ? L _]; subst. inversion H1 as [|? ? _ F]; subst. rewrite Forall_forall in F.
  destruct Hx as [<-|Hx]; [ lia | specialize (F x Hx); lia ].
Qed.
Definition dedup (l : list Z) : list Z := unique_z (sort_z l).
Lemma dedup_in l x : In x (dedup l) <-> In x l.
Proof.
  unfold dedup. rewrite unique_z_in. split; apply Permutation_in; [ | apply Permutation_sym ]; apply sort_z_perm.
Qed.
Lemma dedup_nodup l : NoDup (dedup l).
Proof.
  assert (S : StronglySorted Z.lt (dedup l)) by apply unique_z_strict, sort_z_sorted.
  induction S as [|a r S IH F]; constructor; [ | exact IH ].
  intros C. rewrite Forall_forall in F. specialize (F a C). lia.
Qed.
Lemma fold_max_spec r a : In (fold_left Z.max r a) (a :: r) /\ (forall x, In x (a :: r) -> (x <= fold_left Z.max r a)%Z).
Proof.
  revert a. induction r as [|b r IH]; intros a; cbn [fold_left].
  - split; [ left; reflexivity | ]. intros x [<-|[]]. lia.
  - destruct (IH (Z.max a b)) as (I1 & I2). split.
    + destruct I1 as [I1|I1]; [ | right; right; exact I1 ].
      destruct (Z.max_spec a b) as [[_ M]|[_ M]]; rewrite M in *; [ right; left; congruence | left; congruence ].
    + intros x [<-|[<-|Hx]].
      * pose proof (I2 (Z.max a b) (or_introl eq_refl)). lia.
      * pose proof (I2 (Z.max a b) (or_introl eq_refl)). lia.
      * apply I2. right. exact Hx.
Qed.
Lemma max_z_spec l : l <> [] -> In (max_z l) l /\ forall x, In x l -> (x <= max_z l)%Z.
Proof. destruct l as [|a r]; [ congruence | intros _; apply fold_max_spec ]. Qed.
Lemma nonempty_dedup l : l <> [] -> dedup l <> [].
Proof. destruct l as [|a r]; [ congruence | ]. intros _ E. assert (I : In a (dedup (a :: r))) by (apply dedup_in; left; reflexivity). rewrite E in I. exact I. Qed.

(** All elements listed iff the de-duplicated mask is as long as the block. *)
Lemma dedup_full l n : (forall z, In z l -> (0 <= z < Z.of_nat n)%Z) ->
  ((n <= length (dedup l))%nat <-> forall i, (i < n)%nat -> In (Z.of_nat i) l).
Proof.
  intros B. set (all := map Z.of_nat (seq 0 n)).
  assert (Hall : forall z, In z all <-> (0 <= z < Z.of_nat n)%Z).
  { intros z. unfold all. rewrite in_map_iff. split.
    - intros (i & <- & Hi). apply in_seq in Hi. lia.
    - intros Hz. exists (Z.to_nat z). split; [ lia | apply in_seq; lia ]. }
  assert (Lall : length all = n) by (unfold all; rewrite map_length, seq_length; reflexivity).
  assert (Inc : incl (dedup l) all) by (intros z Hz; apply Hall, B, dedup_in, Hz).
  split.
  - intros L i Hi.
    assert (I2 : incl all (dedup l)).
    { apply NoDup_length_incl; [ apply dedup_nodup | rewrite Lall; exact L | exact Inc ]. }
    apply dedup_in, I2, Hall. lia.
  - intros H. rewrite <- Lall. apply NoDup_incl_length.
    + unfold all. apply FinFun.Injective_map_NoDup; [ intros a b E; lia | apply seq_NoDup ].
    + intros z Hz. apply dedup_in. apply Hall in Hz. rewrite <- (Z2Nat.id z) by lia. apply H. lia.
Qed.

(** ** addSubsetParameterization *)
Definition mask_in_range (masks : amap (list Z)) (b n : nat) : Prop :=
  forall m z, find_key b masks = Some m -> In z m -> (0 <= z < Z.of_nat n)%Z.
Definition no_subsets (p : problem) : Prop := forall b, In b (keys (p_blocks p)) -> bs_subset (p_state p b) = None.

Lemma set_state_same p b s : p_state (set_state p b s) b = s.
Proof. cbn. rewrite Nat.eqb_refl. reflexivity. Qed.
Lemma set_state_other p b s c : c <> b -> p_state (set_state p b s) c = p_state p c.
Proof. intros N. cbn. destruct (Nat.eqb_spec c b); [ contradiction | reflexivity ]. Qed.

Lemma subset_step_ok masks p b n : In b (keys (p_blocks p)) -> bs_subset (p_state p b) = None ->
  mask_in_range masks b n ->
  exists p', subset_step masks p (b, n) = Ok p' /\ p_blocks p' = p_blocks p /\
    (forall c, c <> b -> p_state p' c = p_state p c) /\
    (forall i, (i < n)%nat -> (frozen p' b i <-> frozen p b i \/ listed masks b i)).
Proof.
  intros Hb Hs Hr. unfold subset_step, listed, mask_in_range in *.
  destruct (find_key b masks) as [m|] eqn:F.
  2: { exists p. repeat split; auto. intros [H0|(m & H0 & _)]; [ exact H0 | discriminate ]. }
  specialize (Hr m).
  destruct (Nat.ltb_spec 0 (length m)) as [L|L].
  2: { exists p. repeat split; auto. intros [H0|(m' & H0 & H1)]; [ exact H0 | ].
       injection H0 as <-. destruct m; [ destruct H1 | cbn in L; lia ]. }
  fold (dedup m).
  assert (Nm : m <> []) by (intros ->; cbn in L; lia).
  destruct (max_z_spec (dedup m) (nonempty_dedup m Nm)) as (M1 & M2).
  assert (Rng : forall z, In z m -> (0 <= z < Z.of_nat n)%Z) by (intros z Hz; apply Hr; [ reflexivity | exact Hz ]).
  assert (M3 := Rng _ (proj1 (dedup_in m _) M1)).
  unfold size_t_of_int. destruct (Z.ltb_spec (max_z (dedup m)) 0); [ lia | ].
  destruct (Z.leb_spec (Z.of_nat n) (max_z (dedup m))); [ lia | ].
  assert (Lst : forall i, (exists m', Some m = Some m' /\ In (Z.of_nat i) m') <-> In (Z.of_nat i) m).
  { intros i. split; [ intros (m' & E & I); injection E as <-; exact I | intros I; exists m; auto ]. }
  destruct (Nat.leb_spec n (length (dedup m))) as [Full|NotFull].
  - unfold SetParameterBlockConstant.
    destruct (proj1 (find_key_Some_iff b (p_blocks p)) Hb) as (sz & ->).
    eexists. split; [ reflexivity | ]. split; [ reflexivity | ]. split.
    + intros c Hc. apply set_state_other. exact Hc.
    + intros i Hi. rewrite Lst. unfold frozen. rewrite set_state_same. cbn [bs_constant bs_subset]. rewrite Hs.
      split; [ intros _ | left; reflexivity ].
      right. apply (proj1 (dedup_full m n Rng)); assumption.
  - unfold SetSubsetParameterization.
    assert (FB : forallb (fun z => andb (0 <=? z)%Z (z <? Z.of_nat n)%Z) (dedup m) = true).
    { apply forallb_forall. intros z Hz. apply (proj1 (dedup_in m z)) in Hz. specialize (Rng z Hz).
      apply andb_true_intro. split; [ apply Z.leb_le | apply Z.ltb_lt ]; lia. }
    rewrite FB, Hs. eexists. split; [ reflexivity | ]. split; [ reflexivity | ]. split.
    + intros c Hc. apply set_state_other. exact Hc.
    + intros i Hi. rewrite Lst. unfold frozen. rewrite set_state_same. cbn [bs_constant bs_subset]. rewrite Hs.
      split.
      * intros [H1|(m' & E & I)]; [ left; left; exact H1 | ]. injection E as <-. right. apply dedup_in. exact I.
      * intros [[H1|(m' & E & _)]|I]; [ left; exact H1 | discriminate | ].
        right. exists (dedup m). split; [ reflexivity | apply dedup_in; exact I ].
Qed.

Lemma subset_loop masks l : forall p, NoDup (keys l) -> incl l (p_blocks p) ->
  (forall b, In b (keys l) -> bs_subset (p_state p b) = None) ->
  (forall b n, In (b, n) l -> mask_in_range masks b n) ->
  exists p', foldM (subset_step masks) l p = Ok p' /\ p_blocks p' = p_blocks p /\
    (forall c, ~ In c (keys l) -> p_state p' c = p_state p c) /\
    (forall b n i, In (b, n) l -> (i < n)%nat -> (frozen p' b i <-> frozen p b i \/ listed masks b i)).
Proof.
  induction l as [|[b n] l IH]; intros p ND Inc NS MR; cbn [foldM].
  - exists p. repeat split; auto; contradiction.
  - cbn [keys map] in ND. inversion ND as [|? ? Nb ND']; subst.
    assert (Hb : In b (keys (p_blocks p))) by (apply (in_map fst _ (b, n)), Inc; left; reflexivity).
    destruct (subset_step_ok masks p b n Hb) as (p1 & E1 & B1 & O1 & F1).
    { apply NS. left. reflexivity. } { apply MR. left. reflexivity. }
    rewrite E1. cbn [bind].
    destruct (IH p1) as (p2 & E2 & B2 & O2 & F2); [ exact ND' | | | | ].
    + rewrite B1. intros x Hx. apply Inc. right. exact Hx.
    + intros c Hc. rewrite O1; [ apply NS; right; exact Hc | ]. intros ->. contradiction.
    + intros c k Hc. apply MR. right. exact Hc.
    + exists p2. split; [ exact E2 | ]. split; [ congruence | ]. split.
      * intros c Hc. cbn in Hc. rewrite O2, O1; [ reflexivity | | ]; intros H; apply Hc; auto.
      * intros c k i [E|Hin] Hi.
        -- injection E as <- <-. unfold frozen at 1. rewrite (O2 b Nb). apply F1. exact Hi.
        -- rewrite (F2 c k i Hin Hi). assert (c <> b).
           { intros ->. apply Nb. apply (in_map fst _ (b, k)). exact Hin. }
           unfold frozen. rewrite (O1 c) by assumption. reflexivity.
Qed.

Lemma subset_exact p masks : NoDup (keys (p_blocks p)) -> no_subsets p ->
  (forall b n, In (b, n) (p_blocks p) -> mask_in_range masks b n) ->
  exists p', addSubsetParameterization p masks = Ok p' /\ p_blocks p' = p_blocks p /\
    (forall b n i, In (b, n) (p_blocks p) -> (i < n)%nat -> (frozen p' b i <-> frozen p b i \/ listed masks b i)).
Proof.
  intros ND NS MR. unfold addSubsetParameterization.
  destruct masks as [|m0 ms0].
  - exists p. repeat split; auto. intros [HF|(m & HF & _)]; [ exact HF | discriminate ].
  - destruct (subset_loop (m0 :: ms0) (p_blocks p) p ND (incl_refl _) NS MR) as (p' & E & B & _ & F).
    exists p'. auto.
Qed.

(** With non-negative entries, an out-of-range entry makes the call throw. *)
Definition nonneg_masks (p : problem) (masks : amap (list Z)) : Prop :=
  forall b n m z, In (b, n) (p_blocks p) -> find_key b masks = Some m -> In z m -> (0 <= z)%Z.
Lemma subset_step_throw masks p b n : 
  (exists m z, find_key b masks = Some m /\ In z m /\ (Z.of_nat n <= z)%Z) ->
  subset_step masks p (b, n) = Throw OptimizationException.
Proof.
  intros (m & z & F & Hz & Hn). unfold subset_step. rewrite F.
  destruct (Nat.ltb_spec 0 (length m)) as [L|L]; [ | destruct m; [ destruct Hz | cbn in L; lia ] ].
  fold (dedup m). assert (Nm : m <> []) by (intros ->; cbn in L; lia).
  destruct (max_z_spec (dedup m) (nonempty_dedup m Nm)) as (M1 & M2).
  specialize (M2 z (proj2 (dedup_in m z) Hz)). unfold size_t_of_int.
  destruct (Z.ltb_spec (max_z (dedup m)) 0); [ lia | ].
  destruct (Z.leb_spec (Z.of_nat n) (max_z (dedup m))); [ reflexivity | lia ].
Qed.
Lemma in_range_dec masks b n : (forall m z, find_key b masks = Some m -> In z m -> (0 <= z)%Z) ->
  mask_in_range masks b n \/ exists m z, find_key b masks = Some m /\ In z m /\ (Z.of_nat n <= z)%Z.
Proof.
  intros NN. unfold mask_in_range. destruct (find_key b masks) as [m|] eqn:F.
  2: { left. intros m z H. discriminate. }
  destruct (existsb (fun z => (Z.of_nat n <=? z)%Z) m) eqn:E.
  - right. apply existsb_exists in E. destruct E as (z & Hz & L). exists m, z.
    split; [ reflexivity | split; [ exact Hz | apply Z.leb_le; exact L ] ].
  - left. intros m' z E' Hz. injection E' as <-. split; [ apply (NN m z); [ reflexivity | exact Hz ] | ].
    apply Z.nle_gt. intros L. assert (C : existsb (fun z => (Z.of_nat n <=? z)%Z) m = true).
    { apply existsb_exists. exists z. split; [ exact Hz | apply Z.leb_le; exact L ]. }
    congruence.
Qed.
Lemma subset_loop_throw masks l : forall p, NoDup (keys l) -> incl l (p_blocks p) ->
  (forall b, In b (keys l) -> bs_subset (p_state p b) = None) ->
  (forall b n m z, In (b, n) l -> find_key b masks = Some m -> In z m -> (0 <= z)%Z) ->
  (exists b n m z, In (b, n) l /\ find_key b masks = Some m /\ In z m /\ (Z.of_nat n <= z)%Z) ->
  foldM (subset_step masks) l p = Throw OptimizationException.
Proof.
  induction l as [|[b n] l IH]; intros p ND Inc NS NN (b0 & n0 & m0 & z0 & H0 & F0 & Z0 & L0); [ contradiction | ].
  cbn [foldM]. cbn [keys map] in ND. inversion ND as [|? ? Nb ND']; subst.
  destruct (in_range_dec masks b n) as [R|R].
  { intros m z F Hz. apply (NN b n m z); [ left; reflexivity | exact F | exact Hz ]. }
  - assert (Hb : In b (keys (p_blocks p))) by (apply (in_map fst _ (b, n)), Inc; left; reflexivity).
    destruct (subset_step_ok masks p b n Hb) as (p1 & E1 & B1 & O1 & _); [ apply NS; left; reflexivity | exact R | ].
    rewrite E1. cbn [bind]. apply IH; [ exact ND' | | | | ].
    + rewrite B1. intros x Hx. apply Inc. right. exact Hx.
    + intros c Hc. rewrite O1; [ apply NS; right; exact Hc | ]. intros ->. contradiction.
    + intros c k m z Hc. apply (NN c k m z). right. exact Hc.
    + destruct H0 as [E|H0].
      * injection E as <- <-. specialize (R m0 z0 F0 Z0). lia.
      * exists b0, n0, m0, z0. auto.
  - rewrite (subset_step_throw masks p b n R). reflexivity.
Qed.
Lemma subset_throws_iff p masks : NoDup (keys (p_blocks p)) -> no_subsets p -> nonneg_masks p masks ->
  (addSubsetParameterization p masks = Throw OptimizationException <->
   exists b n m z, In (b, n) (p_blocks p) /\ find_key b masks = Some m /\ In z m /\ (Z.of_nat n <= z)%Z).
Proof.
  intros ND NS NN. split.
  - intros E.
    destruct (List.existsb (fun bn => match find_key (fst bn) masks with
                | Some m => existsb (fun z => (Z.of_nat (snd bn) <=? z)%Z) m | None => false end) (p_blocks p)) eqn:X.
    + apply existsb_exists in X. destruct X as ([b n] & Hin & X). cbn in X.
      destruct (find_key b masks) as [m|] eqn:F; [ | discriminate ].
      apply existsb_exists in X. destruct X as (z & Hz & L). exists b, n, m, z.
      repeat split; [ exact Hin | exact F | exact Hz | apply Z.leb_le; exact L ].
    + destruct (subset_exact p masks ND NS) as (p' & E' & _).
      * intros b n Hin m z F Hz. split; [ apply (NN b n m z); assumption | ].
        apply Z.nle_gt. intros L. assert (C : List.existsb (fun bn => match find_key (fst bn) masks with
                | Some m => existsb (fun z => (Z.of_nat (snd bn) <=? z)%Z) m | None => false end) (p_blocks p) = true).
        { apply existsb_exists. exists (b, n). split; [ exact Hin | ]. cbn. rewrite F.
          apply existsb_exists. exists z. split; [ exact Hz | apply Z.leb_le; exact L ]. }
        congruence.
      * congruence.
  - intros (b & n & m & z & H). unfold addSubsetParameterization. destruct masks as [|m0 ms0].
    + destruct H as (_ & F & _). discriminate.
    + apply subset_loop_throw; [ exact ND | apply incl_refl | exact NS | exact NN | ].
      exists b, n, m, z. exact H.
Qed.

(** A negative index: the call may silently freeze elements that are not listed. *)
Lemma negative_index_accepted :
  exists p masks p', NoDup (keys (p_blocks p)) /\ no_subsets p /\
    (exists b n m z, In (b, n) (p_blocks p) /\ find_key b masks = Some m /\ In z m /\ ~ (0 <= z < Z.of_nat n)%Z) /\
    addSubsetParameterization p masks = Ok p' /\
    exists b n i, In (b, n) (p_blocks p) /\ (i < n)%nat /\ ~ listed masks b i /\ ~ frozen p b i /\ frozen p' b i.
Proof.
  set (p := Problem [(0%nat, 2%nat)] (fun _ => fresh_block)).
  set (masks := [(0%nat, [(-1)%Z; 0%Z])]).
  exists p, masks, (set_state p 0 (BS true None)).
  split; [ repeat constructor; intros [] | ].
  split; [ intros b _; reflexivity | ].
  split.
  - exists 0%nat, 2%nat, [(-1)%Z; 0%Z], (-1)%Z. repeat split; try reflexivity; try (left; reflexivity). lia.
  - split; [ vm_compute; reflexivity | ].
    exists 0%nat, 2%nat, 1%nat. repeat split; try (left; reflexivity); try lia.
    + intros (m & E & I). injection E as <-. cbn in I. destruct I as [I|[I|[]]]; lia.
    + intros [H|(m & E & _)]; discriminate.
Qed.
Lemma negative_index_aborts :
  exists p masks, NoDup (keys (p_blocks p)) /\ no_subsets p /\
    addSubsetParameterization p masks = UB.
Proof.
  exists (Problem [(0%nat, 3%nat)] (fun _ => fresh_block)), [(0%nat, [(-1)%Z; 0%Z])].
  split; [ repeat constructor; intros [] | ]. split; [ intros b _; reflexivity | vm_compute; reflexivity ].
Qed.
Lemma ex_masks :
  let p := Problem [(3%nat, 4%nat); (5%nat, 2%nat)] (fun _ => fresh_block) in
  let masks := [(3%nat, [2; 0; 2]%Z); (5%nat, [1; 0]%Z)] in
  (forall b n, In (b, n) (p_blocks p) ->
     forall m z, find_key b masks = Some m -> In z m -> (0 <= z < Z.of_nat n)%Z) /\
  exists p', addSubsetParameterization p masks = Ok p' /\
    p_state p' 3%nat = BS false (Some [0; 2]%Z) /\ p_state p' 5%nat = BS true None.
Proof.
  cbv zeta. split.
  - intros b n [E|[E|[]]]; injection E as <- <-; intros m z F Hz; cbn in F; injection F as <-; cbn in Hz;
      intuition; subst; cbn; lia.
  - eexists. split; [ vm_compute; reflexivity | split; reflexivity ].
Qed.
Lemma ex_unit : qnorm2 (Q (1/2) (1/2) (-1/2) (1/2)) = 1.
Proof. unfold qnorm2; cbn; field. Qed.

(** A block that is not constant as a whole has a free element. *)
Lemma subset_step_free masks p b n p' : bs_subset (p_state p b) = None -> mask_in_range masks b n -> (0 < n)%nat ->
  subset_step masks p (b, n) = Ok p' -> bs_constant (p_state p' b) = false ->
  exists i, (i < n)%nat /\ ~ frozen p' b i.
Proof.
  intros Hs Hr Hn. unfold subset_step, mask_in_range in *.
  assert (Z0 : bs_constant (p_state p b) = false -> exists i, (i < n)%nat /\ ~ frozen p b i).
  { intros C. exists 0%nat. split; [ lia | ]. intros [X|(m & X & _)]; congruence. }
  destruct (find_key b masks) as [m|] eqn:F; [ | intros [= <-]; exact Z0 ].
  specialize (Hr m). destruct (Nat.ltb_spec 0 (length m)) as [L|L]; [ | intros [= <-]; exact Z0 ].
  fold (dedup m). destruct (_ <=? _)%Z; [ discriminate | ].
  assert (Rng : forall z, In z m -> (0 <= z < Z.of_nat n)%Z) by (intros z Hz; apply Hr; [ reflexivity | exact Hz ]).
  destruct (Nat.leb_spec n (length (dedup m))) as [Full|NotFull].
  - unfold SetParameterBlockConstant. destruct (find_key b (p_blocks p)); [ | discriminate ].
    intros [= <-]. rewrite set_state_same. discriminate.
  - unfold SetSubsetParameterization. destruct (forallb _ _); [ | discriminate ]. rewrite Hs. intros [= <-] C.
    rewrite set_state_same in C. cbn [bs_constant] in C.
    destruct (forallb (fun i => existsb (Z.eqb (Z.of_nat i)) m) (seq 0 n)) eqn:E.
    + exfalso. apply (Nat.lt_irrefl n). apply (Nat.le_lt_trans _ (length (dedup m))); [ | exact NotFull ].
      apply (proj2 (dedup_full m n Rng)). intros i Hi.
      assert (Q := proj1 (forallb_forall _ _) E i (proj2 (in_seq n 0 i) (conj (Nat.le_0_l i) Hi))).
      apply existsb_exists in Q as (z & Hz & Q). apply Z.eqb_eq in Q. subst. exact Hz.
    + assert (Ex : exists i, In i (seq 0 n) /\ existsb (Z.eqb (Z.of_nat i)) m = false).
      { clear - E. induction (seq 0 n) as [|a r IH]; [ discriminate | ]. cbn in E.
        destruct (existsb (Z.eqb (Z.of_nat a)) m) eqn:Q; [ | exists a; split; [ left; reflexivity | exact Q ] ].
        destruct (IH E) as (i & Hi & Qi). exists i. split; [ right; exact Hi | exact Qi ]. }
      destruct Ex as (i & Hi & Q). exists i. apply in_seq in Hi. split; [ lia | ].
      unfold frozen. rewrite set_state_same. cbn [bs_constant bs_subset]. intros [X|(m' & [= <-] & X)]; [ congruence | ].
      apply (proj1 (dedup_in m _)) in X. 
      assert (Q' : existsb (Z.eqb (Z.of_nat i)) m = true) by (apply existsb_exists; exists (Z.of_nat i); split; [ exact X | apply Z.eqb_refl ]).
      congruence.
Qed.
Lemma subset_loop_free masks l : forall p p', NoDup (keys l) -> incl l (p_blocks p) ->
  (forall b, In b (keys l) -> bs_subset (p_state p b) = None) ->
  (forall b n, In (b, n) l -> mask_in_range masks b n) ->
  foldM (subset_step masks) l p = Ok p' ->
  forall b n, In (b, n) l -> (0 < n)%nat -> bs_constant (p_state p' b) = false ->
  exists i, (i < n)%nat /\ ~ frozen p' b i.
Proof.
  induction l as [|[b n] l IH]; intros p p' ND Inc NS MR E c k Hc Hk C; [ destruct Hc | ].
  cbn [keys map] in ND. inversion ND as [|? ? Nb ND']; subst. cbn [foldM] in E.
  assert (Hb : In b (keys (p_blocks p))) by (apply (in_map fst _ (b, n)), Inc; left; reflexivity).
  destruct (subset_step_ok masks p b n Hb) as (p1 & E1 & B1 & O1 & F1).
  { apply NS. left. reflexivity. } { apply MR. left. reflexivity. }
  rewrite E1 in E. cbn [bind] in E.
  assert (Inc1 : incl l (p_blocks p1)) by (rewrite B1; intros x Hx; apply Inc; right; exact Hx).
  assert (NS1 : forall d, In d (keys l) -> bs_subset (p_state p1 d) = None).
  { intros d Hd. rewrite O1; [ apply NS; right; exact Hd | ]. intros ->. contradiction. }
  assert (MR1 : forall d j, In (d, j) l -> mask_in_range masks d j) by (intros d j Hd; apply MR; right; exact Hd).
  destruct Hc as [[= <- <-]|Hc].
  - destruct (subset_loop masks l p1 ND' Inc1 NS1 MR1) as (p2 & E2 & _ & O2 & _).
    rewrite E in E2. injection E2 as <-. specialize (O2 b Nb).
    assert (C1 : bs_constant (p_state p1 b) = false) by congruence.
    destruct (subset_step_free masks p b n p1 (NS b (or_introl eq_refl)) (MR b n (or_introl eq_refl)) Hk E1 C1) as (i & Hi & Fi).
    exists i. split; [ exact Hi | ]. unfold frozen in *. rewrite O2. exact Fi.
  - exact (IH p1 p' ND' Inc1 NS1 MR1 E c k Hc Hk C).
Qed.
Lemma subset_free p masks p' b n : NoDup (keys (p_blocks p)) -> no_subsets p ->
  (forall b n, In (b, n) (p_blocks p) -> mask_in_range masks b n) ->
  addSubsetParameterization p masks = Ok p' -> In (b, n) (p_blocks p) -> (0 < n)%nat ->
  bs_constant (p_state p' b) = false -> exists i, (i < n)%nat /\ ~ frozen p' b i.
Proof.
  intros ND NS MR E Hb Hn C. unfold addSubsetParameterization in E. destruct masks as [|m0 ms0].
  - injection E as <-. exists 0%nat. split; [ lia | ]. intros [X|(m & X & _)]; [ congruence | ].
    rewrite NS in X; [ discriminate | ]. apply (in_map fst) in Hb. exact Hb.
  - exact (subset_loop_free (m0 :: ms0) (p_blocks p) p p' ND (incl_refl _) NS MR E b n Hb Hn C).
Qed.
