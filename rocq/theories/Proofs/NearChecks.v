(** C117: what the checks report on accurate data. *)
From Coq Require Import Reals Lra Psatz Arith Lia List.
From Verif.Base Require Import Geom Outcome Matrix.
From Verif.Model Require Import Pose Covariance Solver HandEye Pnp IntrinsicValidation NoiseQualification DataSet ExampleTools.
From Verif.Spec Require Import PinHole Frames HomographySpec PnpSpec StatSpec KinSpec ValidationSpec ToolSpec UniqueSpec PnpSpec NearSpec CheckSpec.
From Verif.Proofs Require Import GeomLemmas RotLemmas AngleAxisLemmas LocalParamProofs KinematicProofs NoiseProofs PnpProofs LoopProofs ScenesProofs IntrinsicValidationProofs.
From Verif.Proofs Require NearProofs NearBest.
Import ListNotations.
Local Open Scope R_scope.

(** ** Angles between rotations that are close *)
Lemma qdot_w a b : qw (qmul a (qconj b)) = qdot a b.
Proof. destruct a, b. unfold qmul, qconj, qdot. cbn. ring. Qed.
Lemma qconj_unit b : qnorm2 b = 1 -> qnorm2 (qconj b) = 1.
Proof. intros <-. destruct b. unfold qnorm2, qconj. cbn. ring. Qed.
Lemma angular_small a b h : qnorm2 a = 1 -> qnorm2 b = 1 -> 0 <= h <= 1 / 2 -> 1 - h * h <= qdot a b * qdot a b -> 0 <= angular_distance a b <= 4 * h.
Proof.
  intros Ua Ub Hh Hd. unfold angular_distance. set (d := qmul a (qconj b)). cbv zeta.
  assert (Ud : qnorm2 d = 1) by (unfold d; rewrite qmul_norm, Ua, (qconj_unit b Ub); ring).
  assert (W : qw d = qdot a b) by apply qdot_w. rewrite W.
  rewrite qnorm2_split, W, <- norm_sq in Ud. set (s := norm (qvec d)) in *. assert (S0 : 0 <= s) by apply norm_nonneg.
  pose proof (Rabs_pos (qdot a b)) as P. pose proof (Rsqr_abs (qdot a b)) as Q. unfold Rsqr in Q.
  set (c := Rabs (qdot a b)) in *. assert (Sh : s <= h) by nra. assert (C : 1 / 2 < c) by nra.
  unfold atan2. destruct (Rlt_dec 0 c) as [_|N]; [ | lra ].
  assert (X : 0 <= s / c <= 2 * s).
  { split; [ apply Rmult_le_pos; [ exact S0 | apply Rlt_le, Rinv_0_lt_compat; lra ] | ].
    unfold Rdiv. rewrite Rmult_comm. apply Rmult_le_compat_r; [ exact S0 | ]. apply Rlt_le.
    replace 2 with (/ (1 / 2)) by field. apply Rinv_lt_contravar; lra. }
  assert (A : 0 <= atan (s / c) <= s / c).
  { destruct (Req_dec (s / c) 0) as [->|Z]; [ rewrite atan_0; lra | ]. assert (0 < s / c) by lra. split.
    - rewrite <- atan_0. apply Rlt_le, atan_increasing. lra.
    - destruct (MVT_cor2 atan (fun x => / (1 + x ^ 2)) 0 (s / c)) as (y & E & By); [ lra | | ].
      { intros y _. apply derivable_pt_lim_atan. }
      rewrite atan_0 in E. replace (atan (s / c)) with (/ (1 + y ^ 2) * (s / c)) by lra.
      rewrite <- (Rmult_1_l (s / c)) at 2. apply Rmult_le_compat_r; [ lra | ]. rewrite <- Rinv_1. apply Rinv_le_contravar; [ lra | nra ]. }
  lra.
Qed.
Lemma cauchy4 a1 a2 a3 a4 b1 b2 b3 b4 :
  (a1 * b1 + a2 * b2 + a3 * b3 + a4 * b4) * (a1 * b1 + a2 * b2 + a3 * b3 + a4 * b4) <= (a1 * a1 + a2 * a2 + a3 * a3 + a4 * a4) * (b1 * b1 + b2 * b2 + b3 * b3 + b4 * b4).
Proof.
  assert (E : (a1 * a1 + a2 * a2 + a3 * a3 + a4 * a4) * (b1 * b1 + b2 * b2 + b3 * b3 + b4 * b4) - (a1 * b1 + a2 * b2 + a3 * b3 + a4 * b4) * (a1 * b1 + a2 * b2 + a3 * b3 + a4 * b4) =
    Rsqr (a1 * b2 - a2 * b1) + Rsqr (a1 * b3 - a3 * b1) + Rsqr (a1 * b4 - a4 * b1) + Rsqr (a2 * b3 - a3 * b2) + Rsqr (a2 * b4 - a4 * b2) + Rsqr (a3 * b4 - a4 * b3)) by (unfold Rsqr; ring).
  pose proof (Rle_0_sqr (a1 * b2 - a2 * b1)). pose proof (Rle_0_sqr (a1 * b3 - a3 * b1)). pose proof (Rle_0_sqr (a1 * b4 - a4 * b1)).
  pose proof (Rle_0_sqr (a2 * b3 - a3 * b2)). pose proof (Rle_0_sqr (a2 * b4 - a4 * b2)). pose proof (Rle_0_sqr (a3 * b4 - a4 * b3)). lra.
Qed.
Lemma gram a b c : qnorm2 a = 1 -> qnorm2 b = 1 -> qnorm2 c = 1 ->
  (qdot a c - qdot a b * qdot b c) * (qdot a c - qdot a b * qdot b c) <= (1 - qdot a b * qdot a b) * (1 - qdot b c * qdot b c).
Proof.
  intros Ua Ub Uc. set (p := qdot a b). set (q := qdot b c).
  pose proof (cauchy4 (qw a - p * qw b) (qx a - p * qx b) (qy a - p * qy b) (qz a - p * qz b) (qw c - q * qw b) (qx c - q * qx b) (qy c - q * qy b) (qz c - q * qz b)) as C.
  assert (E1 : (qw a - p * qw b) * (qw c - q * qw b) + (qx a - p * qx b) * (qx c - q * qx b) + (qy a - p * qy b) * (qy c - q * qy b) + (qz a - p * qz b) * (qz c - q * qz b) =
    qdot a c - q * qdot a b - p * qdot b c + p * q * qnorm2 b) by (unfold qdot, qnorm2; ring).
  assert (E2 : (qw a - p * qw b) * (qw a - p * qw b) + (qx a - p * qx b) * (qx a - p * qx b) + (qy a - p * qy b) * (qy a - p * qy b) + (qz a - p * qz b) * (qz a - p * qz b) =
    qnorm2 a - 2 * p * qdot a b + p * p * qnorm2 b) by (unfold qdot, qnorm2; ring).
  assert (E3 : (qw c - q * qw b) * (qw c - q * qw b) + (qx c - q * qx b) * (qx c - q * qx b) + (qy c - q * qy b) * (qy c - q * qy b) + (qz c - q * qz b) * (qz c - q * qz b) =
    qnorm2 c - 2 * q * qdot b c + q * q * qnorm2 b) by (unfold qdot, qnorm2; ring).
  rewrite E1, E2, E3, Ua, Ub, Uc in C. fold p q in C.
  replace (qdot a c - q * p - p * q + p * q * 1) with (qdot a c - p * q) in C by ring.
  replace (1 - 2 * p * p + p * p * 1) with (1 - p * p) in C by ring. replace (1 - 2 * q * q + q * q * 1) with (1 - q * q) in C by ring. exact C.
Qed.
Lemma unit_dot_le a b : qnorm2 a = 1 -> qnorm2 b = 1 -> qdot a b * qdot a b <= 1.
Proof.
  intros Ua Ub. pose proof (cauchy4 (qw a) (qx a) (qy a) (qz a) (qw b) (qx b) (qy b) (qz b)) as C. fold (qdot a b) in C. unfold qnorm2 in *. nra.
Qed.
Lemma abs_le_sq x y : 0 <= y -> x * x <= y * y -> Rabs x <= y.
Proof. intros Hy H. apply Rabs_le. split; nra. Qed.
Lemma dot_chain a b c s t : qnorm2 a = 1 -> qnorm2 b = 1 -> qnorm2 c = 1 -> 0 <= s -> 0 <= t ->
  1 - s * s <= qdot a b * qdot a b -> 1 - t * t <= qdot b c * qdot b c -> 1 - (s + t) * (s + t) <= qdot a c * qdot a c.
Proof.
  intros Ua Ub Uc Hs Ht H1 H2. pose proof (gram a b c Ua Ub Uc) as G. pose proof (unit_dot_le a b Ua Ub) as L1. pose proof (unit_dot_le b c Ub Uc) as L2.
  set (p := qdot a b) in *. set (q := qdot b c) in *. set (r := qdot a c) in *. set (w := r - p * q) in *.
  assert (W : Rabs w <= s * t).
  { apply abs_le_sq; [ nra | ]. apply Rle_trans with (1 := G). replace (s * t * (s * t)) with ((s * s) * (t * t)) by ring.
    apply Rmult_le_compat; lra. }
  assert (PQ : Rabs (p * q) <= 1).
  { apply abs_le_sq; [ lra | ]. replace (p * q * (p * q)) with ((p * p) * (q * q)) by ring. rewrite Rmult_1_l. rewrite <- (Rmult_1_l 1).
    apply Rmult_le_compat; try lra; nra. }
  replace r with (p * q + w) by (unfold w; ring).
  assert (X : - (s * t) <= p * q * w).
  { apply Rle_trans with (- Rabs (p * q * w)); [ | pose proof (Rle_abs (- (p * q * w))) as A; rewrite Rabs_Ropp in A; lra ].
    rewrite Rabs_mult. pose proof (Rabs_pos (p * q)). pose proof (Rabs_pos w). nra. }
  assert (Y : 0 <= (1 - p * p) * (1 - q * q)) by (apply Rmult_le_pos; lra).
  assert (Z : 0 <= w * w) by nra. nra.
Qed.
Lemma matrix_gap a b : qnorm2 a = 1 -> qnorm2 b = 1 -> let A := q_matrix a in let B := q_matrix b in
  (m00 A - m00 B) * (m00 A - m00 B) + (m01 A - m01 B) * (m01 A - m01 B) + (m02 A - m02 B) * (m02 A - m02 B) +
  (m10 A - m10 B) * (m10 A - m10 B) + (m11 A - m11 B) * (m11 A - m11 B) + (m12 A - m12 B) * (m12 A - m12 B) +
  (m20 A - m20 B) * (m20 A - m20 B) + (m21 A - m21 B) * (m21 A - m21 B) + (m22 A - m22 B) * (m22 A - m22 B) = 8 - 8 * (qdot a b * qdot a b).
Proof.
  intros Ua Ub. destruct a as [w x y z], b as [w' x' y' z']. unfold q_matrix, qdot, qnorm2 in *. cbn [qw qx qy qz m00 m01 m02 m10 m11 m12 m20 m21 m22] in *.
  replace 1 with (w * w + x * x + y * y + z * z) at 1 3 5 7 9 11 by exact Ua.
  replace (8 - 8 * ((w * w' + x * x' + y * y' + z * z') * (w * w' + x * x' + y * y' + z * z'))) with
    (3 * (w * w + x * x + y * y + z * z) * (w * w + x * x + y * y + z * z) + 3 * (w' * w' + x' * x' + y' * y' + z' * z') * (w' * w' + x' * x' + y' * y' + z' * z')
     + 2 * (w * w + x * x + y * y + z * z) * (w' * w' + x' * x' + y' * y' + z' * z') - 8 * ((w * w' + x * x' + y * y' + z * z') * (w * w' + x * x' + y * y' + z * z')))
    by (rewrite Ua, Ub; ring).
  replace 1 with (w' * w' + x' * x' + y' * y' + z' * z') by exact Ub. ring.
Qed.
Lemma sq_close x e : Rabs x <= e -> x * x <= e * e.
Proof. intros H. pose proof (Rabs_pos x). pose proof (Rsqr_abs x) as Q. unfold Rsqr in Q. rewrite Q. apply Rmult_le_compat; lra. Qed.
Lemma quat_near A B e : is_rot A -> is_rot B -> mat_close e A B -> 1 - (2 * e) * (2 * e) <= qdot (quat_of_mat A) (quat_of_mat B) * qdot (quat_of_mat A) (quat_of_mat B).
Proof.
  intros RA RB (H1 & H2 & H3 & H4 & H5 & H6 & H7 & H8 & H9).
  pose proof (matrix_gap _ _ (quat_of_mat_unit A RA) (quat_of_mat_unit B RB)) as G. cbv zeta in G. rewrite !q_matrix_quat_of_mat in G by assumption.
  apply sq_close in H1, H2, H3, H4, H5, H6, H7, H8, H9. nra.
Qed.

(** ** Statistics of values that are close *)
Lemma abs_inv x e : Rabs x <= e -> - e <= x <= e.
Proof. unfold Rabs. destruct (Rcase_abs x); lra. Qed.
Lemma total_each_le l c : (forall x, In x l -> x <= c) -> total l <= INR (List.length l) * c.
Proof.
  induction l as [|x l IH]; intros H; [ cbn; lra | ]. cbn [List.length]. rewrite S_INR. unfold total in *. cbn [fold_right].
  pose proof (H x (or_introl eq_refl)). specialize (IH (fun y Hy => H y (or_intror Hy))). lra.
Qed.
Lemma total_each_ge l c : (forall x, In x l -> c <= x) -> INR (List.length l) * c <= total l.
Proof.
  induction l as [|x l IH]; intros H; [ cbn; lra | ]. cbn [List.length]. rewrite S_INR. unfold total in *. cbn [fold_right].
  pose proof (H x (or_introl eq_refl)). specialize (IH (fun y Hy => H y (or_intror Hy))). lra.
Qed.
Lemma size_pos {A} (l : list A) : l <> [] -> 0 < INR (List.length l).
Proof. destruct l; [ congruence | ]. intros _. apply lt_0_INR. cbn. lia. Qed.
Lemma div_le a b c : 0 < b -> a <= b * c -> a / b <= c.
Proof. intros Hb H. apply (Rmult_le_reg_r b); [ exact Hb | ]. unfold Rdiv. rewrite Rmult_assoc, Rinv_l by lra. lra. Qed.
Lemma div_ge a b c : 0 < b -> b * c <= a -> c <= a / b.
Proof. intros Hb H. apply (Rmult_le_reg_r b); [ exact Hb | ]. unfold Rdiv. rewrite Rmult_assoc, Rinv_l by lra. lra. Qed.
Lemma average_near l x0 e : l <> [] -> (forall x, In x l -> Rabs (x - x0) <= e) -> Rabs (average l - x0) <= e.
Proof.
  intros N H. pose proof (size_pos l N) as P. assert (B : forall x, In x l -> x0 - e <= x <= x0 + e).
  { intros x Hx. specialize (H x Hx). apply abs_inv in H. lra. }
  assert (average l <= x0 + e) by (apply div_le; [ exact P | apply total_each_le; intros; apply B; assumption ]).
  assert (x0 - e <= average l) by (apply div_ge; [ exact P | apply total_each_ge; intros; apply B; assumption ]).
  apply Rabs_le. lra.
Qed.
Lemma std_near l x0 e : l <> [] -> 0 <= e -> (forall x, In x l -> Rabs (x - x0) <= e) -> std_dev l <= 2 * e.
Proof.
  intros N He H. pose proof (average_near l x0 e N H) as A. apply abs_inv in A.
  unfold std_dev. rewrite <- (sqrt_square (2 * e)) by lra. apply sqrt_le_1_alt, div_le; [ apply size_pos, N | ].
  rewrite <- (map_length (fun x => (x - average l) * (x - average l)) l). apply total_each_le. intros y Hy. apply in_map_iff in Hy as (x & <- & Hx).
  apply sq_close. specialize (H x Hx). apply abs_inv in H. apply Rabs_le. lra.
Qed.
(** The mean of orientations that are all close to [q0]. *)
Lemma some_large l c : l <> [] -> INR (List.length l) * c <= total l -> exists x, In x l /\ c <= x.
Proof.
  induction l as [|x l IH]; [ congruence | ]. intros _ H. destruct (Rle_dec c x) as [L|L]; [ exists x; split; [ left; reflexivity | exact L ] | ].
  assert (Nl : l <> []). { intros ->. cbn in H. unfold total in H. cbn in H. lra. }
  destruct (IH Nl) as (y & Hy & Ly); [ | exists y; split; [ right; exact Hy | exact Ly ] ].
  cbn [List.length] in H. rewrite S_INR in H. unfold total in *. cbn [fold_right] in H. lra.
Qed.
Lemma qdot_comm a b : qdot a b = qdot b a.
Proof. unfold qdot. ring. Qed.
Lemma mean_near svd l q0 h : l <> [] -> 0 <= h -> qnorm2 q0 = 1 -> (forall q, In q l -> qnorm2 q = 1 /\ 1 - h * h <= qdot q q0 * qdot q q0) ->
  dominant (quaternion_matrix l) (computeQuaternionMean svd l) -> let m := computeQuaternionMean svd l in
  qnorm2 m = 1 /\ 1 - (2 * h) * (2 * h) <= qdot m q0 * qdot m q0 /\ forall q, In q l -> 1 - (3 * h) * (3 * h) <= qdot m q * qdot m q.
Proof.
  intros N Hh U0 H D m. destruct (mean_maximises svd l D) as [Um M]. fold m in Um, M. specialize (M q0 U0).
  destruct (some_large (map (fun q => qdot q m * qdot q m) l) (1 - h * h)) as (y & Hy & Ly).
  { destruct l; [ congruence | discriminate ]. }
  { apply Rle_trans with (2 := M). rewrite map_length, <- (map_length (fun q => qdot q q0 * qdot q q0) l). apply total_each_ge.
    intros x Hx. apply in_map_iff in Hx as (q & <- & Hq). apply H, Hq. }
  apply in_map_iff in Hy as (qj & <- & Hj). destruct (H qj Hj) as [Uj Lj].
  assert (M0 : 1 - (2 * h) * (2 * h) <= qdot m q0 * qdot m q0).
  { replace (2 * h) with (h + h) by ring. apply (dot_chain m qj q0 h h); try assumption. rewrite qdot_comm. exact Ly. }
  split; [ exact Um | split; [ exact M0 | ] ]. intros q Hq. destruct (H q Hq) as [Uq Lq].
  replace (3 * h) with (2 * h + h) by ring. apply (dot_chain m q0 q (2 * h) h); try assumption; [ lra | ]. rewrite (qdot_comm q0 q). exact Lq.
Qed.

(** ** Noise qualification *)
Definition fine (e : R) : R := Rmin (e / 48) (1 / 12).
Lemma fine_pos e : 0 < e -> 0 < fine e.
Proof. intros H. unfold fine. apply Rmin_pos; lra. Qed.
Lemma fine_le e : 48 * fine e <= e /\ 12 * fine e <= 1.
Proof. unfold fine. pose proof (Rmin_l (e / 48) (1 / 12)). pose proof (Rmin_r (e / 48) (1 / 12)). lra. Qed.
Lemma solution_in rs T : In T (solutions rs) -> exists i r, nth_error rs i = Some r /\ pnp_converged r = true /\ T = pnp_camera_to_target r.
Proof.
  unfold solutions. intros H. apply in_map_iff in H as (r & <- & H). apply filter_In in H as [H C].
  apply In_nth_error in H as [i Hi]. exists i, r. repeat split; assumption.
Qed.
Lemma angle_stdev_small l m a : (2 <= List.length l)%nat -> 0 <= a -> (forall q, In q l -> 0 <= angular_distance m q <= a) ->
  sqrt (total (map (fun q => angular_distance m q * angular_distance m q) l) / INR (List.length l - 1)) <= 2 * a.
Proof.
  intros L Ha H. rewrite <- (sqrt_square (2 * a)) by lra. apply sqrt_le_1_alt. apply div_le; [ apply lt_0_INR; lia | ].
  apply Rle_trans with (INR (List.length l) * (a * a)).
  - rewrite <- (map_length (fun q => angular_distance m q * angular_distance m q) l). apply total_each_le. intros y Hy.
    apply in_map_iff in Hy as (q & <- & Hq). specialize (H q Hq). nra.
  - rewrite minus_INR by lia. pose proof (le_INR _ _ L). cbn [INR] in *. pose proof (Rmult_le_pos a a Ha Ha). nra.
Qed.
Lemma stats_near {P} svd (optimize : nat -> P -> res pnp_result) ps s e T0 : 0 < e -> rigid T0 -> qualify svd optimize ps = Ok s ->
  right_for svd optimize ps ->
  (forall i p r, nth_error ps i = Some p -> optimize i p = Ok r -> pnp_converged r = true ->
     rigid (pnp_camera_to_target r) /\ near_pose (fine e) (pnp_camera_to_target r) T0) ->
  stats_close e T0 s.
Proof.
  intros He RT E D H. destruct (qualify_spec svd optimize ps s E) as (rs & L & Hrs & H2 & Hm & Hs & Hq). specialize (D rs (conj L Hrs)).
  pose proof (fine_pos e He) as F0. pose proof (fine_le e) as [F1 F2]. set (f := fine e) in *.
  assert (Sol : forall T, In T (solutions rs) -> rigid T /\ near_pose f T T0).
  { intros T HT. apply solution_in in HT as (i & r & Hi & C & ->).
    assert (Hp : exists p, nth_error ps i = Some p).
    { destruct (nth_error ps i) as [p|] eqn:Ep; [ eauto | ]. apply nth_error_None in Ep. assert (nth_error rs i <> None) by congruence.
      apply nth_error_Some in H0. lia. }
    destruct Hp as [p Hp]. exact (H i p r Hp (Hrs i p r Hp Hi) C). }
  assert (N : solutions rs <> []) by (intros X; rewrite X in H2; cbn in H2; lia).
  assert (Nm : forall f : iso -> R, map f (solutions rs) <> []) by (intros g; destruct (solutions rs); [ congruence | discriminate ]).
  assert (Cl : forall g : vec3 -> R, (forall T, near_pose f T T0 -> Rabs (g (tr T) - g (tr T0)) <= f) ->
     Rabs (average (map (fun T => g (tr T)) (solutions rs)) - g (tr T0)) <= e /\ std_dev (map (fun T => g (tr T)) (solutions rs)) <= e).
  { intros g Hg. assert (X : forall x, In x (map (fun T => g (tr T)) (solutions rs)) -> Rabs (x - g (tr T0)) <= f).
    { intros x Hx. apply in_map_iff in Hx as (T & <- & HT). apply Hg, Sol, HT. }
    pose proof (average_near _ _ _ (Nm _) X). pose proof (std_near _ _ _ (Nm _) (Rlt_le _ _ F0) X). split; lra. }
  destruct (Cl vx) as [Ax Sx]; [ intros T [_ (h & _ & _)]; exact h | ].
  destruct (Cl vy) as [Ay Sy]; [ intros T [_ (_ & h & _)]; exact h | ].
  destruct (Cl vz) as [Az Sz]; [ intros T [_ (_ & _ & h)]; exact h | ].
  fold (orientations rs) in Hq. unfold orientations in Hq. rewrite stats_spec in Hq by (rewrite map_length; exact H2). injection Hq as Hq.
  fold (orientations rs) in Hq. set (q0 := quat_of_mat (lin T0)) in *.
  assert (U0 : qnorm2 q0 = 1) by apply quat_of_mat_unit, RT.
  destruct (mean_near svd (orientations rs) q0 (2 * f)) as (Um & M0 & M1); [ | lra | exact U0 | | exact D | ].
  { unfold orientations. destruct (solutions rs); [ congruence | discriminate ]. }
  { intros q Hin. unfold orientations in Hin. apply in_map_iff in Hin as (T & <- & HT). destruct (Sol T HT) as [RR [NR _]].
    split; [ apply quat_of_mat_unit, RR | ]. apply quat_near; [ exact RR | exact RT | exact NR ]. }
  set (m := computeQuaternionMean svd (orientations rs)) in *.
  assert (Am : 0 <= angular_distance m q0 <= 4 * (2 * (2 * f))) by (apply angular_small; [ exact Um | exact U0 | lra | exact M0 ]).
  assert (Aq : forall q, In q (orientations rs) -> 0 <= angular_distance m q <= 24 * f).
  { intros q Hin. replace (24 * f) with (4 * (3 * (2 * f))) by ring. apply angular_small; [ exact Um | | lra | apply M1, Hin ].
    unfold orientations in Hin. apply in_map_iff in Hin as (T & <- & HT). apply quat_of_mat_unit, (proj1 (Sol T HT)). }
  pose proof (angle_stdev_small (orientations rs) m (24 * f)) as SD. assert (LO : List.length (orientations rs) = List.length (solutions rs)) by apply map_length.
  rewrite !LO in SD. specialize (SD H2 ltac:(lra) Aq).
  unfold stats_close. rewrite Hm, Hs, <- Hq. cbn [qs_mean qs_stdev vx vy vz]. fold q0.
  unfold point_close. cbn [vx vy vz]. split; [ split; [ exact Ax | split; [ exact Ay | exact Az ] ] | ].
  split; [ split; [ exact Sx | split; [ exact Sy | exact Sz ] ] | ]. split; [ lra | ]. rewrite LO. lra.
Qed.
(** A result that explains a picture near the reference is near the true pose. *)
Lemma explained2 k T0 cs0 : rigid T0 -> ~ edge_on T0 -> fx k <> 0 -> fy k <> 0 -> four_flat_points (map in_target cs0) -> perfect_image k T0 cs0 ->
  forall e, 0 < e -> exists d, 0 < d /\ forall u solve cov p r d', d' <= d -> honest solve -> optimizePnP u solve cov p = Ok r ->
    pnp_intr p = k -> near_picture d' (pnp_correspondences p) cs0 -> explains k T0 d' (pnp_correspondences p) r -> near_pose e (pnp_camera_to_target r) T0.
Proof.
  intros RT NE Fx Fy F4 PI e He. destruct (NearProofs.pnp_near2 k T0 cs0 RT NE Fx Fy F4 PI e He) as (d1 & P1 & H1).
  destruct (NearBest.pnp_best2 k T0 cs0 RT NE Fx Fy F4 PI e He) as (d2 & P2 & H2). exists (Rmin d1 d2). split; [ apply Rmin_pos; assumption | ].
  intros u solve cov p r d' Hd Ho E K Np [Fr C]. pose proof (Rmin_l d1 d2). pose proof (Rmin_r d1 d2).
  destruct C as [C|C].
  - apply (H1 u solve cov p r Ho E K); [ | exact Fr | lra ]. apply NearProofs.near_picture_mono with (2 := Np). lra.
  - apply (H2 u solve cov p r Ho E K); [ | exact Fr | exact C ]. apply NearProofs.near_picture_mono with (2 := Np). lra.
Qed.
Lemma explained3 T0 cs0 : rigid T0 -> not_on_a_line (map in_target cs0) -> perfect_points T0 cs0 ->
  forall e, 0 < e -> exists d, 0 < d /\ forall u solve cov p r, honest solve -> optimizePnP3D u solve cov p = Ok r ->
    Forall2 (near_point d) (pnp3_correspondences p) cs0 -> explains_points T0 d (pnp3_correspondences p) r -> near_pose e (pnp_camera_to_target r) T0.
Proof.
  intros RT NL PI e He. destruct (NearProofs.pnp_near3 T0 cs0 RT NL PI e He) as (d1 & P1 & H1).
  destruct (NearBest.pnp_best3 T0 cs0 RT NL PI e He) as (d2 & P2 & H2). exists (Rmin d1 d2). split; [ apply Rmin_pos; assumption | ].
  intros u solve cov p r Ho E Np C. pose proof (Rmin_l d1 d2). pose proof (Rmin_r d1 d2).
  assert (Mo : forall d, Rmin d1 d2 <= d -> Forall2 (near_point d) (pnp3_correspondences p) cs0).
  { intros d Hd. apply NearProofs.Forall2_mono with (2 := Np). intros a b. apply NearProofs.near_point_mono, Hd. }
  destruct C as [C|C].
  - apply (H1 u solve cov p r Ho E); [ apply Mo; assumption | lra ].
  - apply (H2 u solve cov p r Ho E); [ apply Mo; assumption | exact C ].
Qed.
Lemma noise_near2 k T0 cs0 : rigid T0 -> ~ edge_on T0 -> fx k <> 0 -> fy k <> 0 -> four_flat_points (map in_target cs0) -> perfect_image k T0 cs0 ->
  forall e, 0 < e -> exists d, 0 < d /\ forall svd runs ps s, qualifyNoise2D svd runs ps = Ok s ->
    let optimize i p := optimizePnP (run_u (runs i)) (run_solve (runs i)) (run_cov (runs i)) p in
    right_for svd optimize ps ->
    (forall i p, nth_error ps i = Some p -> honest (run_solve (runs i)) /\ pnp_intr p = k /\ near_picture d (pnp_correspondences p) cs0 /\
       forall r, optimize i p = Ok r -> pnp_converged r = true -> explains k T0 d (pnp_correspondences p) r) ->
    stats_close e T0 s.
Proof.
  intros RT NE Fx Fy F4 PI e He. destruct (explained2 k T0 cs0 RT NE Fx Fy F4 PI (fine e) (fine_pos e He)) as (d & P & H).
  exists d. split; [ exact P | ]. intros svd runs ps s E optimize D Hp.
  apply (stats_near svd optimize ps s e T0 He RT E D). intros i p r Hi Er C. destruct (Hp i p Hi) as (Ho & K & Np & X).
  split; [ | exact (H _ _ _ p r d (Rle_refl d) Ho Er K Np (X r Er C)) ].
  destruct (pnp_result2 p) as (b & _ & Y). exact (proj1 (Y _ _ _ _ Er)).
Qed.
Lemma noise_near3 T0 cs0 : rigid T0 -> not_on_a_line (map in_target cs0) -> perfect_points T0 cs0 ->
  forall e, 0 < e -> exists d, 0 < d /\ forall svd runs ps s, qualifyNoise3D svd runs ps = Ok s ->
    let optimize i p := optimizePnP3D (run_u (runs i)) (run_solve (runs i)) (run_cov (runs i)) p in
    right_for svd optimize ps ->
    (forall i p, nth_error ps i = Some p -> honest (run_solve (runs i)) /\ Forall2 (near_point d) (pnp3_correspondences p) cs0 /\
       forall r, optimize i p = Ok r -> pnp_converged r = true -> explains_points T0 d (pnp3_correspondences p) r) ->
    stats_close e T0 s.
Proof.
  intros RT NL PI e He. destruct (explained3 T0 cs0 RT NL PI (fine e) (fine_pos e He)) as (d & P & H).
  exists d. split; [ exact P | ]. intros svd runs ps s E optimize D Hp.
  apply (stats_near svd optimize ps s e T0 He RT E D). intros i p r Hi Er C. destruct (Hp i p Hi) as (Ho & Np & X).
  split; [ | exact (H _ _ _ p r Ho Er Np (X r Er C)) ].
  destruct (pnp_result3 p) as (b & _ & Y). exact (proj1 (Y _ _ _ _ Er)).
Qed.

(** ** The two halves of a picture *)
Lemma norm_small v a : Rabs (vx v) <= a -> Rabs (vy v) <= a -> Rabs (vz v) <= a -> norm v <= 2 * a.
Proof.
  intros X Y Z. pose proof (Rabs_pos (vx v)). assert (0 <= a) by lra. apply sq_close in X, Y, Z.
  unfold norm. rewrite <- (sqrt_square (2 * a)) by lra. apply sqrt_le_1_alt. unfold dot. nra.
Qed.
Lemma halves_near e T0 T1 T2 : 0 < e -> rigid T0 -> rigid T1 -> rigid T2 -> near_pose (fine e) T1 T0 -> near_pose (fine e) T2 T0 ->
  norm (tr (iso_mul (iso_inv T1) T2)) <= e /\ 0 <= angular_distance (quat_of_mat (lin T1)) (quat_of_mat (lin T2)) <= e.
Proof.
  intros He R0 R1 R2 [M1 (X1 & Y1 & Z1)] [M2 (X2 & Y2 & Z2)]. pose proof (fine_pos e He) as F0. pose proof (fine_le e) as [F1 F2]. set (f := fine e) in *.
  apply abs_inv in X1, Y1, Z1, X2, Y2, Z2. split.
  - replace (tr (iso_mul (iso_inv T1) T2)) with (mvec (mT (lin T1)) (vsub (tr T2) (tr T1))).
    + rewrite (rot_norm (mT (lin T1))) by apply is_rot_mT, R1.
      pose proof (norm_small (vsub (tr T2) (tr T1)) (2 * f)) as X. apply Rle_trans with (2 * (2 * f)); [ | lra ].
      apply X; unfold vsub; cbn [vx vy vz]; apply Rabs_le; lra.
    + destruct T1 as [[? ? ? ? ? ? ? ? ?] [? ? ?]], T2 as [? [? ? ?]]. unfold iso_mul, iso_inv, iso_app, mvec, mT, vsub, vadd, vneg. cbn. f_equal; ring.
  - assert (A : 0 <= angular_distance (quat_of_mat (lin T1)) (quat_of_mat (lin T2)) <= 4 * (2 * f + 2 * f)).
    { apply angular_small; [ apply quat_of_mat_unit, R1 | apply quat_of_mat_unit, R2 | lra | ].
      apply (dot_chain (quat_of_mat (lin T1)) (quat_of_mat (lin T0)) (quat_of_mat (lin T2)));
        try (apply quat_of_mat_unit; assumption); try lra; [ apply quat_near; try assumption | ].
      rewrite qdot_comm. apply quat_near; assumption. }
    lra.
Qed.
Lemma Forall2_firstn {A B} (P : A -> B -> Prop) n : forall l m, Forall2 P l m -> Forall2 P (firstn n l) (firstn n m).
Proof. induction n; intros l m H; [ constructor | ]. destruct H; cbn; constructor; auto. Qed.
Lemma Forall2_skipn {A B} (P : A -> B -> Prop) n : forall l m, Forall2 P l m -> Forall2 P (skipn n l) (skipn n m).
Proof. induction n; intros l m H; [ exact H | ]. destruct H; cbn; [ constructor | auto ]. Qed.
Lemma Forall2_size {A B} (P : A -> B -> Prop) l m : Forall2 P l m -> List.length l = List.length m.
Proof. induction 1; cbn; congruence. Qed.
Lemma perfect_incl k T l m : (forall c : correspondence vec2, In c l -> In c m) -> perfect_image k T m -> perfect_image k T l.
Proof. intros I H c Hc. exact (H c (I c Hc)). Qed.
Lemma firstn_sub {A} n (l : list A) x : In x (firstn n l) -> In x l.
Proof. intros H. rewrite <- (firstn_skipn n l). apply in_or_app. left. exact H. Qed.
Lemma skipn_sub {A} n (l : list A) x : In x (skipn n l) -> In x l.
Proof. intros H. rewrite <- (firstn_skipn n l). apply in_or_app. right. exact H. Qed.
Lemma checked_mono d d' k ref runs g cs : d <= d' -> checked_near d k ref runs g cs -> checked_near d' k ref runs g cs.
Proof.
  intros L (H1 & H2 & H3 & H4 & H5). split; [ exact (NearProofs.near_picture_mono _ _ _ _ L H1) | ]. split; [ exact H2 | ]. split; [ exact H3 | ].
  split; intros r Hr; [ destruct (H4 r Hr) as [F C] | destruct (H5 r Hr) as [F C] ]; (split; [ exact F | ]); (destruct C as [C|C]; [ left; lra | right; exact C ]).
Qed.
Lemma virtual_near k ref : fx k <> 0 -> fy k <> 0 -> good_reference k ref ->
  forall e, 0 < e -> exists d, 0 < d /\ forall runs guess t cs v, measureVirtualTargetDiff (fst runs) (snd runs) cs k guess t = Ok v ->
    checked_near d k ref runs guess cs -> 0 <= vr_positional_error v <= e /\ 0 <= vr_angular_error v <= e.
Proof.
  intros Fx Fy (RT & NE & PI & F1 & F2) e He. destruct ref as [T0 cs0]. cbn [fst snd] in *.
  destruct (explained2 k T0 (first_half cs0) RT NE Fx Fy F1) with (e := fine e) as (d1 & P1 & H1);
    [ apply perfect_incl with (2 := PI); intros c; apply firstn_sub | exact (fine_pos e He) | ].
  destruct (explained2 k T0 (second_half cs0) RT NE Fx Fy F2) with (e := fine e) as (d2 & P2 & H2);
    [ apply perfect_incl with (2 := PI); intros c; apply skipn_sub | exact (fine_pos e He) | ].
  exists (Rmin d1 d2). split; [ apply Rmin_pos; assumption | ]. intros [r1 r2] g t cs v E (Np & O1 & O2 & X1 & X2). cbn [fst snd] in *.
  destruct (virtual_result_spec _ _ _ _ _ _ _ E) as (s1 & s2 & p1 & p2 & Es & L1 & Fi1 & G1 & Fi2 & G2 & R1 & R2 & Ev & Ep & An & _).
  assert (E1 : s1 = first_half cs). { unfold first_half. rewrite <- L1, <- Es, firstn_app, Nat.sub_diag, firstn_all, firstn_O, app_nil_r. reflexivity. }
  assert (E2 : s2 = second_half cs). { unfold second_half. rewrite <- L1, <- Es, skipn_app, Nat.sub_diag, skipn_all. reflexivity. }
  subst s1 s2. pose proof (Forall2_size _ _ _ Np) as Sz.
  assert (N1 : near_pose (fine e) (pnp_camera_to_target p1) T0).
  { apply (H1 _ _ _ _ _ _ (Rmin_l d1 d2) O1 Fi1 eq_refl); [ | exact (X1 p1 Fi1) ]. cbn. unfold first_half. rewrite <- Sz. apply Forall2_firstn, Np. }
  assert (N2 : near_pose (fine e) (pnp_camera_to_target p2) T0).
  { apply (H2 _ _ _ _ _ _ (Rmin_r d1 d2) O2 Fi2 eq_refl); [ | exact (X2 p2 Fi2) ]. cbn. unfold second_half. rewrite <- Sz. apply Forall2_skipn, Np. }
  destruct (halves_near e T0 _ _ He RT R1 R2 N1 N2) as [A B].
  rewrite (angle_between_unique _ _ _ _ R2 An (angular_distance_angle _ _ R1 R2)). rewrite Ep, Ev.
  split; [ split; [ apply norm_nonneg | exact A ] | exact B ].
Qed.
(** ** All pictures *)
Lemma common_bound {A} (P : A -> R -> Prop) l : (forall a d d', P a d -> 0 < d' -> d' <= d -> P a d') -> (forall a, In a l -> exists d, 0 < d /\ P a d) ->
  exists d, 0 < d /\ forall a, In a l -> P a d.
Proof.
  intros M. induction l as [|a l IH]; intros H; [ exists 1; split; [ lra | intros a [] ] | ].
  destruct (H a (or_introl eq_refl)) as (d1 & P1 & H1). destruct IH as (d2 & P2 & H2); [ intros b Hb; apply H; right; exact Hb | ].
  exists (Rmin d1 d2). assert (Pm : 0 < Rmin d1 d2) by (apply Rmin_pos; assumption). split; [ exact Pm | ].
  intros b [<-|Hb]; [ exact (M _ _ _ H1 Pm (Rmin_l _ _)) | exact (M _ _ _ (H2 b Hb) Pm (Rmin_r _ _)) ].
Qed.
Lemma virtual_near_all k refs : fx k <> 0 -> fy k <> 0 -> (forall ref, In ref refs -> good_reference k ref) ->
  forall e, 0 < e -> exists d, 0 < d /\ forall ref, In ref refs -> forall runs guess t cs v, measureVirtualTargetDiff (fst runs) (snd runs) cs k guess t = Ok v ->
    checked_near d k ref runs guess cs -> 0 <= vr_positional_error v <= e /\ 0 <= vr_angular_error v <= e.
Proof.
  intros Fx Fy G e He. apply (common_bound (fun ref d => forall runs guess t cs v, measureVirtualTargetDiff (fst runs) (snd runs) cs k guess t = Ok v ->
    checked_near d k ref runs guess cs -> 0 <= vr_positional_error v <= e /\ 0 <= vr_angular_error v <= e)).
  - intros ref d d' H _ L runs g t cs v E C. exact (H _ _ _ _ _ E (checked_mono _ _ _ _ _ _ _ L C)).
  - intros ref Hr. exact (virtual_near k ref Fx Fy (G ref Hr) e He).
Qed.
Lemma list_small l e : l <> [] -> 0 <= e -> (forall x, In x l -> 0 <= x <= e) -> average l <= e /\ std_dev l <= 2 * e.
Proof.
  intros N He H. assert (X : forall x, In x l -> Rabs (x - 0) <= e) by (intros x Hx; specialize (H x Hx); apply Rabs_le; lra).
  pose proof (average_near l 0 e N X) as A. apply abs_inv in A. split; [ lra | exact (std_near l 0 e N He X) ].
Qed.
Lemma nth_other {A B} (l : list A) (m : list B) i b : List.length m = List.length l -> nth_error m i = Some b -> exists a, nth_error l i = Some a.
Proof.
  intros L H. destruct (nth_error l i) as [a|] eqn:E; [ eauto | ]. apply nth_error_None in E. assert (nth_error m i <> None) by congruence.
  apply nth_error_Some in H0. lia.
Qed.
Lemma accuracy_near k refs : fx k <> 0 -> fy k <> 0 -> (forall ref, In ref refs -> good_reference k ref) ->
  forall e, 0 < e -> exists d, 0 < d /\ forall runs os C T B t r, measureIntrinsicCalibrationAccuracy runs os k C T B t = Ok r ->
    List.length os = List.length refs ->
    (forall i o ref, nth_error os i = Some o -> nth_error refs i = Some ref ->
       checked_near d k ref (runs i) (target_in_camera C (to_camera_mount o) (iso_mul B (to_target_mount o)) T) (correspondence_set o)) ->
    (fst (ar_pos_error r) <= e /\ snd (ar_pos_error r) <= e) /\ (fst (ar_ang_error r) <= e /\ snd (ar_ang_error r) <= e).
Proof.
  intros Fx Fy G e He. destruct (virtual_near_all k refs Fx Fy G (e / 2) ltac:(lra)) as (d & P & H). exists d. split; [ exact P | ].
  intros runs os C T B t r E L N. destruct (accuracy_spec runs k C T B t os r E) as (No & _ & vs & Lv & Hv & -> & ->). cbn [fst snd].
  assert (X : forall v, In v vs -> 0 <= vr_positional_error v <= e / 2 /\ 0 <= vr_angular_error v <= e / 2).
  { intros v Hin. apply In_nth_error in Hin as [i Hi]. destruct (nth_other os vs i v Lv Hi) as [o Ho]. destruct (nth_other refs os i o L Ho) as [ref Hr].
    specialize (Hv i o v Ho Hi). exact (H ref (nth_error_In _ _ Hr) (runs i) _ _ _ v Hv (N i o ref Ho Hr)). }
  assert (Nv : forall f : virtual_result -> R, map f vs <> []). { intros f. destruct vs; [ destruct os; [ congruence | discriminate ] | discriminate ]. }
  destruct (list_small (map vr_positional_error vs) (e / 2) (Nv _)) as [A1 A2]; [ lra | intros x Hx; apply in_map_iff in Hx as (v & <- & Hin); apply X, Hin | ].
  destruct (list_small (map vr_angular_error vs) (e / 2) (Nv _)) as [B1 B2]; [ lra | intros x Hx; apply in_map_iff in Hx as (v & <- & Hin); apply X, Hin | ].
  lra.
Qed.
Lemma verdict_near k refs : fx k <> 0 -> fy k <> 0 -> (forall ref, In ref refs -> good_reference k ref) ->
  exists d, 0 < d /\ forall image features (v : vision image features) runs T C (ps : list (image * iso)) b,
    validationTool v runs k T C (Some (data_of ps)) = Ok b ->
    (forall sel, chosen (sees_shown v) ps sel -> List.length sel = List.length refs /\
       forall i s ref, nth_error sel i = Some s -> nth_error refs i = Some ref ->
         checked_near d k ref (runs i) (target_from_tool (snd (fst s)) C T) (snd s)) ->
    b = true.
Proof.
  intros Fx Fy G. set (e := Rmin (1 / 5000) (PI / 18000)). pose proof PI_RGT_0 as HP.
  assert (He : 0 < e) by (unfold e; apply Rmin_pos; lra). pose proof (Rmin_l (1 / 5000) (PI / 18000)) as L1. pose proof (Rmin_r (1 / 5000) (PI / 18000)) as L2. fold e in L1, L2.
  destruct (virtual_near_all k refs Fx Fy G e He) as (d & P & H). exists d. split; [ exact P | ].
  intros image features vis runs T C ps b E N. destruct (validation_verdict vis runs k T C ps b E) as (sel & vs & Hc & Ns & Lv & Hv & V). cbv zeta in V.
  destruct (N sel Hc) as [L Hn].
  assert (X : forall v, In v vs -> 0 <= vr_positional_error v <= e /\ 0 <= vr_angular_error v <= e).
  { intros v Hin. apply In_nth_error in Hin as [i Hi]. destruct (nth_other sel vs i v Lv Hi) as [s Hs]. destruct (nth_other refs sel i s L Hs) as [ref Hr].
    specialize (Hv i s v Hs Hi). exact (H ref (nth_error_In _ _ Hr) (runs i) _ _ _ v Hv (Hn i s ref Hs Hr)). }
  assert (Nv : forall f : virtual_result -> R, map f vs <> []). { intros f. destruct vs; [ destruct sel; [ congruence | discriminate ] | discriminate ]. }
  destruct (list_small (map vr_positional_error vs) e (Nv _)) as [A1 A2]; [ lra | intros x Hx; apply in_map_iff in Hx as (v & <- & Hin); apply X, Hin | ].
  destruct (list_small (map vr_angular_error vs) e (Nv _)) as [B1 B2]; [ lra | intros x Hx; apply in_map_iff in Hx as (v & <- & Hin); apply X, Hin | ].
  apply V. lra.
Qed.
