(** Derivatives at rotation vectors of zero. *)
From Coq Require Import Reals Lra Lia List Bool Arith FunctionalExtensionality.
From Verif.Base Require Import Geom Outcome Matrix.
From Verif.Model Require Import Pose DhChain Kinematic Pnp LocalParam Jet Functors.
From Verif.Spec Require Import DerivativeSpec.
From Verif.Proofs Require Import GeomLemmas RotLemmas AngleAxisLemmas HandEyeProofs KinematicProofs JetProofs FunctorProofs DerivProofs KinDerivProofs PoseDerivProofs.
Import ListNotations.
Local Open Scope R_scope.

Lemma abs_cases s : (0 < s /\ Rabs s = s) \/ (s = 0 /\ Rabs s = 0) \/ (s < 0 /\ Rabs s = - s).
Proof. unfold Rabs. destruct (Rcase_abs s); lra. Qed.
Lemma sqrt_sq s : sqrt (s * s) = Rabs s.
Proof. exact (sqrt_Rsqr_abs s). Qed.
Lemma with_at x b i s b' i' : with_value x b i s b' i' = (if andb (Nat.eqb b b') (Nat.eqb i i') then s else x b' i').
Proof. reflexivity. Qed.

(** ** The quaternion plus *)
Lemma q_plus (q : gquat R) (v : gvec R) : q_of (gquaternion_plus RN q v) = quaternion_plus (q_of q) (v_of v).
Proof.
  unfold gquaternion_plus, quaternion_plus. cbv zeta. cbn [RN real_num T gt add mul div lit nsqrt nsin ncos]. rewrite bool_if. unfold v_of. cbn [vx vy vz].
  destruct (Rlt_dec 0 (sqrt (gx v * gx v + gy v * gy v + gz v * gz v))); reflexivity.
Qed.
Section Plus.
  Variables (t0 : R) (d : nat * nat) (e : R) (dirs : list (nat * nat)).
  Notation JN := (jet_num e dirs).
  Definition small (N : num) (v : gvec (T N)) : gquat (T N) :=
    let n := nsqrt N (add N (add N (mul N (gx v) (gx v)) (mul N (gy v) (gy v))) (mul N (gz v) (gz v))) in
    if gt N n (lit N 0) then
      let r := div N (nsin N n) n in GQ (ncos N n) (mul N r (gx v)) (mul N r (gy v)) (mul N r (gz v))
    else GQ (lit N 1) (gx v) (gy v) (gz v).
  Lemma plus_small N q v : gquaternion_plus N q v = gqmul N (small N v) q.
  Proof. reflexivity. Qed.
  Lemma relQ_small_far V J : rel3 t0 d V J -> 0 < gdot RN (V t0) (V t0) -> relQ t0 d (fun s => small RN (V s)) (small JN J).
  Proof.
    intros HV Hp. pose proof (rel_norm t0 d e dirs V J Hp HV) as HN. pose proof (sqrt_lt_R0 _ Hp) as Hn.
    unfold small. cbv zeta.
    apply (relQ_if t0 d (fun s => gt RN (gnorm RN (V s)) 0) (jet_gt (gnorm JN J) (jet_lit 0))
      (fun s => GQ (cos (gnorm RN (V s))) (sin (gnorm RN (V s)) / gnorm RN (V s) * gx (V s)) (sin (gnorm RN (V s)) / gnorm RN (V s) * gy (V s)) (sin (gnorm RN (V s)) / gnorm RN (V s) * gz (V s)))).
    - apply near_gt with (f := fun s => gnorm RN (V s)) (g := fun _ => 0) (d := d); [ exact HN | apply rel_const | ].
      apply Rgt_not_eq. exact Hn.
    - intros _. destruct HV as (X & Y & Z).
      assert (HR : rel t0 d (fun s => sin (gnorm RN (V s)) / gnorm RN (V s)) (jet_div (jet_sin (gnorm JN J)) (gnorm JN J))).
      { apply rel_div; [ apply Rgt_not_eq; exact Hn | apply rel_sin; exact HN | exact HN ]. }
      split; split; cbn [gw gi gj gk].
      + apply rel_cos. exact HN.
      + apply (rel_mul t0 d _ _ _ _ HR X).
      + apply (rel_mul t0 d _ _ _ _ HR Y).
      + apply (rel_mul t0 d _ _ _ _ HR Z).
    - unfold jet_gt. cbn [ja jet_lit]. rewrite <- (proj1 HN). destruct (Rlt_dec 0 (gnorm RN (V t0))); [ discriminate | contradiction ].
  Qed.
End Plus.
Lemma small_jet e dirs (J : gvec jet) : ja (gx J) = 0 -> ja (gy J) = 0 -> ja (gz J) = 0 ->
  small (jet_num e dirs) J = GQ (jet_lit 1) (gx J) (gy J) (gz J).
Proof.
  intros X Y Z. unfold small. cbv zeta. cbn [jet_num T gt lit nsqrt add mul]. unfold jet_gt, jet_sqrt, jet_add, jet_mul. cbn [ja jet_lit].
  rewrite X, Y, Z. replace (0 * 0 + 0 * 0 + 0 * 0) with 0 by ring. rewrite sqrt_0. destruct (Rlt_dec 0 0); [ lra | reflexivity ].
Qed.
(** A turn about one axis *)
Lemma small_axis s (k : nat) :
  small RN (G3 (if Nat.eqb k 0 then s else 0) (if Nat.eqb k 1 then s else 0) (if Nat.eqb k 2 then s else 0)) =
  if Nat.ltb k 3 then GQ (cos s) (if Nat.eqb k 0 then sin s else 0) (if Nat.eqb k 1 then sin s else 0) (if Nat.eqb k 2 then sin s else 0)
  else GQ 1 0 0 0.
Proof.
  assert (S1 : forall u, small RN (G3 0 0 0) = u -> u = GQ 1 0 0 0).
  { intros u <-. unfold small. cbn. replace (0 * 0 + 0 * 0 + 0 * 0) with 0 by ring. rewrite sqrt_0. destruct (Rlt_dec 0 0); [ lra | reflexivity ]. }
  assert (P : forall n, n = s * s -> (if Rlt_dec 0 (sqrt n) then true else false) = true ->
     cos (sqrt n) = cos s /\ forall z, z = s -> sin (sqrt n) / sqrt n * z = sin s).
  { intros n -> H. rewrite sqrt_sq in *. destruct (Rlt_dec 0 (Rabs s)) as [ L | L ]; [ | discriminate ].
    destruct (abs_cases s) as [ [ A -> ] | [ [ A B ] | [ A -> ] ] ].
    - split; [ reflexivity | ]. intros z ->. field. lra.
    - rewrite B in L. lra.
    - split; [ apply cos_neg | ]. intros z ->. rewrite sin_neg. field. lra. }
  assert (Z : forall n, n = s * s -> (if Rlt_dec 0 (sqrt n) then true else false) = false -> s = 0).
  { intros n -> H. rewrite sqrt_sq in H. destruct (Rlt_dec 0 (Rabs s)) as [ L | L ]; [ discriminate | ].
    destruct (abs_cases s) as [ [ A B ] | [ [ A B ] | [ A B ] ] ]; rewrite B in L; lra. }
  destruct k as [ | [ | [ | k ] ] ]; cbn [Nat.eqb Nat.ltb Nat.leb].
  4: { apply S1. reflexivity. }
  all: unfold small; cbv zeta; cbn [RN real_num T gt lit nsqrt add mul gx gy gz nsin ncos div].
  all: match goal with |- context [sqrt ?n] => specialize (P n ltac:(ring)); specialize (Z n ltac:(ring)) end.
  all: match goal with |- (if ?c then _ else _) = _ => destruct c end.
  all: first [ destruct (P eq_refl) as [-> Q]; rewrite (Q s eq_refl); f_equal; ring | rewrite (Z eq_refl), cos_0, sin_0; reflexivity ].
Qed.
Lemma axis_read x b i (Z : read3 x 1 = V3 0 0 0) s : gread RN (with_value x b i s) 1 0 =
  let k := if Nat.eqb b 1 then i else 3%nat in
  G3 (if Nat.eqb k 0 then s else 0) (if Nat.eqb k 1 then s else 0) (if Nat.eqb k 2 then s else 0).
Proof.
  injection Z as Z0 Z1 Z2. unfold gread. rewrite !with_at. cbn [Nat.add]. rewrite Z0, Z1, Z2.
  destruct (Nat.eqb b 1); cbn [andb Nat.eqb]; reflexivity.
Qed.

Lemma plus_derivatives e dirs x :
  gives_derivatives (fun y => coeffs (quaternion_plus (stored_quat y 0) (read3 y 1))) x (gplus_arrays (jet_num e dirs) (seed x)).
Proof.
  apply (gives_ext _ (gplus_arrays RN)).
  { intros y. unfold gplus_arrays. cbv zeta.
    change (read3 y 1) with (v_of (gread RN y 1 0)). change (stored_quat y 0) with (q_of (GQ (y 0%nat 3%nat) (y 0%nat 0%nat) (y 0%nat 1%nat) (y 0%nat 2%nat))).
    rewrite <- q_plus. reflexivity. }
  apply gives_relL. intros b i. unfold gplus_arrays. cbv zeta.
  assert (H : relQ (x b i) (b, i) (fun s => gquaternion_plus RN (GQ (with_value x b i s 0%nat 3%nat) (with_value x b i s 0%nat 0%nat)
        (with_value x b i s 0%nat 1%nat) (with_value x b i s 0%nat 2%nat)) (gread RN (with_value x b i s) 1 0))
      (gquaternion_plus (jet_num e dirs) (GQ (seed x 0%nat 3%nat) (seed x 0%nat 0%nat) (seed x 0%nat 1%nat) (seed x 0%nat 2%nat))
        (gread (jet_num e dirs) (seed x) 1 0))).
  { rewrite plus_small. apply (relQ_mul (x b i) (b, i) e dirs (fun s => small RN (gread RN (with_value x b i s) 1 0))
      (fun s => GQ (with_value x b i s 0%nat 3%nat) (with_value x b i s 0%nat 0%nat) (with_value x b i s 0%nat 1%nat) (with_value x b i s 0%nat 2%nat))).
    2: { split; split; apply rel_seed. }
    destruct (Req_dec (dot (read3 x 1) (read3 x 1)) 0) as [ Z | NZ ].
    - assert (Z3 : read3 x 1 = V3 0 0 0).
      { unfold read3, dot in *. cbn [vx vy vz] in Z. f_equal; nra. }
      replace (fun s => small RN (gread RN (with_value x b i s) 1 0)) with (fun s => let k := if Nat.eqb b 1 then i else 3%nat in
        if Nat.ltb k 3 then GQ (cos s) (if Nat.eqb k 0 then sin s else 0) (if Nat.eqb k 1 then sin s else 0) (if Nat.eqb k 2 then sin s else 0)
        else GQ 1 0 0 0).
      2: { extensionality s. rewrite (axis_read x b i Z3 s). cbv zeta. symmetry. apply small_axis. }
      injection Z3 as Z0 Z1 Z2. rewrite small_jet by (unfold gread, seed; cbn [gx gy gz ja Nat.add]; assumption).
      unfold gread. cbn [gx gy gz Nat.add]. cbv zeta.
      assert (C0 : x b i = 0 -> rel (x b i) (b, i) cos (jet_lit 1)).
      { intros E. split; [ rewrite E; exact cos_0 | ]. exists 0. split; [ reflexivity | ]. pose proof (derivable_pt_lim_cos (x b i)) as D.
        rewrite E, sin_0, Ropp_0 in D. rewrite E. exact D. }
      assert (S0 : x b i = 0 -> forall c k, c = b -> k = i -> rel (x b i) (b, i) sin (seed x c k)).
      { intros E c k -> ->. split; [ unfold seed; cbn [ja]; rewrite E; exact sin_0 | ]. exists 1. split; [ unfold seed; cbn [jv fst snd]; rewrite !Nat.eqb_refl; reflexivity | ].
        pose proof (derivable_pt_lim_sin (x b i)) as D. rewrite E, cos_0 in D. rewrite E. exact D. }
      assert (K0 : forall c k, x c k = 0 -> andb (Nat.eqb b c) (Nat.eqb i k) = false -> rel (x b i) (b, i) (fun _ => 0) (seed x c k)).
      { intros c k E F. pose proof (rel_seed x b i c k) as R. apply (rel_ext _ _ _ (fun s => with_value x b i s c k)); [ | exact R ].
        intros s. rewrite with_at, F. auto. }
      destruct (Nat.eqb_spec b 1) as [ -> | Nb ].
      + destruct i as [ | [ | [ | i ] ] ]; cbn [Nat.eqb Nat.ltb Nat.leb]; split; split; cbn [gw gi gj gk];
          first [ apply C0; assumption | apply S0; [ assumption | reflexivity | reflexivity ] | apply K0; [ assumption | reflexivity ] | apply rel_const ].
      + cbn [Nat.eqb Nat.ltb Nat.leb]. apply Nat.eqb_neq in Nb. split; split; cbn [gw gi gj gk];
          first [ apply K0; [ assumption | rewrite Nb; reflexivity ] | apply rel_const ].
    - apply relQ_small_far; [ apply rel3_read | ]. rewrite read_same. change (0 < dot (read3 x 1) (read3 x 1)).
      assert (0 <= dot (read3 x 1) (read3 x 1)) by (unfold dot; nra). lra. }
  destruct H as [[A B] [C D]]. unfold gplus_arrays. repeat apply relL_cons; try apply relL_nil; assumption.
Qed.

(** ** The pose from points, at no rotation *)
Section PnpZero.
  Variables (e : R) (dirs : list (nat * nat)).
  Notation JN := (jet_num e dirs).
  Lemma nan_mul_l f g : nan f -> nan (jet_mul f g).
  Proof. intros H d. unfold jet_mul. cbn [jv]. rewrite H. cbn [xmul]. apply xadd_nan. Qed.
  Lemma nan_mul_r f g : nan g -> nan (jet_mul f g).
  Proof. intros H d. unfold jet_mul. cbn [jv]. rewrite H. cbn [xmul]. reflexivity. Qed.
  Lemma nan_add_l f g : nan f -> nan (jet_add f g).
  Proof. intros H d. unfold jet_add. cbn [jv]. rewrite H. reflexivity. Qed.
  Lemma nan_add_r f g : nan g -> nan (jet_add f g).
  Proof. intros H d. unfold jet_add. cbn [jv]. rewrite H. apply xadd_nan. Qed.
  Lemma nan_sub_l f g : nan f -> nan (jet_sub f g).
  Proof. intros H d. unfold jet_sub, xsub. cbn [jv]. rewrite H. reflexivity. Qed.
  Lemma nan_div_l f g : nan f -> nan (jet_div f g).
  Proof. intros H d. unfold jet_div, xsub. cbn [jv]. rewrite H. reflexivity. Qed.
  Lemma nan_sin f : nan f -> nan (jet_sin f).
  Proof. intros H d. unfold jet_sin. cbn [jv]. rewrite H. apply xmul_nan. Qed.
  Lemma nan_cos f : nan f -> nan (jet_cos f).
  Proof. intros H d. unfold jet_cos. cbn [jv]. rewrite H. apply xmul_nan. Qed.
  Definition nan3 (v : gvec jet) : Prop := nan (gx v) /\ nan (gy v) /\ nan (gz v).
  Ltac nans := cbn [jet_num T add sub mul div lit nsin ncos];
    repeat first [ assumption | (apply nan_add_r; solve [nans]) | (apply nan_add_l; solve [nans]) | (apply nan_sub_l; solve [nans])
      | (apply nan_mul_l; solve [nans]) | (apply nan_mul_r; solve [nans]) | apply nan_sin | apply nan_cos ].
  Lemma nan_matrix a v : nan a -> let m := gaa_matrix JN a v in
    (nan (g00 m) /\ nan (g01 m) /\ nan (g02 m)) /\ (nan (g10 m) /\ nan (g11 m) /\ nan (g12 m)) /\ (nan (g20 m) /\ nan (g21 m) /\ nan (g22 m)).
  Proof.
    intros H. pose proof (nan_sin a H) as Hs. pose proof (nan_cos a H) as Hc.
    assert (H1 : nan (jet_sub (jet_lit 1) (jet_cos a))). { intros d. unfold jet_sub, xsub. cbn [jv jet_lit]. rewrite Hc. reflexivity. }
    unfold gaa_matrix. cbv zeta. cbn [g00 g01 g02 g10 g11 g12 g20 g21 g22 jet_num T add sub mul lit nsin ncos].
    repeat match goal with |- _ /\ _ => split end;
      first [ apply nan_add_l | apply nan_sub_l ]; apply nan_mul_l, nan_mul_l; exact H1.
  Qed.
  Lemma pnp_zero_point x p : read3 x 0 = V3 0 0 0 -> nan3 (giso_app JN (gpnp_transform JN (seed x)) (gcast JN p)).
  Proof.
    intros Z. injection Z as Z0 Z1 Z2. unfold gpnp_transform. cbv zeta.
    assert (N : nan (gnorm JN (gread JN (seed x) 0 0))).
    { intros d. apply (norm_zero_nan e dirs (gread JN (seed x) 0 0) d); unfold gread, seed; cbn [gx gy gz ja jv Nat.add]; try assumption; eexists; reflexivity. }
    pose proof (nan_matrix _ (gnormalized JN (gread JN (seed x) 0 0)) N) as M. cbv zeta in M. set (m := gaa_matrix JN _ _) in *. clearbody m.
    destruct M as ((M00 & M01 & M02) & (M10 & M11 & M12) & (M20 & M21 & M22)).
    unfold giso_app, giso_mul, giso_trans, giso_rot, gmmul, gmvec, gadd. cbn [glin gtr g00 g01 g02 g10 g11 g12 g20 g21 g22 gx gy gz gI3 g0 gcast].
    cbn [jet_num T add mul lit].
    repeat split; cbn [gx gy gz]; apply nan_add_l, nan_add_l, nan_add_l, nan_mul_l, nan_add_l, nan_add_l, nan_mul_r; assumption.
  Qed.
  Lemma no_derivatives_cons j J : nan j -> no_derivatives J -> no_derivatives (j :: J).
  Proof. intros H HJ [ | k ] j' E b i; [ injection E as <-; apply H | exact (HJ k j' E b i) ]. Qed.
  Lemma no_derivatives_nil : no_derivatives [].
  Proof. intros [ | k ] j E; discriminate. Qed.
  Lemma pnp3D_zero x p obs : read3 x 0 = V3 0 0 0 -> no_derivatives (gpnp_cost3D JN p obs (seed x)).
  Proof.
    intros Z. destruct (pnp_zero_point x p Z) as (X & Y & W). unfold gpnp_cost3D, point_error. cbn [jet_num T sub lit].
    repeat apply no_derivatives_cons; try apply no_derivatives_nil; apply nan_sub_l; assumption.
  Qed.
  Lemma pnp_zero x intr p obs : read3 x 0 = V3 0 0 0 -> no_derivatives (gpnp_cost JN intr p obs (seed x)).
  Proof.
    intros Z. pose proof (pnp_zero_point x p Z) as (X & Y & W). unfold gpnp_cost. cbv zeta.
    set (P := giso_app JN _ _) in *. clearbody P.
    assert (H : nan (g2x (gprojectPoint_eig JN intr P)) /\ nan (g2y (gprojectPoint_eig JN intr P))).
    { unfold gprojectPoint_eig. cbv zeta. destruct (gt JN _ _); unfold gmvec, gcastM; cbn [g00 g01 g02 g10 g11 g12 gx gy gz g2x g2y jet_num T add mul div lit].
      - split; [ apply nan_add_l, nan_add_l, nan_mul_r, nan_div_l; exact X | apply nan_add_l, nan_add_r, nan_mul_r, nan_div_l; exact Y ].
      - split; [ apply nan_add_l, nan_add_l, nan_mul_r; exact X | apply nan_add_l, nan_add_r, nan_mul_r; exact Y ]. }
    destruct H as [H1 H2]. repeat apply no_derivatives_cons; try apply no_derivatives_nil; apply nan_sub_l; assumption.
  Qed.
End PnpZero.

(** Yet the residual is differentiable there. *)
Lemma differentiable_relL F x : (forall b i, exists G J, (forall s, F (with_value x b i s) = G s) /\ relL (x b i) (b, i) G J) -> differentiable F x.
Proof.
  intros H k b i. destruct (H b i) as (G & J & E & L & HR). unfold partial.
  assert (EF : (fun s => nth k (F (with_value x b i s)) 0) = (fun s => nth k (G s) 0)) by (extensionality s; rewrite E; reflexivity).
  rewrite EF. destruct (Nat.lt_ge_cases k (length J)) as [ K | K ].
  - destruct (HR k K) as [_ (v & _ & D)]. exists v. exact D.
  - exists 0. replace (fun s => nth k (G s) 0) with (fun _ : R => 0); [ apply derivable_pt_lim_const | ].
    extensionality s. rewrite nth_overflow; [ reflexivity | ]. rewrite (L s). exact K.
Qed.
Lemma axis_read0 x b i (Z : read3 x 0 = V3 0 0 0) s : gread RN (with_value x b i s) 0 0 =
  let k := if Nat.eqb b 0 then i else 3%nat in
  G3 (if Nat.eqb k 0 then s else 0) (if Nat.eqb k 1 then s else 0) (if Nat.eqb k 2 then s else 0).
Proof.
  injection Z as Z0 Z1 Z2. unfold gread. rewrite !with_at. cbn [Nat.add]. rewrite Z0, Z1, Z2.
  destruct (Nat.eqb b 0); cbn [andb Nat.eqb]; reflexivity.
Qed.
Definition axis (k : nat) : gvec R := G3 (if Nat.eqb k 0 then 1 else 0) (if Nat.eqb k 1 then 1 else 0) (if Nat.eqb k 2 then 1 else 0).
Lemma matrix_axis s k (v := G3 (if Nat.eqb k 0 then s else 0) (if Nat.eqb k 1 then s else 0) (if Nat.eqb k 2 then s else 0)) :
  gaa_matrix RN (gnorm RN v) (gnormalized RN v) = if Nat.ltb k 3 then gaa_matrix RN s (axis k) else gI3 RN.
Proof.
  assert (D : gdot RN v v = if Nat.ltb k 3 then s * s else 0).
  { unfold gdot, v. destruct k as [ | [ | [ | k ] ] ]; cbn [Nat.eqb Nat.ltb Nat.leb gx gy gz RN real_num T add mul]; ring. }
  unfold gnormalized, gnorm. cbv zeta. cbn [RN real_num T gt lit nsqrt div]. rewrite D.
  destruct (Nat.ltb_spec k 3) as [ K | K ].
  - rewrite sqrt_sq. destruct (Rlt_dec 0 (s * s)) as [ L | L ].
    + destruct (abs_cases s) as [ [ A -> ] | [ [ A B ] | [ A -> ] ] ]; [ | subst; lra | ].
      * f_equal. unfold v, axis. cbn [gx gy gz]. destruct k as [ | [ | [ | k ] ] ]; cbn [Nat.eqb]; f_equal; field; lra.
      * unfold gaa_matrix. cbv zeta. cbn [RN real_num T nsin ncos mul add sub lit]. rewrite sin_neg, cos_neg. unfold v, axis. cbn [gx gy gz].
        destruct k as [ | [ | [ | k ] ] ]; cbn [Nat.eqb]; f_equal; field; lra.
    + assert (s = 0) by nra. subst s. rewrite Rabs_R0. unfold gaa_matrix, v, axis. cbv zeta. cbn [RN real_num T nsin ncos mul add sub lit gx gy gz].
      rewrite sin_0, cos_0. destruct k as [ | [ | [ | k ] ] ]; cbn [Nat.eqb]; f_equal; ring.
  - rewrite sqrt_0. destruct (Rlt_dec 0 0); [ lra | ]. unfold gaa_matrix, v, gI3. cbv zeta. cbn [RN real_num T nsin ncos mul add sub lit gx gy gz].
    rewrite sin_0, cos_0. destruct k as [ | [ | [ | k ] ] ]; [ lia .. | ]. cbn [Nat.eqb]. f_equal; ring.
Qed.
Lemma relI_pnp_zero x b i : read3 x 0 = V3 0 0 0 ->
  exists J, relI (x b i) (b, i) (fun s => gpnp_transform RN (with_value x b i s)) J.
Proof.
  intros Z. pose (JN := jet_num 0 []). pose (k := if Nat.eqb b 0 then i else 3%nat).
  pose (JM := if Nat.ltb k 3 then gaa_matrix JN (seed x b i) (G3 (jet_lit (gx (axis k))) (jet_lit (gy (axis k))) (jet_lit (gz (axis k)))) else gI3 JN).
  exists (giso_mul JN (giso_trans JN (gread JN (seed x) 1 0)) (giso_rot JN JM)).
  replace (fun s => gpnp_transform RN (with_value x b i s)) with
    (fun s => giso_mul RN (giso_trans RN (gread RN (with_value x b i s) 1 0)) (giso_rot RN (if Nat.ltb k 3 then gaa_matrix RN s (axis k) else gI3 RN))).
  2: { extensionality s. unfold gpnp_transform. cbv zeta. rewrite (axis_read0 x b i Z s). cbv zeta. fold k. rewrite matrix_axis. reflexivity. }
  apply relI_mul; [ apply relI_trans, rel3_read | ]. apply relI_rot. unfold JM. destruct (Nat.ltb k 3).
  - apply relM_aa.
    + apply (rel_ext _ _ _ (fun s => with_value x b i s b i)); [ | apply rel_seed ]. intros s. rewrite with_at, !Nat.eqb_refl. reflexivity.
    + split; [ | split ]; apply rel_const.
  - exact (proj1 (relI_id (x b i) (b, i) 0 [])).
Qed.
Lemma pnp_zero_differentiable x intr p obs : read3 x 0 = V3 0 0 0 -> vz (iso_app (pnp_transform (read3 x 0, read3 x 1)) p) <> 1 / 10 ^ 10 ->
  differentiable (fun y => pnp_cost intr p obs (read3 y 0, read3 y 1)) x.
Proof.
  intros Z Hz. apply differentiable_relL. intros b i. destruct (relI_pnp_zero x b i Z) as [J HJ].
  exists (fun s => gpnp_cost RN intr p obs (with_value x b i s)).
  destruct (rel2_project_eig (x b i) (b, i) 0 [] intr
      (fun s => giso_app RN (gpnp_transform RN (with_value x b i s)) (gcast RN p))
      (giso_app (jet_num 0 []) J (gcast (jet_num 0 []) p))) as [A B].
  - rewrite with_same. change (read3 x 0, read3 x 1) with (pnp_at x) in Hz. rewrite <- i_pnp, <- (v_cast p), <- i_app in Hz. exact Hz.
  - apply rel3_app; [ exact HJ | apply rel3_cast ].
  - eexists. split.
    + intros s. set (y := with_value x b i s). change (read3 y 0, read3 y 1) with (pnp_at y).
      unfold gpnp_cost, pnp_cost. cbv zeta. rewrite <- i_pnp. rewrite <- (v_cast p) at 1 2. rewrite <- i_app, <- v_project_eig. reflexivity.
    + unfold gpnp_cost. cbv zeta.
      apply relL_cons; [ apply rel_sub; [ exact A | apply rel_const ] | ].
      apply relL_cons; [ apply rel_sub; [ exact B | apply rel_const ] | ]. apply relL_nil.
Qed.
Lemma pnp3D_zero_differentiable x p obs : read3 x 0 = V3 0 0 0 ->
  differentiable (fun y => pnp_cost3D p obs (read3 y 0, read3 y 1)) x.
Proof.
  intros Z. apply differentiable_relL. intros b i. destruct (relI_pnp_zero x b i Z) as [J HJ].
  exists (fun s => gpnp_cost3D RN p obs (with_value x b i s)). eexists. split.
  - intros s. set (y := with_value x b i s). change (read3 y 0, read3 y 1) with (pnp_at y).
    unfold gpnp_cost3D, pnp_cost3D. cbv zeta. rewrite <- i_pnp, point_eq, i_app, v_cast. reflexivity.
  - unfold gpnp_cost3D. apply (relL_point (x b i) (b, i) 0 []). apply (rel3_app (x b i) (b, i) 0 []); [ exact HJ | apply (rel3_cast (x b i) (b, i) 0 []) ].
Qed.

(** ** Kinematic calibration *)
Lemma create_flat t a : norm a <= DBL_EPS -> createTransform t a = createTransform t (V3 0 0 0).
Proof.
  intros H. unfold createTransform. destruct (Rlt_dec DBL_EPS (norm a)); [ lra | ]. pose proof DBL_EPS_pos.
  destruct (Rlt_dec DBL_EPS (norm (V3 0 0 0))) as [ L | L ]; [ | reflexivity ]. exfalso. unfold norm, dot in L. cbn [vx vy vz] in L.
  replace (0 * 0 + 0 * 0 + 0 * 0) with 0 in L by ring. rewrite sqrt_0 in L. lra.
Qed.
Lemma norm0 : norm (V3 0 0 0) = 0.
Proof. unfold norm, dot. cbn [vx vy vz]. replace (0 * 0 + 0 * 0 + 0 * 0) with 0 by ring. apply sqrt_0. Qed.
Lemma camera_flat cc tc jc jt x y b : turn_block b -> read3 x b = V3 0 0 0 -> (forall b' i, b' <> b -> y b' i = x b' i) ->
  norm (read3 y b) <= DBL_EPS -> dual_camera_to_target cc tc jc jt y numbered = dual_camera_to_target cc tc jc jt x numbered.
Proof.
  intros Hb Z E Hn. unfold dual_camera_to_target, createTransform_at, numbered. cbn [idx nth_error bind Nat.add].
  assert (E0 : y 0%nat = x 0%nat) by (extensionality i; apply E; destruct Hb as [ -> | [ -> | -> ] ]; lia).
  assert (E1 : y 1%nat = x 1%nat) by (extensionality i; apply E; destruct Hb as [ -> | [ -> | -> ] ]; lia).
  unfold map_offsets. rewrite E0, E1.
  assert (ET : forall k, k <> b -> read3 y k = read3 x k) by (intros k Hk; unfold read3; rewrite !E by exact Hk; reflexivity).
  assert (EB : forall t, createTransform t (read3 y b) = createTransform t (read3 x b)) by (intros t; rewrite (create_flat t _ Hn), Z; reflexivity).
  destruct Hb as [ -> | [ -> | -> ] ].
  - rewrite !(ET 2%nat), !(ET 4%nat), !(ET 5%nat), !(ET 6%nat), !(ET 7%nat), EB by lia. reflexivity.
  - rewrite !(ET 2%nat), !(ET 4%nat), !(ET 3%nat), !(ET 6%nat), !(ET 7%nat), EB by lia. reflexivity.
  - rewrite !(ET 2%nat), !(ET 4%nat), !(ET 3%nat), !(ET 6%nat), !(ET 5%nat), EB by lia. reflexivity.
Qed.
Lemma dual_flat obs p intr cc tc jc jt x y b : turn_block b -> read3 x b = V3 0 0 0 -> (forall b' i, b' <> b -> y b' i = x b' i) ->
  norm (read3 y b) <= DBL_EPS -> dualCost2D3D obs p intr cc tc jc jt numbered y = dualCost2D3D obs p intr cc tc jc jt numbered x.
Proof. intros Hb Z E Hn. unfold dualCost2D3D. rewrite (camera_flat cc tc jc jt x y b Hb Z E Hn). reflexivity. Qed.
Lemma pose_flat me cc tc w x y b : turn_block b -> read3 x b = V3 0 0 0 -> (forall b' i, b' <> b -> y b' i = x b' i) ->
  norm (read3 y b) <= DBL_EPS -> dualCostPose6D me cc tc w numbered y = dualCostPose6D me cc tc w numbered x.
Proof. intros Hb Z E Hn. unfold dualCostPose6D. rewrite (camera_flat cc tc _ _ x y b Hb Z E Hn). reflexivity. Qed.
Lemma small_element x b i s : read3 x b = V3 0 0 0 -> Rabs s <= DBL_EPS -> norm (read3 (with_value x b i s) b) <= DBL_EPS.
Proof.
  intros Z Hs. injection Z as Z0 Z1 Z2. unfold read3. rewrite !with_at, Nat.eqb_refl. cbn [andb]. rewrite Z0, Z1, Z2.
  pose proof DBL_EPS_pos.
  destruct i as [ | [ | [ | i ] ] ]; cbn [Nat.eqb]; unfold norm, dot; cbn [vx vy vz].
  4: { replace (0 * 0 + 0 * 0 + 0 * 0) with 0 by ring. rewrite sqrt_0. lra. }
  all: match goal with |- sqrt ?q <= _ => replace q with (s * s) by ring end; rewrite sqrt_sq; exact Hs.
Qed.
Lemma flat_derivatives F x J b : read3 x b = V3 0 0 0 ->
  (forall y, (forall b' i, b' <> b -> y b' i = x b' i) -> norm (read3 y b) <= DBL_EPS -> F y = F x) ->
  gives_derivatives_res F x J -> exists L, J = Ok L /\ forall k j, nth_error L k = Some j -> forall i, (i < 3)%nat -> jv j (b, i) = Fin 0.
Proof.
  intros Z Flat (G & L & EF & EJ & H1 & H2). exists L. split; [ exact EJ | ]. intros k j Hj i Hi.
  destruct (H2 k j Hj b i) as (d & Ed & D). rewrite Ed. f_equal. unfold partial in D.
  assert (X0 : x b i = 0). { injection Z as Z0 Z1 Z2. destruct i as [ | [ | [ | i ] ] ]; try assumption. lia. }
  rewrite X0 in D. apply (uniqueness_limite (fun s => nth k (G (with_value x b i s)) 0) 0); [ exact D | ].
  apply (lim_near 0 _ (fun _ => nth k (G x) 0)); [ | apply derivable_pt_lim_const ].
  exists (mkposreal _ DBL_EPS_pos). cbn. intros s Hs. rewrite Rminus_0_r in Hs.
  assert (E : G (with_value x b i s) = G x); [ | rewrite E; reflexivity ].
  enough (K : Ok (G (with_value x b i s)) = Ok (G x)) by (injection K; auto). rewrite <- !EF. apply Flat.
  - intros b' i' N. rewrite with_at. destruct (Nat.eqb_spec b b') as [ <- | ]; [ congruence | reflexivity ].
  - apply small_element; [ exact Z | lra ].
Qed.

(** A target seen by the camera that turns about the axis of the camera *)
Definition ex_flat : values := fun b i => if andb (Nat.eqb b 4) (Nat.eqb i 2) then 1 else 0.
Definition ex_empty : dh_chain := DHChain [] iso_id.
Definition ex_intr1 : intrinsics := Intr 1 1 0 0.
Lemma create_zero : createTransform (V3 0 0 0) (V3 0 0 0) = iso_id.
Proof.
  unfold createTransform. rewrite norm0. pose proof DBL_EPS_pos. destruct (Rlt_dec DBL_EPS 0); [ lra | ].
  unfold iso_mul, iso_trans, iso_id, I3, vzero, mmul, mvec, vadd. cbn [lin tr m00 m01 m02 m10 m11 m12 m20 m21 m22 vx vy vz]. f_equal; f_equal; ring.
Qed.
Lemma create_axis t s : DBL_EPS < Rabs s -> createTransform t (V3 0 0 s) = Iso (M3 (cos s) (- sin s) 0 (sin s) (cos s) 0 0 0 1) t.
Proof.
  intros Hs. unfold createTransform. cbv zeta.
  assert (N : norm (V3 0 0 s) = Rabs s).
  { unfold norm, dot. cbn [vx vy vz]. replace (0 * 0 + 0 * 0 + s * s) with (s * s) by ring. apply sqrt_sq. }
  rewrite N. destruct (Rlt_dec DBL_EPS (Rabs s)); [ | lra ]. rewrite <- N.
  pose proof (matrix_axis s 2) as M. cbn [Nat.eqb Nat.ltb Nat.leb] in M. apply (f_equal m_of) in M. rewrite !m_aa, v_normalized in M.
  change (gnorm RN (G3 0 0 s)) with (norm (V3 0 0 s)) in M. change (v_of (G3 0 0 s)) with (V3 0 0 s) in M. rewrite M. destruct t as [a b c].
  unfold iso_mul, iso_trans, iso_id, iso_rot, I3, vzero, mmul, mvec, vadd, aa_matrix, axis, v_of.
  cbn [lin tr m00 m01 m02 m10 m11 m12 m20 m21 m22 vx vy vz gx gy gz Nat.eqb]. f_equal; f_equal; ring.
Qed.
Lemma ex_flat_camera y : (forall k, In k [2; 3; 6; 7]%nat -> read3 y k = V3 0 0 0) ->
  dual_camera_to_target ex_empty ex_empty [] [] y numbered = Ok (createTransform (read3 y 4) (read3 y 5)).
Proof.
  intros H. unfold dual_camera_to_target, createTransform_at, numbered. cbn [idx nth_error bind Nat.add].
  unfold getFK, ex_empty, dof, map_offsets. cbn [length transforms rows Nat.ltb Nat.leb seq foldM bind base_offset].
  rewrite !(H 2%nat), !(H 3%nat), !(H 6%nat), !(H 7%nat) by (cbn; lia). rewrite create_zero. f_equal.
  assert (E : iso_inv iso_id = iso_id) by (rewrite <- (iso_mul_id_r (iso_inv iso_id)); apply iso_inv_l, rigid_id).
  rewrite !iso_mul_id_l, E, iso_mul_id_l. reflexivity.
Qed.
Lemma ex_flat_blocks s : forall k, In k [2; 3; 6; 7]%nat -> read3 (with_value ex_flat 5 2 s) k = V3 0 0 0.
Proof. intros k [ <- | [ <- | [ <- | [ <- | [] ] ] ] ]; reflexivity. Qed.
Lemma project_depth1 a b : projectPoint_eig ex_intr1 (V3 a b 1) = V2 a b.
Proof.
  unfold projectPoint_eig, ex_intr1. cbn [vx vy vz fx fy cx cy]. destruct (Rlt_dec (1 / 10 ^ 10) (1 - 0)) as [ _ | L ]; [ | exfalso; apply L; lra ].
  unfold mvec. cbn. f_equal; field.
Qed.
Lemma ex_flat_cost s : DBL_EPS < Rabs s -> dualCost2D3D (V2 0 0) (V3 1 0 0) ex_intr1 ex_empty ex_empty [] [] numbered (with_value ex_flat 5 2 s) =
  Ok [cos s; sin s].
Proof.
  intros Hs. unfold dualCost2D3D. rewrite ex_flat_camera by apply ex_flat_blocks. cbn [bind].
  change (read3 (with_value ex_flat 5 2 s) 4) with (V3 0 0 1). change (read3 (with_value ex_flat 5 2 s) 5) with (V3 0 0 s).
  rewrite create_axis by exact Hs. cbv zeta.
  replace (iso_app _ _) with (V3 (cos s) (sin s) 1) by (unfold iso_app, mvec, vadd; cbn; f_equal; ring).
  rewrite project_depth1. cbn [px py]. f_equal. f_equal; [ ring | f_equal; ring ].
Qed.
Lemma ex_flat_cost0 : dualCost2D3D (V2 0 0) (V3 1 0 0) ex_intr1 ex_empty ex_empty [] [] numbered ex_flat = Ok [1; 0].
Proof.
  unfold dualCost2D3D. rewrite ex_flat_camera by (intros k [ <- | [ <- | [ <- | [ <- | [] ] ] ] ]; reflexivity). cbn [bind].
  change (read3 ex_flat 4) with (V3 0 0 1). change (read3 ex_flat 5) with (V3 0 0 0).
  unfold createTransform. rewrite norm0. pose proof DBL_EPS_pos. destruct (Rlt_dec DBL_EPS 0); [ lra | ]. cbv zeta.
  replace (iso_app _ _) with (V3 1 0 1) by (unfold iso_app, iso_mul, iso_id, iso_trans, mvec, mmul, I3, vadd; cbn; f_equal; ring).
  rewrite project_depth1. cbn [px py]. f_equal. f_equal; [ ring | f_equal; ring ].
Qed.
Definition ex_flat_residual (y : values) : R :=
  match dualCost2D3D (V2 0 0) (V3 1 0 0) ex_intr1 ex_empty ex_empty [] [] numbered y with Ok l => nth 1 l 0 | _ => 0 end.
Lemma ex_flat_turning : turning_derivative ex_flat_residual ex_flat 5 2 1.
Proof.
  exists sin. split; [ | split ].
  - intros s Hs. unfold ex_flat_residual. rewrite (ex_flat_cost s Hs). reflexivity.
  - unfold ex_flat_residual. rewrite ex_flat_cost0, sin_0. reflexivity.
  - rewrite <- cos_0. apply derivable_pt_lim_sin.
Qed.
Lemma ex_flat_jets e dirs : 0 <= e <= DBL_EPS ->
  exists L, gdualCost2D3D (jet_num e dirs) (V2 0 0) (V3 1 0 0) ex_intr1 ex_empty ex_empty [] [] (seed ex_flat) = Ok L /\
  forall k j, nth_error L k = Some j -> forall i, (i < 3)%nat -> jv j (5%nat, i) = Fin 0.
Proof.
  intros He. eapply (flat_derivatives (dualCost2D3D (V2 0 0) (V3 1 0 0) ex_intr1 ex_empty ex_empty [] [] numbered) ex_flat _ 5).
  - reflexivity.
  - intros y E Hn. apply dual_flat with (b := 5%nat); [ right; left; reflexivity | reflexivity | exact E | exact Hn ].
  - eapply dual_derivatives; [ exact He | left; reflexivity | left; reflexivity | left; reflexivity | apply ex_flat_camera | ].
    + intros k [ <- | [ <- | [ <- | [ <- | [] ] ] ] ]; reflexivity.
    + change (read3 ex_flat 4) with (V3 0 0 1). change (read3 ex_flat 5) with (V3 0 0 0).
      unfold createTransform. rewrite norm0. pose proof DBL_EPS_pos. destruct (Rlt_dec DBL_EPS 0); [ lra | ].
      unfold iso_app, iso_mul, iso_id, iso_trans, mvec, mmul, I3, vadd; cbn. lra.
Qed.

(** ** The start *)
Lemma guess_zero g : is_rot (lin g) -> guess_aa g = V3 0 0 0 <-> lin g = I3.
Proof.
  intros H. destruct (aa_of_mat_spec (lin g) H) as (U & A & M). unfold guess_aa. cbv zeta.
  set (a := aa_angle (aa_of_mat (lin g))) in *. set (u := aa_axis (aa_of_mat (lin g))) in *. clearbody a u. split.
  - intros Z. rewrite <- M. destruct (Req_dec a 0) as [ -> | N ]; [ apply aa_matrix_0 | ]. exfalso.
    unfold vscale in Z. injection Z as X Y W. unfold dot in U.
    destruct (Rmult_integral _ _ X); [ contradiction | ]. destruct (Rmult_integral _ _ Y); [ contradiction | ].
    destruct (Rmult_integral _ _ W); [ contradiction | ]. nra.
  - intros E. assert (a = 0).
    { apply cos_inj; [ exact A | pose proof PI_RGT_0; lra | ]. pose proof (f_equal trace M) as T. rewrite trace_aa in T by exact U.
      rewrite E in T. unfold trace, I3 in T. cbn [m00 m11 m22] in T. rewrite cos_0. lra. }
    subst a. unfold vscale. f_equal; ring.
Qed.
Lemma pnp_guess g : fst (pnp_start g) = guess_aa g.
Proof. reflexivity. Qed.
Lemma pnp_start_zero g x : is_rot (lin g) -> lin g = I3 -> (read3 x 0, read3 x 1) = pnp_start g -> read3 x 0 = V3 0 0 0.
Proof. intros H E S. apply (f_equal fst) in S. cbn [fst] in S. rewrite S. apply (proj2 (guess_zero g H) E). Qed.
Lemma pnp_start_turned g x : is_rot (lin g) -> lin g <> I3 -> (read3 x 0, read3 x 1) = pnp_start g -> read3 x 0 <> V3 0 0 0.
Proof. intros H E S. apply (f_equal fst) in S. cbn [fst] in S. rewrite S. intros Z. apply E, (proj1 (guess_zero g H) Z). Qed.
Lemma kin_start_zero com b : turn_block b -> lin (guess_of com b) = I3 -> read3 (kin_memory0 com) b = V3 0 0 0.
Proof.
  intros Hb E. assert (H : is_rot (lin (guess_of com b))) by (rewrite E; apply is_rot_I). pose proof (proj2 (guess_zero _ H) E) as Z.
  destruct Hb as [ -> | [ -> | -> ] ]; unfold read3, kin_memory0; cbn [guess_of] in Z; rewrite Z; reflexivity.
Qed.
Lemma zero_off : off_switch (V3 0 0 0).
Proof. unfold off_switch, dot. cbn [vx vy vz]. pose proof DBL_EPS_pos. lra. Qed.
