(** C96: when the pictures determine the intrinsics. *)
From Coq Require Import Reals Lra Psatz Arith Lia String List.
From Verif.Base Require Import Geom Outcome Matrix.
From Verif.Model Require Import Pose Covariance Solver HandEye BlockSolver Pnp Intrinsic.
From Verif.Spec Require Import CovarianceSpec PinHole Frames HomographySpec PnpSpec ReportSpec IntrinsicSpec UniqueSpec IntrinsicUniqueSpec.
From Verif.Proofs Require Import GeomLemmas PoseProofs HandEyeProofs UniqueLemmas IntrinsicProofs.
Import ListNotations.
Local Open Scope R_scope.

(** Scales of four points, for any affine map [T] that keeps three of them independent. *)
Lemma scales_equal_affine S T a b c d sa sb sc sd :
  vz a = 0 -> vz b = 0 -> vz c = 0 -> vz d = 0 -> general_position a b c d ->
  dot (iso_app T a) (cross (iso_app T b) (iso_app T c)) <> 0 ->
  iso_app S a = vscale sa (iso_app T a) -> iso_app S b = vscale sb (iso_app T b) ->
  iso_app S c = vscale sc (iso_app T c) -> iso_app S d = vscale sd (iso_app T d) ->
  sa = sd /\ sb = sd /\ sc = sd.
Proof.
  intros Za Zb Zc Zd (Nabc & Nabd & Nacd & Nbcd) D Ea Eb Ec Ed.
  pose proof (fourth_point S a b c d Za Zb Zc Zd) as FS. pose proof (fourth_point T a b c d Za Zb Zc Zd) as FT.
  rewrite Ea, Eb, Ec, Ed in FS.
  set (A := iso_app T a) in *; set (B := iso_app T b) in *; set (C := iso_app T c) in *; set (E := iso_app T d) in *.
  destruct (combination_zero (area d b c * (sa - sd)) (area a d c * (sb - sd)) (area a b d * (sc - sd)) A B C D) as (H1 & H2 & H3).
  { assert (Q : vscale sd (vscale (area a b c) E) = vscale (area a b c) (vscale sd E))
      by (unfold vscale; apply vec3_ext; cbn [vx vy vz]; ring).
    rewrite FT, FS in Q. clear - Q. clearbody A B C. unfold vadd, vscale, vzero in *; cbn [vx vy vz] in *.
    injection Q as QX QY QZ. apply vec3_ext; cbn [vx vy vz].
    - symmetry in QX; apply Rminus_diag_eq in QX; rewrite <- QX; ring.
    - symmetry in QY; apply Rminus_diag_eq in QY; rewrite <- QY; ring.
    - symmetry in QZ; apply Rminus_diag_eq in QZ; rewrite <- QZ; ring. }
  assert (N1 : area d b c <> 0) by (intros Q; apply Nbcd; unfold area in Q; lra).
  assert (N2 : area a d c <> 0) by (intros Q; apply Nacd; unfold area in Q; lra).
  assert (N3 : area a b d <> 0) by (intros Q; apply Nabd; unfold area in Q; lra).
  destruct (Rmult_integral _ _ H1); [tauto|]. destruct (Rmult_integral _ _ H2); [tauto|].
  destruct (Rmult_integral _ _ H3); [tauto|]. lra.
Qed.

(** From the rays of one camera to those of another: K'^-1 K. *)
Definition change (k k' : intrinsics) (v : vec3) : vec3 :=
  V3 (fx k / fx k' * vx v + (cx k - cx k') / fx k' * vz v) (fy k / fy k' * vy v + (cy k - cy k') / fy k' * vz v) (vz v).
Lemma change_scale k k' s v : change k k' (vscale s v) = vscale s (change k k' v).
Proof. unfold change, vscale; apply vec3_ext; cbn [vx vy vz]; ring. Qed.
Lemma change_sub k k' u v : change k k' (vsub u v) = vsub (change k k' u) (change k k' v).
Proof. unfold change, vsub; apply vec3_ext; cbn [vx vy vz]; ring. Qed.
Lemma same_pixel k k' P Q : fx k' <> 0 -> fy k' <> 0 -> vz P <> 0 -> vz Q <> 0 ->
  pinhole k' Q = pinhole k P -> Q = vscale (vz Q / vz P) (change k k' P).
Proof.
  unfold pinhole, vscale, change. intros Fx Fy HP HQ E. injection E as EX EY. apply vec3_ext; cbn [vx vy vz].
  - assert (H : fx k' * vx Q * vz P = fx k * vx P * vz Q + (cx k - cx k') * vz P * vz Q).
    { transitivity ((fx k' * (vx Q / vz Q) + cx k' - cx k') * (vz P * vz Q)); [ field; assumption | rewrite EX; field; assumption ]. }
    apply (Rmult_eq_reg_r (fx k' * vz P)); [ | apply Rmult_integral_contrapositive_currified; assumption ].
    transitivity (fx k' * vx Q * vz P); [ ring | rewrite H; field; auto ].
  - assert (H : fy k' * vy Q * vz P = fy k * vy P * vz Q + (cy k - cy k') * vz P * vz Q).
    { transitivity ((fy k' * (vy Q / vz Q) + cy k' - cy k') * (vz P * vz Q)); [ field; assumption | rewrite EY; field; assumption ]. }
    apply (Rmult_eq_reg_r (fy k' * vz P)); [ | apply Rmult_integral_contrapositive_currified; assumption ].
    transitivity (fy k' * vy Q * vz P); [ ring | rewrite H; field; auto ].
  - field; assumption.
Qed.

Definition change_iso (k k' : intrinsics) (T : iso) : iso :=
  let sx := change k k' (side_x T) in let sy := change k k' (side_y T) in let sz := change k k' (col2 (lin T)) in
  Iso (M3 (vx sx) (vx sy) (vx sz) (vy sx) (vy sy) (vy sz) (vz sx) (vz sy) (vz sz)) (change k k' (tr T)).
Lemma change_iso_app k k' T v : iso_app (change_iso k k' T) v = change k k' (iso_app T v).
Proof.
  unfold change_iso, change, iso_app, mvec, vadd, side_x, side_y, col2.
  cbn [lin tr vx vy vz m00 m01 m02 m10 m11 m12 m20 m21 m22]. apply vec3_ext; cbn [vx vy vz]; ring.
Qed.
Lemma change_triple k k' u v w : dot (change k k' u) (cross (change k k' v) (change k k' w)) =
  fx k / fx k' * (fy k / fy k') * dot u (cross v w).
Proof. unfold dot, cross, change; cbn [vx vy vz]; ring. Qed.

Lemma flat_sides T v : vz v = 0 -> mvec (lin T) v = vadd (vscale (vx v) (side_x T)) (vscale (vy v) (side_y T)).
Proof.
  intros Z. unfold mvec, vadd, vscale, side_x, side_y; cbn [vx vy vz]. rewrite Z. apply vec3_ext; cbn [vx vy vz]; ring.
Qed.
Lemma change_add k k' u v : change k k' (vadd u v) = vadd (change k k' u) (change k k' v).
Proof. unfold change, vadd; apply vec3_ext; cbn [vx vy vz]; ring. Qed.

Lemma two_combinations x1 y1 x2 y2 (P Q P' Q' : vec3) : x1 * y2 - x2 * y1 <> 0 ->
  vadd (vscale x1 P) (vscale y1 Q) = vadd (vscale x1 P') (vscale y1 Q') ->
  vadd (vscale x2 P) (vscale y2 Q) = vadd (vscale x2 P') (vscale y2 Q') -> P = P' /\ Q = Q'.
Proof.
  destruct P as [a b c], Q as [d e f], P' as [a' b' c'], Q' as [d' e' f'].
  unfold vadd, vscale; cbn [vx vy vz]; intros D E1 E2. injection E1 as X1 Y1 Z1; injection E2 as X2 Y2 Z2.
  assert (K : forall p q p' q', x1 * p + y1 * q = x1 * p' + y1 * q' -> x2 * p + y2 * q = x2 * p' + y2 * q' -> p = p' /\ q = q').
  { intros p q p' q' H1 H2. split; apply (Rmult_eq_reg_r (x1 * y2 - x2 * y1)); try assumption; apply Rminus_diag_uniq.
    - transitivity (y2 * ((x1 * p + y1 * q) - (x1 * p' + y1 * q')) - y1 * ((x2 * p + y2 * q) - (x2 * p' + y2 * q'))); [ ring | rewrite H1, H2; ring ].
    - transitivity (x1 * ((x2 * p + y2 * q) - (x2 * p' + y2 * q')) - x2 * ((x1 * p + y1 * q) - (x1 * p' + y1 * q'))); [ ring | rewrite H1, H2; ring ]. }
  destruct (K _ _ _ _ X1 X2), (K _ _ _ _ Y1 Y2), (K _ _ _ _ Z1 Z2). subst; auto.
Qed.

(** A picture seen alike by two cameras: the sides of the target agree up to one scale. *)
Lemma sides_agree k k' S T cs : rigid T -> ~ edge_on T -> fx k <> 0 -> fy k <> 0 -> fx k' <> 0 -> fy k' <> 0 ->
  four_flat_points (map in_target cs) ->
  (forall c : correspondence vec2, In c cs -> vz (iso_app S (in_target c)) <> 0 /\ vz (iso_app T (in_target c)) <> 0 /\
     pinhole k' (iso_app S (in_target c)) = pinhole k (iso_app T (in_target c))) ->
  exists s, s <> 0 /\ side_x S = vscale s (change k k' (side_x T)) /\ side_y S = vscale s (change k k' (side_y T)).
Proof.
  intros HT NE Kx Ky Fx Fy (a & b & c & d & Ha & Hb & Hc & Hd & Za & Zb & Zc & Zd & GP) H.
  assert (Ray : forall p, In p (map in_target cs) -> exists s, s <> 0 /\ iso_app S p = vscale s (iso_app (change_iso k k' T) p)).
  { intros p Hp. apply in_map_iff in Hp as (x & <- & Hx). destruct (H x Hx) as (Z1 & Z2 & E).
    exists (vz (iso_app S (in_target x)) / vz (iso_app T (in_target x))). rewrite change_iso_app. split.
    - apply Rmult_integral_contrapositive_currified; [ assumption | apply Rinv_neq_0_compat; assumption ].
    - apply same_pixel; assumption. }
  destruct (Ray a Ha) as (sa & Pa & Ea), (Ray b Hb) as (sb & Pb & Eb), (Ray c Hc) as (sc & Pc & Ec), (Ray d Hd) as (sd & Pd & Ed).
  assert (D : dot (iso_app (change_iso k k' T) a) (cross (iso_app (change_iso k k' T) b) (iso_app (change_iso k k' T) c)) <> 0).
  { rewrite !change_iso_app, change_triple. destruct GP as (N & _).
    pose proof (flat_independent T a b c HT NE Za Zb Zc N).
    repeat apply Rmult_integral_contrapositive_currified; auto; apply Rinv_neq_0_compat; assumption. }
  destruct (scales_equal_affine S (change_iso k k' T) a b c d sa sb sc sd Za Zb Zc Zd GP D Ea Eb Ec Ed) as (-> & -> & ->).
  exists sd. split; [ exact Pd | ].
  assert (Step : forall q, vz q = 0 -> iso_app S q = vscale sd (iso_app (change_iso k k' T) q) ->
    vadd (vscale (vx (vsub q a)) (side_x S)) (vscale (vy (vsub q a)) (side_y S)) =
    vadd (vscale (vx (vsub q a)) (vscale sd (change k k' (side_x T)))) (vscale (vy (vsub q a)) (vscale sd (change k k' (side_y T))))).
  { intros q Zq Eq. assert (Zs : vz (vsub q a) = 0) by (unfold vsub; cbn [vz]; lra).
    rewrite <- (flat_sides S _ Zs). rewrite <- app_diff, Eq, Ea, !change_iso_app.
    transitivity (vscale sd (change k k' (mvec (lin T) (vsub q a)))).
    - rewrite <- app_diff, change_sub. unfold vscale, vsub; apply vec3_ext; cbn [vx vy vz]; ring.
    - rewrite (flat_sides T _ Zs), change_add, !change_scale. unfold vscale, vadd; apply vec3_ext; cbn [vx vy vz]; ring. }
  destruct GP as (N & _).
  eapply two_combinations; [ | exact (Step b Zb Eb) | exact (Step c Zc Ec) ].
  unfold not_collinear in N. unfold vsub; cbn [vx vy vz]. intros Z; apply N; lra.
Qed.

Lemma rot_sides T : rigid T -> dot (side_x T) (side_y T) = 0 /\ dot (side_x T) (side_x T) = dot (side_y T) (side_y T).
Proof.
  intros HT.
  assert (X : side_x T = mvec (lin T) unitX) by (unfold side_x, mvec, unitX; cbn [vx vy vz]; apply vec3_ext; cbn [vx vy vz]; ring).
  assert (Y : side_y T = mvec (lin T) unitY) by (unfold side_y, mvec, unitY; cbn [vx vy vz]; apply vec3_ext; cbn [vx vy vz]; ring).
  rewrite X, Y, !(rot_dot _ _ _ HT). unfold dot, unitX, unitY; cbn [vx vy vz]. lra.
Qed.

Section Cameras.
  Variables k k' : intrinsics.
  Let a := fx k / fx k'.
  Let b := (cx k - cx k') / fx k'.
  Let c := fy k / fy k'.
  Let d := (cy k - cy k') / fy k'.
  Lemma change_dot u v : dot (change k k' u) (change k k' v) =
    form (a * a - (b * b + d * d + 1)) (c * c - (b * b + d * d + 1)) (a * b) (c * d) u v + (b * b + d * d + 1) * dot u v.
  Proof. unfold dot, change, form; cbn [vx vy vz]; fold a b c d; ring. Qed.
  Lemma view_equations S T s : rigid S -> rigid T -> s <> 0 ->
    side_x S = vscale s (change k k' (side_x T)) -> side_y S = vscale s (change k k' (side_y T)) ->
    let f := form (a * a - (b * b + d * d + 1)) (c * c - (b * b + d * d + 1)) (a * b) (c * d) in
    f (side_x T) (side_y T) = 0 /\ f (side_x T) (side_x T) = f (side_y T) (side_y T).
  Proof.
    intros HS HT NZ EX EY f. destruct (rot_sides S HS) as [P L], (rot_sides T HT) as [PT LT]. rewrite EX, EY in P, L.
    assert (V : forall u v, dot (vscale s (change k k' u)) (vscale s (change k k' v)) = s * s * (f u v + (b * b + d * d + 1) * dot u v)).
    { intros u v. unfold f. rewrite <- change_dot. unfold dot, vscale; cbn [vx vy vz]; ring. }
    rewrite V in P. rewrite (V (side_x T) (side_x T)), (V (side_y T) (side_y T)) in L. rewrite PT in P. rewrite LT in L.
    assert (Q : s * s <> 0) by (apply Rmult_integral_contrapositive_currified; assumption). split.
    - apply (Rmult_eq_reg_l (s * s)); [ | assumption ]. rewrite Rmult_0_r, <- P. ring.
    - apply Rmult_eq_reg_l in L; [ | assumption ]. exact (Rplus_eq_reg_r _ _ _ L).
  Qed.
End Cameras.

Lemma camera_from_views k k' views : 0 < fx k -> 0 < fy k -> 0 < fx k' -> 0 < fy k' ->
  poses_determine_camera views ->
  (forall T, In T views -> rigid T /\ exists S s, rigid S /\ s <> 0 /\
     side_x S = vscale s (change k k' (side_x T)) /\ side_y S = vscale s (change k k' (side_y T))) -> k' = k.
Proof.
  intros Kx Ky Fx Fy Det H.
  set (a := fx k / fx k'). set (b := (cx k - cx k') / fx k'). set (c := fy k / fy k'). set (d := (cy k - cy k') / fy k').
  destruct (Det (a * a - (b * b + d * d + 1)) (c * c - (b * b + d * d + 1)) (a * b) (c * d)) as (E1 & E2 & E3 & E4).
  { intros T HT. destruct (H T HT) as (RT & S & s & RS & NZ & EX & EY). exact (view_equations k k' S T s RS RT NZ EX EY). }
  assert (Pa : 0 < a) by (unfold a; apply Rdiv_lt_0_compat; assumption).
  assert (Pc : 0 < c) by (unfold c; apply Rdiv_lt_0_compat; assumption).
  assert (b = 0) as B by (destruct (Rmult_integral _ _ E3); lra).
  assert (d = 0) as D by (destruct (Rmult_integral _ _ E4); lra).
  rewrite B, D in E1, E2. assert (a = 1) by nra. assert (c = 1) by nra.
  assert (fx k = fx k') by (transitivity (a * fx k'); [ unfold a; field; lra | rewrite H0; ring ]).
  assert (fy k = fy k') by (transitivity (c * fy k'); [ unfold c; field; lra | rewrite H1; ring ]).
  assert (cx k - cx k' = 0) by (transitivity (b * fx k'); [ unfold b; field; lra | rewrite B; ring ]).
  assert (cy k - cy k' = 0) by (transitivity (d * fy k'); [ unfold d; field; lra | rewrite D; ring ]).
  destruct k, k'; cbn in *; f_equal; lra.
Qed.

(** ** The residuals *)
Lemma honest_zero solve blocks m0 m s : honest_blocks solve -> solve blocks m0 = (m, s) -> final_cost s = 0 ->
  forall b, In b blocks -> forall r, In r (rb_eval b m) -> r = 0.
Proof.
  intros Hon E F b Hb r Hr. specialize (Hon blocks m0). rewrite E in Hon. rewrite F in Hon.
  apply (half_squares_zero _ (eq_sym Hon)). apply in_flat_map; eauto.
Qed.
Lemma image_views_all p i cs x : nth_error (ip_image_observations p) i = Some cs -> In x cs ->
  In (i, x) (image_views p (seq 0 (List.length (ip_image_observations p)))).
Proof.
  intros E Hx. apply in_flat_map. exists i. split.
  - apply in_seq. split; [ lia | ]. cbn. apply nth_error_Some. congruence.
  - rewrite (nth_error_nth _ _ [] E). apply in_map, Hx.
Qed.

Lemma intrinsic_unique u psolve pcov solve cov p r k T :
  honest_blocks solve -> (forall blocks start, ends_at_poses p (fst (solve blocks start))) ->
  optimizeIntrinsic u psolve pcov solve cov p = Ok r ->
  0 < fx k -> 0 < fy k -> 0 < fx (ir_intrinsics r) -> 0 < fy (ir_intrinsics r) ->
  ir_distortions r = [0; 0; 0; 0; 0] ->
  (forall i cs, nth_error (ip_image_observations p) i = Some cs -> perfect_image k (T i) cs) ->
  (exists chosen, poses_determine_camera (map T chosen) /\
     forall i, In i chosen -> exists cs, nth_error (ip_image_observations p) i = Some cs /\
       rigid (T i) /\ ~ edge_on (T i) /\ four_flat_points (map in_target cs)) ->
  ir_final_cost_per_obs r = 0 -> ir_intrinsics r = k.
Proof.
  intros Hon Sane E Kx Ky Fx Fy Dist Perf (chosen & Det & Good) Cost.
  destruct (intrinsic_result_right u psolve pcov p) as (blocks & Len & Eval & Res).
  destruct (Res solve cov r E) as (_ & _ & start & m & s & Es & _ & _ & _ & _ & Fk & Fd & _ & Fc).
  set (n := List.length (ip_image_observations p)) in *. cbv zeta in Fd.
  rewrite Fd in Dist. injection Dist as D1 D2 D3 D4 D5.
  assert (DL : lens_of (m n) = no_distortion) by (unfold lens_of, no_distortion; cbn in D1, D2, D3, D4, D5; rewrite D1, D2, D3, D4, D5; reflexivity).
  apply (camera_from_views k _ (map T chosen)); try assumption.
  intros T' HT'. apply in_map_iff in HT' as (i & <- & Hi). destruct (Good i Hi) as (cs & Hcs & RT & NE & Four). split; [ exact RT | ].
  set (S := poseCalToEigen (read_pose m i)). pose proof (Sane blocks start i cs) as Sn. rewrite Es in Sn. cbn [fst] in Sn.
  destruct (Sn Hcs) as [RS NZ]. fold S in RS, NZ. exists S.
  assert (NZn : INR (2 * List.length (image_views p (seq 0 n))) <> 0 ).
  { destruct Four as (a & _ & _ & _ & Ha & _). apply in_map_iff in Ha as (x & _ & Hx).
    pose proof (image_views_all p i cs x Hcs Hx) as I. fold n in I. apply not_0_INR.
    destruct (image_views p (seq 0 n)); [ destruct I | cbn; lia ]. }
  assert (C0 : final_cost s = 0).
  { rewrite Fc in Cost. apply (Rmult_eq_reg_r (/ INR (2 * List.length (image_views p (seq 0 n)))));
      [ | apply Rinv_neq_0_compat; assumption ]. unfold Rdiv in Cost. rewrite Cost; ring. }
  destruct (sides_agree k (ir_intrinsics r) S (T i) cs RT NE) as (sc & Hs & HX & HY); try lra; try assumption; [ | eauto 6 ].
  intros x Hx. split; [ apply NZ, Hx | ]. destruct (Perf i cs Hcs x Hx) as [Fr Im]. split.
  { unfold in_front in Fr. assert (0 < 1 / 10 ^ 10) by (apply Rdiv_lt_0_compat; lra). lra. }
  pose proof (image_views_all p i cs x Hcs Hx) as I. fold n in I. apply In_nth_error in I as (j & Hj).
  assert (exists b, nth_error blocks j = Some b) as (b & Hb).
  { destruct (nth_error blocks j) as [b|] eqn:Q; [ eauto | ]. apply nth_error_None in Q.
    assert (j < List.length (image_views p (seq 0 n)))%nat by (apply nth_error_Some; congruence). lia. }
  pose proof (Eval m j b i x Hb Hj) as Ev. cbv zeta in Ev. fold S in Ev. specialize (Ev (NZ x Hx)). rewrite DL in Ev.
  pose proof (honest_zero _ _ _ _ _ Hon Es C0 b (nth_error_In _ _ Hb)) as Z. rewrite Ev in Z.
  unfold lens_error in Z. rewrite lens_none in Z. rewrite <- Fk in Z.
  rewrite <- Im. set (q := pinhole (ir_intrinsics r) (iso_app S (in_target x))) in *.
  assert (Z1 : px q - px (in_image x) = 0) by (apply Z; left; reflexivity).
  assert (Z2 : py q - py (in_image x) = 0) by (apply Z; right; left; reflexivity).
  destruct q, (in_image x); cbn in *; f_equal; lra.
Qed.

(** Two tilts suffice. *)
Lemma tilts_determine A B a b : lin A = aa_matrix a unitX -> lin B = aa_matrix b unitY -> sin a <> 0 -> sin b <> 0 ->
  poses_determine_camera [A; B].
Proof.
  intros LA LB Sa Sb p q r s H.
  destruct (H A (or_introl eq_refl)) as [A1 A2]. destruct (H B (or_intror (or_introl eq_refl))) as [B1 B2]. clear H.
  unfold side_x, side_y in *. rewrite LA in A1, A2. rewrite LB in B1, B2.
  unfold form, aa_matrix, unitX, unitY in *. cbn [vx vy vz m00 m01 m02 m10 m11 m12 m20 m21 m22] in *.
  set (ca := cos a) in *. set (sa := sin a) in *. set (cb := cos b) in *. set (sb := sin b) in *.
  assert (Pa : sa * sa + ca * ca = 1) by (pose proof (sin2_cos2 a) as Q; unfold Rsqr in Q; exact Q).
  assert (Pb : sb * sb + cb * cb = 1) by (pose proof (sin2_cos2 b) as Q; unfold Rsqr in Q; exact Q).
  assert (Er : r * sa = 0) by (ring_simplify in A1; ring_simplify; lra).
  assert (Es : s * sb = 0) by (ring_simplify in B1; ring_simplify; lra).
  assert (r = 0) as -> by (destruct (Rmult_integral _ _ Er); tauto).
  assert (s = 0) as -> by (destruct (Rmult_integral _ _ Es); tauto).
  assert (E1 : p = q * (ca * ca)) by lra. assert (E2 : p * (cb * cb) = q) by lra.
  assert (Na : 0 < sa * sa) by nra. assert (Nb : 0 < sb * sb) by nra.
  assert (Q : p * (1 - (cb * cb) * (ca * ca)) = 0) by (rewrite Rmult_minus_distr_l; rewrite E1 at 1; rewrite <- E2; ring).
  assert (NQ : 1 - cb * cb * (ca * ca) <> 0) by nra.
  assert (p = 0) as -> by (destruct (Rmult_integral _ _ Q); tauto). split; [ | split; [ | split ] ]; lra.
Qed.

(** ** Parallel pictures *)
Definition farther (l : R) (T : iso) : iso := Iso (lin T) (V3 (vx (tr T)) (vy (tr T)) (l * vz (tr T))).
Lemma stretched_project l k d P Q : l <> 0 -> vz P <> 0 -> vx Q = vx P -> vy Q = vy P -> vz Q = l * vz P ->
  lens_project (Intr (l * fx k) (l * fy k) (cx k) (cy k)) (stretched l d) Q = lens_project k d P.
Proof.
  intros Hl Hz HX HY HZ. unfold lens_project, distort, stretched. rewrite HX, HY, HZ. cbn [fx fy cx cy d_k1 d_k2 d_p1 d_p2 d_k3 px py].
  f_equal; field; auto.
Qed.
Lemma farther_app l T v : parallel_to_image T -> vz v = 0 ->
  vx (iso_app (farther l T) v) = vx (iso_app T v) /\ vy (iso_app (farther l T) v) = vy (iso_app T v) /\
  vz (iso_app (farther l T) v) = l * vz (iso_app T v).
Proof.
  intros [H1 H2] Z. unfold iso_app, farther, mvec, vadd; cbn [lin tr vx vy vz]. rewrite H1, H2, Z. split; [|split]; ring.
Qed.
Lemma farther_plain l T : plain_pose T -> plain_pose (farther l T).
Proof. intros H; exact H. Qed.

(** The memory in which the camera and the poses are these. *)
Definition memory (n : nat) (k : intrinsics) (d : distortion) (T : nat -> iso) : mem := fun key j =>
  if Nat.eqb key n then
    match j with
    | 0%nat => fx k | 1%nat => fy k | 2%nat => cx k | 3%nat => cy k
    | 4%nat => d_k1 d | 5%nat => d_k2 d | 6%nat => d_p1 d | 7%nat => d_p2 d | _ => d_k3 d
    end
  else pose_elem (poseEigenToCal (T key)) j.
Lemma memory_camera n k d T : camera_of (memory n k d T n) = k /\ lens_of (memory n k d T n) = d.
Proof. unfold camera_of, lens_of, memory. rewrite Nat.eqb_refl. destruct k, d. split; reflexivity. Qed.
Lemma memory_pose n k d T i : i <> n -> read_pose (memory n k d T) i = poseEigenToCal (T i).
Proof.
  intros N. unfold read_pose, memory. apply Nat.eqb_neq in N. rewrite N. destruct (poseEigenToCal (T i)); reflexivity.
Qed.

Definition goes_to (m : mem) : block_solver := fun blocks m0 =>
  (m, Summary true (half_squares (flat_map (fun b => rb_eval b m0) blocks)) (half_squares (flat_map (fun b => rb_eval b m) blocks))).
Lemma goes_to_honest m : honest_blocks (goes_to m).
Proof. intros blocks m0. reflexivity. Qed.

Lemma image_views_in p i x : In (i, x) (image_views p (seq 0 (List.length (ip_image_observations p)))) ->
  exists cs, nth_error (ip_image_observations p) i = Some cs /\ In x cs.
Proof.
  intros H. apply in_flat_map in H as (i' & Hi & Hx). apply in_map_iff in Hx as (x' & E & Hx). injection E as <- <-.
  apply in_seq in Hi. destruct (nth_error (ip_image_observations p) i') as [cs|] eqn:Q.
  - exists cs. split; [ reflexivity | ]. rewrite (nth_error_nth _ _ [] Q) in Hx. exact Hx.
  - apply nth_error_None in Q. lia.
Qed.

Lemma parallel_undetermined u psolve pcov cov p k d T l : 0 < l ->
  (forall i cs, nth_error (ip_image_observations p) i = Some cs ->
     plain_pose (T i) /\ parallel_to_image (T i) /\ perfect_lens_image k d (T i) cs) ->
  exists solve, honest_blocks solve /\ (forall blocks start, ends_at_poses p (fst (solve blocks start))) /\
  forall r, optimizeIntrinsic u psolve pcov solve cov p = Ok r ->
    ir_final_cost_per_obs r = 0 /\
    ir_intrinsics r = Intr (l * fx k) (l * fy k) (cx k) (cy k) /\
    ir_distortions r = [l ^ 2 * d_k1 d; l ^ 4 * d_k2 d; l * d_p1 d; l * d_p2 d; l ^ 6 * d_k3 d].
Proof.
  intros Hl H. set (n := List.length (ip_image_observations p)).
  set (k' := Intr (l * fx k) (l * fy k) (cx k) (cy k)).
  set (m := memory n k' (stretched l d) (fun i => farther l (T i))).
  assert (Pose : forall i cs, nth_error (ip_image_observations p) i = Some cs -> poseCalToEigen (read_pose m i) = farther l (T i)).
  { intros i cs E. unfold m. rewrite memory_pose.
    - apply plain_stored, farther_plain, (H i cs E).
    - assert (i < n)%nat by (apply nth_error_Some; congruence). lia. }
  assert (Depth : forall i cs x, nth_error (ip_image_observations p) i = Some cs -> In x cs ->
    vz (iso_app (farther l (T i)) (in_target x)) <> 0 /\
    lens_project k' (stretched l d) (iso_app (farther l (T i)) (in_target x)) = in_image x).
  { intros i cs x E Hx. destruct (H i cs E) as (_ & Par & Perf). destruct (Perf x Hx) as (Z & Fr & Im).
    destruct (farther_app l (T i) _ Par Z) as (X & Y & W). unfold in_front in Fr.
    assert (0 < 1 / 10 ^ 10) by (apply Rdiv_lt_0_compat; lra). split.
    - rewrite W. apply Rmult_integral_contrapositive_currified; lra.
    - rewrite Im. apply stretched_project; auto; lra. }
  exists (goes_to m). split; [ apply goes_to_honest | ]. split.
  { intros blocks start i cs E. cbn [goes_to fst]. cbv zeta. rewrite (Pose i cs E). split.
    - exact (proj1 (proj1 (H i cs E))).
    - intros x Hx. apply (Depth i cs x E Hx). }
  intros r E. destruct (intrinsic_result_right u psolve pcov p) as (blocks & Len & Eval & Res).
  destruct (Res _ cov r E) as (_ & _ & start & m' & s & Es & _ & _ & _ & _ & Fk & Fd & _ & Fc).
  unfold goes_to in Es. injection Es as <- <-. cbn [final_cost] in Fc.
  destruct (memory_camera n k' (stretched l d) (fun i => farther l (T i))) as [MC ML]. fold m in MC, ML.
  split; [ | split; [ rewrite Fk; exact MC | rewrite Fd; fold n; rewrite ML; reflexivity ] ].
  rewrite Fc, half_squares_all_zero; [ unfold Rdiv; ring | ].
  intros e He. apply in_flat_map in He as (b & Hb & He). apply In_nth_error in Hb as (j & Hj).
  assert (exists ix, nth_error (image_views p (seq 0 n)) j = Some ix) as ((i & x) & Hv).
  { destruct (nth_error (image_views p (seq 0 n)) j) as [ix|] eqn:Q; [ eauto | ]. apply nth_error_None in Q.
    assert (j < List.length blocks)%nat by (apply nth_error_Some; congruence). unfold n in Q. lia. }
  destruct (image_views_in p i x (nth_error_In _ _ Hv)) as (cs & Hcs & Hx).
  destruct (Depth i cs x Hcs Hx) as [NZ Im].
  pose proof (Eval m j b i x Hj Hv) as Ev. cbv zeta in Ev. rewrite (Pose i cs Hcs) in Ev. rewrite (Ev NZ) in He.
  fold n in He. rewrite MC, ML in He. unfold lens_error in He. rewrite Im in He. cbn in He.
  destruct He as [<-|[<-|[]]]; ring.
Qed.
