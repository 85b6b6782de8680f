(** Which motions determine a calibration. *)
From Coq Require Import Reals Lra Lia Arith List.
From Verif.Base Require Import Geom Outcome.
From Verif.Model Require Import Pose Covariance Solver HandEye Pnp.
From Verif.Spec Require Import PinHole Frames PnpSpec UniqueSpec SameDataSpec DeterminedSpec.
From Verif.Proofs Require Import GeomLemmas RotLemmas AngleAxisLemmas PoseProofs ListLemmas CovarianceProofs HandEyeProofs PnpProofs UniqueLemmas UniqueProofs UniqueExamples.
Import ListNotations.
Local Open Scope R_scope.

Definition commute_with (As : list iso) (G : iso) : Prop := forall A, In A As -> iso_mul G A = iso_mul A G.

(** ** Half turns about a line *)
Definition half_turn (u : vec3) : mat3 := aa_matrix PI u.
Lemma half_turn_vec u x : dot u u = 1 -> mvec (half_turn u) x = vsub (vscale (2 * dot u x) u) x.
Proof.
  intros U. unfold half_turn, aa_matrix. rewrite sin_PI, cos_PI. destruct u as [a b c], x as [d e f].
  unfold dot in *. cbn [vx vy vz] in *. unfold mvec, vsub, vscale. cbn [vx vy vz m00 m01 m02 m10 m11 m12 m20 m21 m22].
  apply vec3_ext; cbn [vx vy vz]; ring.
Qed.
Definition about_line (q u : vec3) : iso := Iso (half_turn u) (vsub q (mvec (half_turn u) q)).
Lemma mvec_vadd A a b : mvec A (vadd a b) = vadd (mvec A a) (mvec A b).
Proof. destruct A, a, b. geo_ring. Qed.
Lemma mvec_vsub A a b : mvec A (vsub a b) = vsub (mvec A a) (mvec A b).
Proof. destruct A, a, b. geo_ring. Qed.
Lemma mvec_vscale A s a : mvec A (vscale s a) = vscale s (mvec A a).
Proof. destruct A, a. geo_ring. Qed.
Lemma vadd_cancel_r a b c : vadd a c = vadd b c -> a = b.
Proof. destruct a as [a1 a2 a3], b as [b1 b2 b3], c as [c1 c2 c3]. unfold vadd. cbn [vx vy vz]. intros Q. injection Q as E1 E2 E3. apply vec3_ext; cbn [vx vy vz]; lra. Qed.
Lemma iso_by_points S T : (forall x, iso_app S x = iso_app T x) -> S = T.
Proof.
  intros H. assert (T0 : tr S = tr T).
  { pose proof (H vzero) as Q. unfold iso_app in Q. assert (Z : forall A, mvec A vzero = vzero) by (intros []; geo_ring).
    rewrite !Z in Q. destruct (tr S) as [a1 a2 a3], (tr T) as [b1 b2 b3]. unfold vadd, vzero in Q. cbn [vx vy vz] in Q. injection Q as E1 E2 E3. apply vec3_ext; cbn [vx vy vz]; lra. }
  apply iso_ext; [ | exact T0 ].
  apply (mat_agree _ _ (V3 1 0 0) (V3 0 1 0) (V3 0 0 1)).
  - unfold dot, cross. cbn. lra.
  - pose proof (H (V3 1 0 0)) as Q. unfold iso_app in Q. rewrite T0 in Q. exact (vadd_cancel_r _ _ _ Q).
  - pose proof (H (V3 0 1 0)) as Q. unfold iso_app in Q. rewrite T0 in Q. exact (vadd_cancel_r _ _ _ Q).
  - pose proof (H (V3 0 0 1)) as Q. unfold iso_app in Q. rewrite T0 in Q. exact (vadd_cancel_r _ _ _ Q).
Qed.
Lemma about_line_app q u x : iso_app (about_line q u) x = vadd q (mvec (half_turn u) (vsub x q)).
Proof.
  unfold iso_app, about_line. cbn [lin tr]. rewrite mvec_vsub. set (a := mvec _ x). set (b := mvec _ q).
  unfold vadd, vsub. apply vec3_ext; cbn [vx vy vz]; ring.
Qed.
Lemma iso_app_diff T a b : iso_app T a = vadd (iso_app T b) (mvec (lin T) (vsub a b)).
Proof. unfold iso_app. rewrite mvec_vsub. set (x := mvec _ a). set (y := mvec _ b). unfold vadd, vsub. apply vec3_ext; cbn [vx vy vz]; ring. Qed.
Lemma rot_dot A u v : is_rot A -> dot (mvec A u) (mvec A v) = dot u v.
Proof.
  intros [H _]. replace (dot (mvec A u) (mvec A v)) with (dot u (mvec (mmul (mT A) A) v)); [ rewrite H, mvec_I; reflexivity | ].
  rewrite mvec_mmul. destruct A, u, v. unfold dot, mvec, mT. cbn. ring.
Qed.

(** A motion that keeps the line commutes with the half turn about it. *)
Lemma keeps_line_commutes q u A : dot u u = 1 -> rigid A -> (forall x, on_line q u x -> on_line q u (iso_app A x)) ->
  iso_mul (about_line q u) A = iso_mul A (about_line q u).
Proof.
  intros U RA H.
  destruct (H q) as [s Hs]; [ exists 0; unfold vadd, vscale; apply vec3_ext; cbn; ring | ].
  destruct (H (vadd q u)) as [s' Hs']; [ exists 1; unfold vadd, vscale; apply vec3_ext; cbn; ring | ].
  set (c := s' - s).
  assert (Ac : mvec (lin A) u = vscale c u).
  { rewrite (iso_app_diff A (vadd q u) q), Hs in Hs'.
    replace (vsub (vadd q u) q) with u in Hs' by (unfold vsub, vadd; apply vec3_ext; cbn; ring).
    unfold vadd, vscale in Hs'. injection Hs' as E1 E2 E3. unfold c, vscale. apply vec3_ext; cbn; lra. }
  assert (CC : c * c = 1).
  { pose proof (rot_dot (lin A) u u RA) as Q. rewrite Ac, U in Q. unfold dot, vscale in Q. unfold dot in U. cbn [vx vy vz] in Q. nra. }
  assert (K : forall x, mvec (half_turn u) (mvec (lin A) x) = mvec (lin A) (mvec (half_turn u) x)).
  { intros x. rewrite !half_turn_vec by exact U. rewrite mvec_vsub, mvec_vscale, Ac.
    assert (D : dot u (mvec (lin A) x) = c * dot u x).
    { pose proof (rot_dot (lin A) u x RA) as Q. rewrite Ac in Q.
      replace (dot (vscale c u) (mvec (lin A) x)) with (c * dot u (mvec (lin A) x)) in Q by (unfold dot, vscale; cbn [vx vy vz]; ring).
      rewrite <- Q. rewrite <- Rmult_assoc, CC. ring. }
    rewrite D. set (y := mvec _ x). unfold vsub, vscale. apply vec3_ext; cbn [vx vy vz]; ring. }
  apply iso_by_points. intros x. rewrite !iso_app_mul, !about_line_app.
  rewrite (iso_app_diff A (vadd q _) q), Hs.
  replace (vsub (vadd q (mvec (half_turn u) (vsub x q))) q) with (mvec (half_turn u) (vsub x q))
    by (set (y := mvec _ _); unfold vsub, vadd; apply vec3_ext; cbn [vx vy vz]; ring).
  rewrite <- K. rewrite (iso_app_diff A x q), Hs. set (y := mvec (lin A) (vsub x q)).
  replace (vsub (vadd (vadd q (vscale s u)) y) q) with (vadd (vscale s u) y) by (unfold vsub, vadd; apply vec3_ext; cbn [vx vy vz]; ring).
  rewrite mvec_vadd, mvec_vscale, (half_turn_vec u u U), U.
  set (z := mvec _ y). unfold vsub, vadd, vscale. apply vec3_ext; cbn [vx vy vz]; ring.
Qed.

(** ** What commutes with the motions *)
Lemma vzero_dec v : v = vzero \/ v <> vzero.
Proof.
  destruct (Req_dec (vx v) 0) as [ E1 | N ]; [ | right; intros ->; apply N; reflexivity ].
  destruct (Req_dec (vy v) 0) as [ E2 | N ]; [ | right; intros ->; apply N; reflexivity ].
  destruct (Req_dec (vz v) 0) as [ E3 | N ]; [ | right; intros ->; apply N; reflexivity ].
  left. apply vec3_ext; assumption.
Qed.
Lemma unit_nonzero u : dot u u = 1 -> u <> vzero.
Proof. intros U ->. unfold dot, vzero in U. cbn in U. lra. Qed.
Lemma commuting_translation As t : (forall A, In A As -> iso_mul (iso_trans t) A = iso_mul A (iso_trans t)) ->
  forall A, In A As -> mvec (lin A) t = t.
Proof.
  intros C A HA. pose proof (f_equal tr (C A HA)) as Q. unfold iso_mul, iso_trans in Q. cbn [tr lin] in Q. rewrite mvec_I in Q.
  symmetry. apply (vadd_cancel_r _ _ (tr A)). rewrite <- Q. unfold vadd. apply vec3_ext; cbn [vx vy vz]; ring.
Qed.
Lemma commuter_found As G : (forall A, In A As -> rigid A) -> rigid G -> G <> iso_id -> commute_with As G ->
  leave_a_direction As \/ keep_a_line As.
Proof.
  intros RA RG N C.
  destruct (aa_of_mat_spec (lin G) RG) as (U & Ra & M). set (u := aa_axis _) in *. set (a := aa_angle _) in *.
  assert (CL : forall A, In A As -> mmul (lin A) (aa_matrix a u) = mmul (aa_matrix a u) (lin A)).
  { intros A HA. rewrite M. exact (eq_sym (f_equal lin (C A HA))). }
  destruct (Req_dec (sin a) 0) as [ S0 | S0 ].
  2:{ left. exists u. split; [ apply unit_nonzero, U | ]. intros A HA. exact (commuting_keeps_axis (lin A) a u (RA A HA) S0 (CL A HA)). }
  destruct (Req_dec a 0) as [ A0 | A0 ].
  - assert (EG : G = iso_trans (tr G)) by (apply iso_ext; [ rewrite <- M, A0, aa_matrix_0; reflexivity | reflexivity ]).
    left. exists (tr G). split.
    + intros Z. apply N. rewrite EG, Z. reflexivity.
    + apply commuting_translation. rewrite <- EG. exact C.
  - assert (AP : a = PI).
    { destruct (Req_dec a PI) as [ E | E ]; [ exact E | ]. pose proof (sin_gt_0 a). lra. }
    assert (LG : lin G = half_turn u) by (rewrite <- M, AP; reflexivity). set (t := tr G) in *.
    destruct (Req_dec (dot u t) 0) as [ T0 | T0 ].
    + right. exists (vscale (/ 2) t), u. split; [ apply unit_nonzero, U | ]. intros A HA x [s ->].
      assert (FG : forall y, iso_app G y = y -> on_line (vscale (/ 2) t) u y).
      { intros y Hy. unfold iso_app in Hy. rewrite LG, half_turn_vec in Hy by exact U. fold t in Hy. exists (dot u y).
        set (d := dot u y) in *. pose proof (f_equal vx Hy) as E1. pose proof (f_equal vy Hy) as E2. pose proof (f_equal vz Hy) as E3.
        unfold vadd, vsub, vscale in *. cbn [vx vy vz] in E1, E2, E3. apply vec3_ext; cbn [vx vy vz]; lra. }
      apply FG. rewrite <- iso_app_mul, (C A HA), iso_app_mul. f_equal.
      unfold iso_app. rewrite LG, half_turn_vec by exact U. fold t.
      replace (dot u (vadd (vscale (/ 2) t) (vscale s u))) with s.
      2:{ transitivity (/ 2 * dot u t + s * dot u u); [ rewrite T0, U; ring | unfold dot, vadd, vscale; cbn [vx vy vz]; ring ]. }
      unfold vadd, vsub, vscale. apply vec3_ext; cbn [vx vy vz]; field.
    + left. exists (vscale (2 * dot u t) u).
      assert (GG : iso_mul G G = iso_trans (vscale (2 * dot u t) u)).
      { apply iso_by_points. intros x. rewrite iso_app_mul. unfold iso_app. rewrite LG. fold t. cbn [iso_trans lin tr]. rewrite mvec_I.
        rewrite (half_turn_vec u x U), (half_turn_vec u _ U).
        replace (dot u (vadd (vsub (vscale (2 * dot u x) u) x) t)) with (dot u x + dot u t).
        2:{ transitivity (2 * dot u x * dot u u - dot u x + dot u t); [ rewrite U; ring | unfold dot, vadd, vsub, vscale; cbn [vx vy vz]; ring ]. }
        unfold vadd, vsub, vscale. apply vec3_ext; cbn [vx vy vz]; ring. }
      split.
      * intros Z. assert (Q : dot (vscale (2 * dot u t) u) u = 0) by (rewrite Z; unfold dot, vzero; cbn; ring).
        replace (dot (vscale (2 * dot u t) u) u) with (2 * dot u t * dot u u) in Q by (unfold dot, vscale; cbn [vx vy vz]; ring).
        rewrite U in Q. lra.
      * apply commuting_translation. rewrite <- GG. intros A HA.
        rewrite iso_mul_assoc, (C A HA), <- iso_mul_assoc, (C A HA), iso_mul_assoc. reflexivity.
Qed.
Lemma direction_commutes As d : (forall A, In A As -> mvec (lin A) d = d) -> commute_with As (iso_trans d).
Proof.
  intros H A HA. apply iso_by_points. intros x. rewrite !iso_app_mul. unfold iso_app at 1 4. cbn [iso_trans lin tr]. rewrite !mvec_I.
  unfold iso_app. rewrite mvec_vadd, (H A HA). set (y := mvec _ x). unfold vadd. apply vec3_ext; cbn [vx vy vz]; ring.
Qed.
Lemma line_commuter As q u : (forall A, In A As -> rigid A) -> u <> vzero ->
  (forall A, In A As -> forall x, on_line q u x -> on_line q u (iso_app A x)) ->
  exists G, rigid G /\ commute_with As G /\ G <> iso_id.
Proof.
  intros RA N F.
  assert (P : 0 < norm u).
  { destruct (Req_dec (norm u) 0) as [ E | E ]; [ apply norm_zero in E; contradiction | ]. pose proof (norm_nonneg u). lra. }
  set (v := vscale (/ norm u) u).
  assert (V : dot v v = 1).
  { assert (Q : norm u * norm u = dot u u) by (unfold norm; apply sqrt_sqrt; unfold dot; nra).
    transitivity (/ norm u * / norm u * dot u u); [ unfold v, dot, vscale; cbn [vx vy vz]; ring | ]. rewrite <- Q. field. lra. }
  assert (L : forall x, on_line q u x <-> on_line q v x).
  { intros x. split; intros [s ->].
    - exists (s * norm u). unfold v. unfold vadd, vscale. apply vec3_ext; cbn [vx vy vz]; field; lra.
    - exists (s * / norm u). unfold v. unfold vadd, vscale. apply vec3_ext; cbn [vx vy vz]; ring. }
  assert (RL : rigid (about_line q v)) by (apply aa_matrix_rot, V).
  assert (CM : commute_with As (about_line q v)).
  { intros A HA. apply keeps_line_commutes; [ exact V | apply RA, HA | ]. intros x Hx. apply L. apply (F A HA). apply L, Hx. }
  exists (about_line q v). split; [ exact RL | split; [ exact CM | ] ]. intros HQ.
  pose proof (f_equal lin HQ) as Q. cbn [about_line lin iso_id] in Q.
  (* a vector across the axis is reversed *)
  assert (K : forall x, vsub (vscale (2 * dot v x) v) x = x) by (intros x; rewrite <- half_turn_vec by exact V; rewrite Q; apply mvec_I).
  pose proof (K unitX) as KX. pose proof (K unitY) as KY. clear -KX KY V. destruct v as [a b c].
  unfold vsub, vscale, dot, unitX, unitY in *. cbn [vx vy vz] in *. injection KX as X1 X2 X3. injection KY as Y1 Y2 Y3. nra.
Qed.
(** Exactly then nothing but the identity commutes with the motions. *)
Lemma tell_all_iff As : (forall A, In A As -> rigid A) ->
  tell_all As <-> (forall G, rigid G -> commute_with As G -> G = iso_id).
Proof.
  intros RA. split.
  - intros [ND NL] G RG C.
    assert (D : G = iso_id \/ G <> iso_id).
    { destruct (vzero_dec (tr G)) as [ E | E ]; [ | right; intros ->; apply E; reflexivity ].
      assert (X : forall m n : mat3, m = n \/ m <> n).
      { intros [a0 a1 a2 a3 a4 a5 a6 a7 a8] [b0 b1 b2 b3 b4 b5 b6 b7 b8].
        destruct (Req_dec a0 b0) as [ -> | ]; [ | right; congruence ]. destruct (Req_dec a1 b1) as [ -> | ]; [ | right; congruence ].
        destruct (Req_dec a2 b2) as [ -> | ]; [ | right; congruence ]. destruct (Req_dec a3 b3) as [ -> | ]; [ | right; congruence ].
        destruct (Req_dec a4 b4) as [ -> | ]; [ | right; congruence ]. destruct (Req_dec a5 b5) as [ -> | ]; [ | right; congruence ].
        destruct (Req_dec a6 b6) as [ -> | ]; [ | right; congruence ]. destruct (Req_dec a7 b7) as [ -> | ]; [ | right; congruence ].
        destruct (Req_dec a8 b8) as [ -> | ]; [ | right; congruence ]. left. reflexivity. }
      destruct (X (lin G) I3) as [ L | L ]; [ left; apply iso_ext; assumption | right; intros ->; apply L; reflexivity ]. }
    destruct D as [ D | D ]; [ exact D | ]. destruct (commuter_found As G RA RG D C); contradiction.
  - intros H. split.
    + intros (d & N & F). apply N. pose proof (H (iso_trans d) (rigid_trans d) (direction_commutes As d F)) as Q.
      exact (f_equal tr Q).
    + intros (q & u & N & F). destruct (line_commuter As q u RA N F) as (G & RG & C & NI). exact (NI (H G RG C)).
Qed.

(** ** The calibrations that explain perfect data *)
Lemma list_some {A} (l : list A) : l <> [] -> exists a, In a l.
Proof. destruct l as [|a l]; [ congruence | exists a; left; reflexivity ]. Qed.
Lemma he_poses2 u solve cov p r X0 Z0 : honest solve -> optimize2D3D u solve cov p = Ok r ->
  let seen X Z o := target_in_camera X (to_camera_mount o) (to_target_mount o) Z in
  plain_obs (h2_observations p) -> fx (h2_intr p) <> 0 -> fy (h2_intr p) <> 0 ->
  rigid X0 -> rigid Z0 ->
  rigid (he_camera_mount_to_camera r) -> rigid (he_target_mount_to_target r) ->
  (forall o, In o (h2_observations p) ->
     four_flat_points (map in_target (correspondence_set o)) /\
     ~ edge_on (seen X0 Z0 o) /\
     perfect_image (h2_intr p) (seen X0 Z0 o) (correspondence_set o) /\
     all_in_front (seen (he_camera_mount_to_camera r) (he_target_mount_to_target r) o) (correspondence_set o)) ->
  h2_observations p <> [] ->
  (he_final_cost_per_obs r = 0 <->
   forall o, In o (h2_observations p) -> seen (he_camera_mount_to_camera r) (he_target_mount_to_target r) o = seen X0 Z0 o).
Proof.
  intros Ho E seen PO Fx Fy RX0 RZ0 RX RZ D TA. rewrite optimize2D3D_unfold in E. destruct (forallb _ _); [ | discriminate ].
  destruct (he_finish_fields _ _ _ _ _ _ _ E) as (xf & s & Es & _ & Ht & Hm & _ & Hf).
  assert (RC : rigid (poseCalToEigen (fst xf))) by (apply rigid_of_inv; rewrite <- Hm; exact RX).
  assert (BL : forall o c, In o (h2_observations p) -> In c (correspondence_set o) -> blk2 (h2_intr p) (o, c) xf =
     let q := projectPoint_arr (h2_intr p) (iso_app (seen (he_camera_mount_to_camera r) (he_target_mount_to_target r) o) (in_target c)) in
     [px q - px (in_image c); py q - py (in_image c)]).
  { intros o c Io Ic. unfold blk2, seen. destruct xf as [pc pt]. cbn [fst snd] in *. destruct (PO o Io) as [P1 P2].
    rewrite (cost2D3D_physical _ _ _ _ _ (he_camera_mount_to_camera r)); try assumption.
    - rewrite Ht. reflexivity.
    - rewrite Hm, iso_inv_inv by exact RC. reflexivity. }
  rewrite (num_residuals_const _ 2) in Hf by (intros [? ?]; reflexivity). rewrite Hf, per_obs_zero.
  2:{ destruct (list_some _ TA) as [o Io]. destruct (D o Io) as (FF & _).
      destruct (four_flat_nonempty _ FF) as [c Hc]. pose proof (nonempty_in _ _ (proj2 (in_all_pairs _ _ _) (conj Io Hc))). lia. }
  split.
  - intros Z o Io. destruct (PO o Io) as [P1 P2].
      destruct (D o Io) as (FF & NE & PI & AF).
      assert (RS : forall X Z, rigid X -> rigid Z -> rigid (seen X Z o)).
      { intros. apply rigid_mul; [ apply rigid_inv | ]; apply rigid_mul; try assumption; apply plain_rigid; assumption. }
      apply (image_pose (h2_intr p) _ _ (correspondence_set o)); auto. intros c Hc.
      destruct (PI c Hc) as [F1 I1]. pose proof (AF c Hc) as F2.
      split; [ apply front_pos, F2 | split; [ apply front_pos, F1 | ] ].
      assert (Q : forall e, In e (blk2 (h2_intr p) (o, c) xf) -> e = 0).
      { apply (honest_zero _ _ _ _ _ Ho Es Z). apply in_map, in_all_pairs. auto. }
      rewrite (BL o c Io Hc) in Q. cbv zeta in Q. rewrite arr_pinhole, I1 in Q by (apply front_pos in F2; lra).
      pose proof (Q _ (or_introl eq_refl)). pose proof (Q _ (or_intror (or_introl eq_refl))).
      apply vec2_ext; lra.
  - intros EQ. apply (honest_cost _ _ _ _ _ Ho Es). intros f If e He.
    apply in_map_iff in If as ([o c] & <- & Hc). apply in_all_pairs in Hc as [Io Hc].
    destruct (D o Io) as (_ & _ & PI & _). destruct (PI c Hc) as [F1 I1].
    rewrite (BL o c Io Hc), (EQ o Io) in He. cbv zeta in He. rewrite arr_pinhole, I1 in He by (apply front_pos in F1; lra).
    cbn [In] in He. destruct He as [<-|[<-|[]]]; lra.
Qed.
Lemma he_poses3 u solve cov p r X0 Z0 : honest solve -> optimize3D3D u solve cov p = Ok r ->
  let seen X Z o := target_in_camera X (to_camera_mount o) (to_target_mount o) Z in
  plain_obs (h3_observations p) -> rigid X0 -> rigid Z0 ->
  rigid (he_camera_mount_to_camera r) -> rigid (he_target_mount_to_target r) ->
  (forall o, In o (h3_observations p) ->
     not_on_a_line (map in_target (correspondence_set o)) /\
     perfect_points (seen X0 Z0 o) (correspondence_set o)) ->
  h3_observations p <> [] ->
  (he_final_cost_per_obs r = 0 <->
   forall o, In o (h3_observations p) -> seen (he_camera_mount_to_camera r) (he_target_mount_to_target r) o = seen X0 Z0 o).
Proof.
  intros Ho E seen PO RX0 RZ0 RX RZ D TA. rewrite optimize3D3D_unfold in E.
  destruct (he_finish_fields _ _ _ _ _ _ _ E) as (xf & s & Es & _ & Ht & Hm & _ & Hf).
  assert (RC : rigid (poseCalToEigen (fst xf))) by (apply rigid_of_inv; rewrite <- Hm; exact RX).
  assert (BL : forall o c, In o (h3_observations p) -> In c (correspondence_set o) -> blk3 (o, c) xf =
     let q := iso_app (seen (he_camera_mount_to_camera r) (he_target_mount_to_target r) o) (in_target c) in
     [vx q - vx (in_image c); vy q - vy (in_image c); vz q - vz (in_image c)]).
  { intros o c Io Ic. unfold blk3, seen. destruct xf as [pc pt]. cbn [fst snd] in *. destruct (PO o Io) as [P1 P2].
    rewrite (cost3D3D_physical _ _ _ _ (he_camera_mount_to_camera r)); try assumption.
    - rewrite Ht. reflexivity.
    - rewrite Hm, iso_inv_inv by exact RC. reflexivity. }
  rewrite (num_residuals_const _ 3) in Hf by (intros [? ?]; reflexivity). rewrite Hf, per_obs_zero.
  2:{ destruct (list_some _ TA) as [o Io]. destruct (D o Io) as (FF & _).
      destruct (not_on_a_line_nonempty _ FF) as [c Hc]. pose proof (nonempty_in _ _ (proj2 (in_all_pairs _ _ _) (conj Io Hc))). lia. }
  split.
  - intros Z o Io. destruct (PO o Io) as [P1 P2].
      destruct (D o Io) as (FF & PI).
      assert (RS : forall X Z, rigid X -> rigid Z -> rigid (seen X Z o)).
      { intros. apply rigid_mul; [ apply rigid_inv | ]; apply rigid_mul; try assumption; apply plain_rigid; assumption. }
      apply (points_pose _ _ (correspondence_set o)); auto. intros c Hc.
      assert (Q : forall e, In e (blk3 (o, c) xf) -> e = 0).
      { apply (honest_zero _ _ _ _ _ Ho Es Z). apply in_map, in_all_pairs. auto. }
      rewrite (BL o c Io Hc) in Q. cbv zeta in Q. rewrite (PI c Hc) in Q.
      pose proof (Q _ (or_introl eq_refl)). pose proof (Q _ (or_intror (or_introl eq_refl))).
      pose proof (Q _ (or_intror (or_intror (or_introl eq_refl)))).
      apply vec3_ext; lra.
  - intros EQ. apply (honest_cost _ _ _ _ _ Ho Es). intros f If e He.
    apply in_map_iff in If as ([o c] & <- & Hc). apply in_all_pairs in Hc as [Io Hc].
    destruct (D o Io) as (_ & PI).
    rewrite (BL o c Io Hc), (EQ o Io), (PI c Hc) in He.
    cbn [In] in He. destruct He as [<-|[<-|[<-|[]]]]; lra.
Qed.

Lemma same_views_alternative {I} (os : list (observation I)) X Z X0 Z0 : rigid X -> rigid X0 -> rigid Z0 ->
  (forall o, In o os -> rigid (to_camera_mount o) /\ rigid (to_target_mount o)) ->
  (forall o, In o os -> target_in_camera X (to_camera_mount o) (to_target_mount o) Z =
     target_in_camera X0 (to_camera_mount o) (to_target_mount o) Z0) <->
  alternative (map mounts os) X0 Z0 X Z.
Proof.
  intros HX HX0 HZ0 RO. set (D := iso_mul X (iso_inv X0)).
  assert (HD : rigid D) by (apply rigid_mul; [ exact HX | apply rigid_inv, HX0 ]).
  assert (RW : forall W, In W (map mounts os) -> rigid W).
  { intros W HW. apply in_map_iff in HW as (o & <- & Io). destruct (RO o Io). apply mounts_rigid; assumption. }
  split.
  - intros E.
    assert (F : forall W, In W (map mounts os) -> iso_mul W Z = iso_mul D (iso_mul W Z0)).
    { intros W HW. apply in_map_iff in HW as (o & <- & Io). destruct (RO o Io) as [R1 R2]. pose proof (E o Io) as Q.
      rewrite !tic_mounts in Q by assumption.
      apply (cancel_l (iso_inv X)); [ apply rigid_inv, HX | ]. rewrite Q. unfold D.
      rewrite <- !iso_mul_assoc, iso_inv_l, iso_mul_id_l by exact HX. reflexivity. }
    exists D. split; [ exact HD | split; [ | split; [ | exact F ] ] ].
    + intros A HA. apply in_motions_of in HA as (W & W' & IW & IW' & ->).
      pose proof (RW W IW) as R1. pose proof (RW W' IW') as R2.
      apply (cancel_r (iso_mul W' Z0)); [ apply rigid_mul; assumption | ].
      rewrite !iso_mul_assoc. rewrite <- (F W' IW').
      rewrite <- (iso_mul_assoc (iso_inv W') W' Z0), <- (iso_mul_assoc (iso_inv W') W' Z), !iso_inv_l, !iso_mul_id_l by exact R2.
      symmetry. apply (F W IW).
    + unfold D. rewrite iso_mul_assoc, iso_inv_l, iso_mul_id_r by exact HX0. reflexivity.
  - intros (G & RG & C & -> & F) o Io. destruct (RO o Io) as [R1 R2].
    rewrite !tic_mounts by assumption. rewrite (F (mounts o) (in_map _ _ _ Io)), iso_inv_mul by exact RG.
    rewrite !iso_mul_assoc. rewrite <- (iso_mul_assoc (iso_inv G) G), iso_inv_l, iso_mul_id_l by exact RG. reflexivity.
Qed.
(** Every motion that changes none of the motions gives an alternative. *)
Lemma alternative_exists Ws X0 Z0 G : rigid G -> (forall W, In W Ws -> rigid W) -> rigid Z0 ->
  (forall A, In A (motions_of Ws) -> iso_mul G A = iso_mul A G) ->
  exists Z, rigid Z /\ alternative Ws X0 Z0 (iso_mul G X0) Z.
Proof.
  intros RG RW RZ C. destruct Ws as [|W0 Ws].
  { exists Z0. split; [ exact RZ | ]. exists G. split; [ exact RG | split; [ exact C | split; [ reflexivity | intros W [] ] ] ]. }
  pose proof (RW W0 (or_introl eq_refl)) as R0.
  exists (iso_mul (iso_inv W0) (iso_mul G (iso_mul W0 Z0))). split.
  { repeat apply rigid_mul; try assumption. apply rigid_inv, R0. }
  exists G. split; [ exact RG | split; [ exact C | split; [ reflexivity | ] ] ]. intros W HW.
  assert (IA : In (iso_mul W (iso_inv W0)) (motions_of (W0 :: Ws))).
  { unfold motions_of. apply in_flat_map. exists W. split; [ exact HW | ]. apply in_map_iff. exists W0. split; [ reflexivity | left; reflexivity ]. }
  rewrite <- iso_mul_assoc. rewrite <- (iso_mul_assoc _ G), <- (C _ IA), !iso_mul_assoc.
  rewrite <- (iso_mul_assoc (iso_inv W0) W0), iso_inv_l, iso_mul_id_l by exact R0. reflexivity.
Qed.
Lemma motions_rigid Ws : (forall W, In W Ws -> rigid W) -> forall A, In A (motions_of Ws) -> rigid A.
Proof.
  intros RW A HA. apply in_motions_of in HA as (W & W' & IW & IW' & ->). apply rigid_mul; [ | apply rigid_inv ]; auto.
Qed.
Lemma alternative_only Ws X0 Z0 : (forall W, In W Ws -> rigid W) -> Ws <> [] -> tell_all (motions_of Ws) ->
  forall X Z, alternative Ws X0 Z0 X Z <-> X = X0 /\ Z = Z0.
Proof.
  intros RW NE TA X Z. split.
  - intros (G & RG & C & -> & F). pose proof (proj1 (tell_all_iff _ (motions_rigid Ws RW)) TA G RG C) as ->.
    rewrite iso_mul_id_l. split; [ reflexivity | ]. destruct (list_some _ NE) as [W HW]. apply (cancel_l W); [ apply RW, HW | ].
    rewrite (F W HW), iso_mul_id_l. reflexivity.
  - intros [-> ->]. exists iso_id. split; [ exact rigid_id | split; [ | split ] ].
    + intros A _. rewrite iso_mul_id_l, iso_mul_id_r. reflexivity.
    + rewrite iso_mul_id_l. reflexivity.
    + intros W _. rewrite iso_mul_id_l. reflexivity.
Qed.
Lemma two_axes_tell As : (forall A, In A As -> rigid A) -> two_axes As -> tell_all As.
Proof. intros RA TA. apply (tell_all_iff As RA). intros G RG C. exact (commuting_identity G As RG TA C). Qed.

(** Otherwise something that is not the identity commutes. *)
Lemma not_told As : (forall A, In A As -> rigid A) -> leave_a_direction As \/ keep_a_line As ->
  exists G, rigid G /\ commute_with As G /\ G <> iso_id.
Proof.
  intros RA [ L | L ].
  - destruct L as (d & N & F). exists (iso_trans d). split; [ apply rigid_trans | split; [ apply direction_commutes, F | ] ].
    intros Q. apply N. exact (f_equal tr Q).
  - destruct L as (q & u & N & F). exact (line_commuter As q u RA N F).
Qed.
Lemma plain_obs_rigid {I} (os : list (observation I)) : plain_obs os ->
  forall o, In o os -> rigid (to_camera_mount o) /\ rigid (to_target_mount o).
Proof. intros PO o Io. destruct (PO o Io). split; apply plain_rigid; assumption. Qed.
Lemma mounts_all_rigid {I} (os : list (observation I)) : (forall o, In o os -> rigid (to_camera_mount o) /\ rigid (to_target_mount o)) ->
  forall W, In W (map mounts os) -> rigid W.
Proof. intros RO W HW. apply in_map_iff in HW as (o & <- & Io). destruct (RO o Io). apply mounts_rigid; assumption. Qed.

(** ** What the property says *)
Lemma images_alternatives u solve cov p r X0 Z0 : honest solve -> optimize2D3D u solve cov p = Ok r ->
  let seen X Z o := target_in_camera X (to_camera_mount o) (to_target_mount o) Z in
  plain_obs (h2_observations p) -> fx (h2_intr p) <> 0 -> fy (h2_intr p) <> 0 ->
  rigid X0 -> rigid Z0 ->
  rigid (he_camera_mount_to_camera r) -> rigid (he_target_mount_to_target r) ->
  (forall o, In o (h2_observations p) ->
     four_flat_points (map in_target (correspondence_set o)) /\
     ~ edge_on (seen X0 Z0 o) /\
     perfect_image (h2_intr p) (seen X0 Z0 o) (correspondence_set o) /\
     all_in_front (seen (he_camera_mount_to_camera r) (he_target_mount_to_target r) o) (correspondence_set o)) ->
  h2_observations p <> [] ->
  (he_final_cost_per_obs r = 0 <->
   alternative (map mounts (h2_observations p)) X0 Z0 (he_camera_mount_to_camera r) (he_target_mount_to_target r)).
Proof.
  intros Ho E seen PO Fx Fy RX0 RZ0 RX RZ D NE.
  rewrite (he_poses2 u solve cov p r X0 Z0 Ho E PO Fx Fy RX0 RZ0 RX RZ D NE).
  exact (same_views_alternative _ _ _ X0 Z0 RX RX0 RZ0 (plain_obs_rigid _ PO)).
Qed.
Lemma points_alternatives u solve cov p r X0 Z0 : honest solve -> optimize3D3D u solve cov p = Ok r ->
  let seen X Z o := target_in_camera X (to_camera_mount o) (to_target_mount o) Z in
  plain_obs (h3_observations p) -> rigid X0 -> rigid Z0 ->
  rigid (he_camera_mount_to_camera r) -> rigid (he_target_mount_to_target r) ->
  (forall o, In o (h3_observations p) ->
     not_on_a_line (map in_target (correspondence_set o)) /\
     perfect_points (seen X0 Z0 o) (correspondence_set o)) ->
  h3_observations p <> [] ->
  (he_final_cost_per_obs r = 0 <->
   alternative (map mounts (h3_observations p)) X0 Z0 (he_camera_mount_to_camera r) (he_target_mount_to_target r)).
Proof.
  intros Ho E seen PO RX0 RZ0 RX RZ D NE.
  rewrite (he_poses3 u solve cov p r X0 Z0 Ho E PO RX0 RZ0 RX RZ D NE).
  exact (same_views_alternative _ _ _ X0 Z0 RX RX0 RZ0 (plain_obs_rigid _ PO)).
Qed.
Lemma images_told u solve cov p r X0 Z0 : honest solve -> optimize2D3D u solve cov p = Ok r ->
  let seen X Z o := target_in_camera X (to_camera_mount o) (to_target_mount o) Z in
  plain_obs (h2_observations p) -> fx (h2_intr p) <> 0 -> fy (h2_intr p) <> 0 ->
  rigid X0 -> rigid Z0 ->
  rigid (he_camera_mount_to_camera r) -> rigid (he_target_mount_to_target r) ->
  (forall o, In o (h2_observations p) ->
     four_flat_points (map in_target (correspondence_set o)) /\
     ~ edge_on (seen X0 Z0 o) /\
     perfect_image (h2_intr p) (seen X0 Z0 o) (correspondence_set o) /\
     all_in_front (seen (he_camera_mount_to_camera r) (he_target_mount_to_target r) o) (correspondence_set o)) ->
  h2_observations p <> [] -> tell_all (motions_of (map mounts (h2_observations p))) ->
  (he_final_cost_per_obs r = 0 <-> he_camera_mount_to_camera r = X0 /\ he_target_mount_to_target r = Z0).
Proof.
  intros Ho E seen PO Fx Fy RX0 RZ0 RX RZ D NE TA.
  rewrite (images_alternatives u solve cov p r X0 Z0 Ho E PO Fx Fy RX0 RZ0 RX RZ D NE).
  apply alternative_only; [ exact (mounts_all_rigid _ (plain_obs_rigid _ PO)) | | exact TA ].
  intros N. apply map_eq_nil in N. contradiction.
Qed.
Lemma points_told u solve cov p r X0 Z0 : honest solve -> optimize3D3D u solve cov p = Ok r ->
  let seen X Z o := target_in_camera X (to_camera_mount o) (to_target_mount o) Z in
  plain_obs (h3_observations p) -> rigid X0 -> rigid Z0 ->
  rigid (he_camera_mount_to_camera r) -> rigid (he_target_mount_to_target r) ->
  (forall o, In o (h3_observations p) ->
     not_on_a_line (map in_target (correspondence_set o)) /\
     perfect_points (seen X0 Z0 o) (correspondence_set o)) ->
  h3_observations p <> [] -> tell_all (motions_of (map mounts (h3_observations p))) ->
  (he_final_cost_per_obs r = 0 <-> he_camera_mount_to_camera r = X0 /\ he_target_mount_to_target r = Z0).
Proof.
  intros Ho E seen PO RX0 RZ0 RX RZ D NE TA.
  rewrite (points_alternatives u solve cov p r X0 Z0 Ho E PO RX0 RZ0 RX RZ D NE).
  apply alternative_only; [ exact (mounts_all_rigid _ (plain_obs_rigid _ PO)) | | exact TA ].
  intros N. apply map_eq_nil in N. contradiction.
Qed.
Lemma another_calibration I (os : list (observation I)) X0 Z0 : rigid X0 -> rigid Z0 ->
  (forall o, In o os -> rigid (to_camera_mount o) /\ rigid (to_target_mount o)) ->
  leave_a_direction (motions_of (map mounts os)) \/ keep_a_line (motions_of (map mounts os)) ->
  exists X Z, rigid X /\ rigid Z /\ X <> X0 /\
    forall o, In o os -> target_in_camera X (to_camera_mount o) (to_target_mount o) Z =
      target_in_camera X0 (to_camera_mount o) (to_target_mount o) Z0.
Proof.
  intros RX RZ RO L. pose proof (mounts_all_rigid os RO) as RW.
  destruct (not_told _ (motions_rigid _ RW) L) as (G & RG & C & N).
  destruct (alternative_exists (map mounts os) X0 Z0 G RG RW RZ C) as (Z & RZ' & AL).
  assert (RX' : rigid (iso_mul G X0)) by (apply rigid_mul; assumption).
  exists (iso_mul G X0), Z. split; [ exact RX' | split; [ exact RZ' | split ] ].
  - intros Q. apply N. apply (cancel_r X0); [ exact RX | ]. rewrite iso_mul_id_l. exact Q.
  - apply (same_views_alternative os (iso_mul G X0) Z X0 Z0 RX' RX RZ RO). exact AL.
Qed.
Lemma only_identity_commutes As : (forall A, In A As -> rigid A) ->
  tell_all As <-> (forall G, rigid G -> (forall A, In A As -> iso_mul G A = iso_mul A G) -> G = iso_id).
Proof. exact (tell_all_iff As). Qed.

(** ** Examples *)
Definition halves : list iso := [iso_id; iso_rot (half_turn unitX); iso_rot (half_turn unitY)].
Lemma halves_rigid W : In W halves -> rigid W.
Proof. intros [<-|[<-|[<-|[]]]]; [ exact rigid_id | | ]; apply aa_matrix_rot; unfold dot; cbn; lra. Qed.
Lemma halves_axis_x : In (iso_rot (half_turn unitX)) (motions_of halves).
Proof.
  unfold motions_of. apply in_flat_map. exists (iso_rot (half_turn unitX)). split; [ right; left; reflexivity | ].
  apply in_map_iff. exists iso_id. split; [ | left; reflexivity ]. replace (iso_inv iso_id) with iso_id; [ apply iso_mul_id_r | ].
  rewrite <- (iso_mul_id_l (iso_inv iso_id)). symmetry. apply iso_inv_r, rigid_id.
Qed.
Lemma halves_axis_y : In (iso_rot (half_turn unitY)) (motions_of halves).
Proof.
  unfold motions_of. apply in_flat_map. exists (iso_rot (half_turn unitY)). split; [ right; right; left; reflexivity | ].
  apply in_map_iff. exists iso_id. split; [ | left; reflexivity ]. replace (iso_inv iso_id) with iso_id; [ apply iso_mul_id_r | ].
  rewrite <- (iso_mul_id_l (iso_inv iso_id)). symmetry. apply iso_inv_r, rigid_id.
Qed.
Lemma halves_no_direction : ~ leave_a_direction (motions_of halves).
Proof.
  intros (d & N & F). apply N. pose proof (F _ halves_axis_x) as X. pose proof (F _ halves_axis_y) as Y. cbn [iso_rot lin] in X, Y.
  rewrite half_turn_vec in X, Y by (unfold dot; cbn; lra). destruct d as [a b c]. unfold vsub, vscale, dot in X, Y. cbn in X, Y.
  injection X as X1 X2 X3. injection Y as Y1 Y2 Y3. unfold vzero. apply vec3_ext; cbn; lra.
Qed.
(** They turn the z axis into itself. *)
Lemma halves_line : keep_a_line (motions_of halves).
Proof.
  exists vzero, unitZ. split; [ intros Q; pose proof (f_equal vz Q) as Z; cbn in Z; lra | ].
  assert (K : forall W x, In W halves -> on_line vzero unitZ x -> on_line vzero unitZ (iso_app W x) /\ on_line vzero unitZ (iso_app (iso_inv W) x)).
  { assert (KW : forall W x, In W halves -> on_line vzero unitZ x -> on_line vzero unitZ (iso_app W x)).
    { intros W x [<-|[<-|[<-|[]]]] [s ->].
      - exists s. apply iso_app_id.
      - exists (- s). unfold iso_app. cbn [iso_rot lin tr]. rewrite half_turn_vec by (unfold dot; cbn; lra).
        unfold vadd, vsub, vscale, dot, vzero, unitX, unitZ. apply vec3_ext; cbn; ring.
      - exists (- s). unfold iso_app. cbn [iso_rot lin tr]. rewrite half_turn_vec by (unfold dot; cbn; lra).
        unfold vadd, vsub, vscale, dot, vzero, unitY, unitZ. apply vec3_ext; cbn; ring. }
    assert (SI : forall W, In W halves -> iso_inv W = W).
    { intros W HW. apply (cancel_l W); [ apply halves_rigid, HW | ]. rewrite iso_inv_r by apply halves_rigid, HW. symmetry.
      apply iso_by_points. intros x. rewrite iso_app_mul, iso_app_id.
      destruct HW as [<-|[<-|[<-|[]]]]; [ rewrite !iso_app_id; reflexivity | | ]; unfold iso_app; cbn [iso_rot lin tr];
        rewrite !half_turn_vec by (unfold dot; cbn; lra); unfold vadd, vsub, vscale, dot, vzero, unitX, unitY; apply vec3_ext; cbn; ring. }
    intros W x HW Hx. rewrite (SI W HW). split; apply KW; assumption. }
  intros A HA x Hx. apply in_motions_of in HA as (W & W' & IW & IW' & ->). rewrite iso_app_mul.
  apply K; [ exact IW | ]. apply K; assumption.
Qed.
Lemma ex_tell_all : tell_all (motions_of (map mounts (h2_observations ex_he2))) /\ tell_all (motions_of (map mounts (h3_observations ex_he3))).
Proof.
  assert (T : tell_all (motions_of ex_mounts)).
  { apply two_axes_tell.
    - apply motions_rigid. intros W [<-|[<-|[<-|[]]]]; [ exact rigid_id | | ]; apply aa_matrix_rot; unfold dot; cbn; lra.
    - apply ex_two_axes; cbn; auto. }
  rewrite ex_mounts2, ex_mounts3. split; exact T.
Qed.
Lemma ex_halves : ~ leave_a_direction (motions_of halves) /\ keep_a_line (motions_of halves) /\
  (exists A B, In A (motions_of halves) /\ In B (motions_of halves) /\ lin A = aa_matrix PI unitX /\ lin B = aa_matrix PI unitY).
Proof.
  split; [ exact halves_no_direction | split; [ exact halves_line | ] ].
  exists (iso_rot (half_turn unitX)), (iso_rot (half_turn unitY)).
  split; [ exact halves_axis_x | split; [ exact halves_axis_y | split; reflexivity ] ].
Qed.
