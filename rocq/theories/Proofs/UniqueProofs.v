(** C77, C78: when a zero cost means that the transforms found are the true ones. *)
From Coq Require Import Reals Lra Psatz Arith Lia List.
From Verif.Base Require Import Geom Outcome Matrix.
From Verif.Model Require Import Pose Covariance Solver HandEye Pnp.
From Verif.Spec Require Import PinHole Frames HomographySpec PnpSpec UniqueSpec.
From Verif.Proofs Require Import GeomLemmas RotLemmas AngleAxisLemmas PoseProofs ListLemmas CovarianceProofs HandEyeProofs PnpProofs UniqueLemmas.
Import ListNotations.
Local Open Scope R_scope.

Lemma honest_zero {X} (solve : solver X) blocks x0 x s : honest solve -> solve blocks x0 = (x, s) -> final_cost s = 0 ->
  forall f, In f blocks -> forall e, In e (f x) -> e = 0.
Proof.
  intros H E Z f If e Ie. specialize (H blocks x0). rewrite E in H. rewrite Z in H.
  apply (half_squares_zero _ (eq_sym H)). apply in_flat_map. eauto.
Qed.
Lemma honest_cost {X} (solve : solver X) blocks x0 x s : honest solve -> solve blocks x0 = (x, s) ->
  (forall f, In f blocks -> forall e, In e (f x) -> e = 0) -> final_cost s = 0.
Proof.
  intros H E Z. specialize (H blocks x0). rewrite E in H. rewrite H. apply half_squares_all_zero.
  intros e He. apply in_flat_map in He as (f & If & Ie). eauto.
Qed.
Lemma per_obs_zero c n : (n <> 0)%nat -> (c / INR n = 0 <-> c = 0).
Proof.
  intros N. assert (P : INR n <> 0) by (apply not_0_INR, N). split.
  - intros E. apply (Rmult_eq_reg_r (/ INR n)); [ unfold Rdiv in E; lra | apply Rinv_neq_0_compat, P ].
  - intros ->. unfold Rdiv. apply Rmult_0_l.
Qed.
Lemma nonempty_in {A} (x : A) l : In x l -> List.length l <> 0%nat.
Proof. destruct l; [ intros [] | discriminate ]. Qed.
Lemma four_flat_nonempty {I} (cs : list (correspondence I)) : four_flat_points (map in_target cs) -> exists c, In c cs.
Proof.
  intros (a & _ & _ & _ & Ha & _). apply in_map_iff in Ha as (c & _ & Hc). eauto.
Qed.
Lemma not_on_a_line_nonempty {I} (cs : list (correspondence I)) : not_on_a_line (map in_target cs) -> exists c, In c cs.
Proof.
  intros (a & _ & _ & Ha & _). apply in_map_iff in Ha as (c & _ & Hc). eauto.
Qed.
Lemma vec2_ext p q : px p = px q -> py p = py q -> p = q.
Proof. destruct p, q; cbn; intros -> ->; reflexivity. Qed.
Lemma front_pos p : in_front p -> 0 < vz p.
Proof. unfold in_front. intros H. assert (0 < 1 / 10 ^ 10) by (apply Rdiv_lt_0_compat; lra). lra. Qed.

(** ** C77 *)
Lemma pnp_unique2 u solve cov p r T : honest solve -> optimizePnP u solve cov p = Ok r ->
  rigid T -> ~ edge_on T -> fx (pnp_intr p) <> 0 -> fy (pnp_intr p) <> 0 ->
  four_flat_points (map in_target (pnp_correspondences p)) ->
  perfect_image (pnp_intr p) T (pnp_correspondences p) ->
  all_in_front (pnp_camera_to_target r) (pnp_correspondences p) ->
  (pnp_final_cost_per_obs r = 0 <-> pnp_camera_to_target r = T).
Proof.
  intros Ho E RT NE Fx Fy FF PI AF. rewrite optimizePnP_unfold in E.
  pose proof (pnp_finish_rigid _ _ _ _ _ _ _ E) as RR.
  destruct (pnp_finish_fields _ _ _ _ _ _ _ E) as (x & s & Es & _ & Ht & _ & Hf).
  rewrite (num_residuals_const _ 2) in Hf by reflexivity. rewrite Hf, per_obs_zero.
  2:{ destruct (four_flat_nonempty _ FF) as [c Hc]. pose proof (nonempty_in _ _ Hc). lia. }
  split.
  - intros Z. apply (image_pose (pnp_intr p) _ _ (pnp_correspondences p)); auto. intros c Hc.
    destruct (PI c Hc) as [F1 I1]. pose proof (AF c Hc) as F2.
    split; [ apply front_pos, F2 | split; [ apply front_pos, F1 | ] ].
    assert (Q : forall e, In e (pnp_cost (pnp_intr p) (in_target c) (in_image c) x) -> e = 0).
    { apply (honest_zero _ _ _ _ _ Ho Es Z). apply in_map_iff. exists c. auto. }
    rewrite pnp_cost_pinhole in Q by (rewrite <- Ht; exact F2). unfold pixel_error in Q. rewrite <- Ht, I1 in Q.
    pose proof (Q _ (or_introl eq_refl)). pose proof (Q _ (or_intror (or_introl eq_refl))).
    apply vec2_ext; lra.
  - intros ET. apply (honest_cost _ _ _ _ _ Ho Es). intros f If e He.
    apply in_map_iff in If as (c & <- & Hc). destruct (PI c Hc) as [F1 I1].
    rewrite pnp_cost_pinhole in He by (rewrite <- Ht, ET; exact F1). unfold pixel_error in He. rewrite <- Ht, ET, I1 in He.
    cbn [In] in He. destruct He as [<-|[<-|[]]]; lra.
Qed.
Lemma pnp_unique3 u solve cov p r T : honest solve -> optimizePnP3D u solve cov p = Ok r ->
  rigid T -> not_on_a_line (map in_target (pnp3_correspondences p)) ->
  perfect_points T (pnp3_correspondences p) ->
  (pnp_final_cost_per_obs r = 0 <-> pnp_camera_to_target r = T).
Proof.
  intros Ho E RT NL PI. rewrite optimizePnP3D_unfold in E.
  pose proof (pnp_finish_rigid _ _ _ _ _ _ _ E) as RR.
  destruct (pnp_finish_fields _ _ _ _ _ _ _ E) as (x & s & Es & _ & Ht & _ & Hf).
  rewrite (num_residuals_const _ 3) in Hf by reflexivity. rewrite Hf, per_obs_zero.
  2:{ destruct (not_on_a_line_nonempty _ NL) as [c Hc]. pose proof (nonempty_in _ _ Hc). lia. }
  split.
  - intros Z. apply (points_pose _ _ (pnp3_correspondences p)); auto. intros c Hc.
    assert (Q : forall e, In e (pnp_cost3D (in_target c) (in_image c) x) -> e = 0).
    { apply (honest_zero _ _ _ _ _ Ho Es Z). apply in_map_iff. exists c. auto. }
    rewrite pnp_cost3D_eq in Q. unfold point_error in Q. rewrite <- Ht, (PI c Hc) in Q.
    pose proof (Q _ (or_introl eq_refl)). pose proof (Q _ (or_intror (or_introl eq_refl))).
    pose proof (Q _ (or_intror (or_intror (or_introl eq_refl)))).
    apply vec3_ext; lra.
  - intros ET. apply (honest_cost _ _ _ _ _ Ho Es). intros f If e He.
    apply in_map_iff in If as (c & <- & Hc).
    rewrite pnp_cost3D_eq in He. unfold point_error in He. rewrite <- Ht, ET, (PI c Hc) in He.
    cbn [In] in He. destruct He as [<-|[<-|[<-|[]]]]; lra.
Qed.

(** ** C78 *)
Lemma tic_mounts {I} X Z (o : observation I) : rigid X -> rigid (to_camera_mount o) ->
  target_in_camera X (to_camera_mount o) (to_target_mount o) Z = iso_mul (iso_inv X) (iso_mul (mounts o) Z).
Proof.
  intros HX HM. unfold target_in_camera, mounts. rewrite iso_inv_mul by exact HM. rewrite !iso_mul_assoc. reflexivity.
Qed.
Lemma cancel_l A B C : rigid A -> iso_mul A B = iso_mul A C -> B = C.
Proof.
  intros H E. apply (f_equal (iso_mul (iso_inv A))) in E. rewrite <- !iso_mul_assoc, iso_inv_l, !iso_mul_id_l in E by exact H. exact E.
Qed.
Lemma cancel_r A B C : rigid A -> iso_mul B A = iso_mul C A -> B = C.
Proof.
  intros H E. apply (f_equal (fun T => iso_mul T (iso_inv A))) in E. rewrite !iso_mul_assoc, iso_inv_r, !iso_mul_id_r in E by exact H. exact E.
Qed.
Lemma two_axes_nonempty As : two_axes As -> exists A, In A As.
Proof. intros (A & _ & _ & _ & H & _). eauto. Qed.
Lemma in_motions_of A Ws : In A (motions_of Ws) -> exists W W', In W Ws /\ In W' Ws /\ A = iso_mul W (iso_inv W').
Proof.
  unfold motions_of. intros H. apply in_flat_map in H as (W & HW & H). apply in_map_iff in H as (W' & <- & H). eauto 6.
Qed.

(** The hand-eye equation has one solution. *)
Lemma hand_eye_unique X Z X0 Z0 Ws : rigid X -> rigid Z -> rigid X0 -> rigid Z0 -> (forall W, In W Ws -> rigid W) ->
  two_axes (motions_of Ws) ->
  (forall W, In W Ws -> iso_mul (iso_inv X) (iso_mul W Z) = iso_mul (iso_inv X0) (iso_mul W Z0)) ->
  X = X0 /\ Z = Z0.
Proof.
  intros HX HZ HX0 HZ0 HW TA E. set (D := iso_mul X (iso_inv X0)).
  assert (HD : rigid D) by (apply rigid_mul; [ exact HX | apply rigid_inv, HX0 ]).
  assert (F : forall W, In W Ws -> iso_mul W Z = iso_mul D (iso_mul W Z0)).
  { intros W IW. apply (cancel_l (iso_inv X)); [ apply rigid_inv, HX | ]. rewrite (E W IW). unfold D.
    rewrite <- !iso_mul_assoc, iso_inv_l, iso_mul_id_l by exact HX. reflexivity. }
  assert (ID : D = iso_id).
  { apply (commuting_identity D _ HD TA). intros A HA. apply in_motions_of in HA as (W & W' & IW & IW' & ->).
    pose proof (HW W IW) as RW. pose proof (HW W' IW') as RW'.
    (* W Z = D W Z0 and W' Z = D W' Z0 *)
    apply (cancel_r (iso_mul W' Z0)); [ apply rigid_mul; assumption | ].
    rewrite !iso_mul_assoc. rewrite <- (F W' IW').
    rewrite <- (iso_mul_assoc (iso_inv W') W' Z0), <- (iso_mul_assoc (iso_inv W') W' Z), !iso_inv_l, !iso_mul_id_l by exact RW'.
    symmetry. apply (F W IW). }
  assert (EX : X = X0).
  { apply (cancel_r (iso_inv X0)); [ apply rigid_inv, HX0 | ]. rewrite iso_inv_r by exact HX0. exact ID. }
  split; [ exact EX | ]. destruct (two_axes_nonempty _ TA) as [A HA]. apply in_motions_of in HA as (W & _ & IW & _).
  apply (cancel_l W); [ apply HW, IW | ]. rewrite (F W IW), ID, iso_mul_id_l. reflexivity.
Qed.

Lemma mounts_rigid {I} (o : observation I) : rigid (to_camera_mount o) -> rigid (to_target_mount o) -> rigid (mounts o).
Proof. intros. apply rigid_mul; [ apply rigid_inv | ]; assumption. Qed.
Lemma rigid_of_inv T : rigid (iso_inv T) -> rigid T.
Proof.
  unfold rigid, iso_inv; cbn [lin]. intros H. apply is_rot_mT in H. rewrite mT_mT in H. exact H.
Qed.

(** The true calibration and what a perfect hand-eye data set is. *)
Lemma he_unique2 u solve cov p r X0 Z0 : honest solve -> optimize2D3D u solve cov p = Ok r ->
  let seen X Z o := target_in_camera X (to_camera_mount o) (to_target_mount o) Z in
  plain_obs (h2_observations p) -> fx (h2_intr p) <> 0 -> fy (h2_intr p) <> 0 ->
  rigid X0 -> rigid Z0 ->
  rigid (he_camera_mount_to_camera r) -> rigid (he_target_mount_to_target r) ->
  (forall o, In o (h2_observations p) ->
     four_flat_points (map in_target (correspondence_set o)) /\
     ~ edge_on (seen X0 Z0 o) /\
     perfect_image (h2_intr p) (seen X0 Z0 o) (correspondence_set o) /\
     all_in_front (seen (he_camera_mount_to_camera r) (he_target_mount_to_target r) o) (correspondence_set o)) ->
  two_axes (motions_of (map mounts (h2_observations p))) ->
  (he_final_cost_per_obs r = 0 <-> he_camera_mount_to_camera r = X0 /\ he_target_mount_to_target r = Z0).
Proof.
  intros Ho E seen PO Fx Fy RX0 RZ0 RX RZ D TA. rewrite optimize2D3D_unfold in E. destruct (forallb _ _); [ | discriminate ].
  destruct (he_finish_fields _ _ _ _ _ _ _ E) as (xf & s & Es & _ & Ht & Hm & _ & Hf).
  assert (RC : rigid (poseCalToEigen (fst xf))) by (apply rigid_of_inv; rewrite <- Hm; exact RX).
  assert (BL : forall o c, In o (h2_observations p) -> In c (correspondence_set o) -> blk2 (h2_intr p) (o, c) xf =
     let q := projectPoint_arr (h2_intr p) (iso_app (seen (he_camera_mount_to_camera r) (he_target_mount_to_target r) o) (in_target c)) in
     [px q - px (in_image c); py q - py (in_image c)]).
  { intros o c Io Ic. unfold blk2, seen. destruct xf as [pc pt]. cbn [fst snd] in *. destruct (PO o Io) as [P1 P2].
    rewrite (cost2D3D_physical _ _ _ _ _ (he_camera_mount_to_camera r)); try assumption.
    - rewrite Ht. reflexivity.
    - rewrite Hm, iso_inv_inv by exact RC. reflexivity. }
  rewrite (num_residuals_const _ 2) in Hf by (intros [? ?]; reflexivity). rewrite Hf, per_obs_zero.
  2:{ destruct (two_axes_nonempty _ TA) as [A HA]. apply in_motions_of in HA as (W & _ & IW & _).
      apply in_map_iff in IW as (o & _ & Io). destruct (D o Io) as (FF & _).
      destruct (four_flat_nonempty _ FF) as [c Hc]. pose proof (nonempty_in _ _ (proj2 (in_all_pairs _ _ _) (conj Io Hc))). lia. }
  split.
  - intros Z. apply (hand_eye_unique _ _ _ _ (map mounts (h2_observations p))); try assumption.
    + intros W IW. apply in_map_iff in IW as (o & <- & Io). destruct (PO o Io) as [P1 P2]. apply mounts_rigid; apply plain_rigid; assumption.
    + intros W IW. apply in_map_iff in IW as (o & <- & Io). destruct (PO o Io) as [P1 P2].
      destruct (D o Io) as (FF & NE & PI & AF).
      rewrite <- !tic_mounts by (first [ assumption | apply plain_rigid; assumption ]).
      fold (seen X0 Z0 o) (seen (he_camera_mount_to_camera r) (he_target_mount_to_target r) o).
      assert (RS : forall X Z, rigid X -> rigid Z -> rigid (seen X Z o)).
      { intros. apply rigid_mul; [ apply rigid_inv | ]; apply rigid_mul; try assumption; apply plain_rigid; assumption. }
      apply (image_pose (h2_intr p) _ _ (correspondence_set o)); auto. intros c Hc.
      destruct (PI c Hc) as [F1 I1]. pose proof (AF c Hc) as F2.
      split; [ apply front_pos, F2 | split; [ apply front_pos, F1 | ] ].
      assert (Q : forall e, In e (blk2 (h2_intr p) (o, c) xf) -> e = 0).
      { apply (honest_zero _ _ _ _ _ Ho Es Z). apply in_map, in_all_pairs. auto. }
      rewrite (BL o c Io Hc) in Q. cbv zeta in Q. rewrite arr_pinhole, I1 in Q by (apply front_pos in F2; lra).
      pose proof (Q _ (or_introl eq_refl)). pose proof (Q _ (or_intror (or_introl eq_refl))).
      apply vec2_ext; lra.
  - intros [EX EZ]. apply (honest_cost _ _ _ _ _ Ho Es). intros f If e He.
    apply in_map_iff in If as ([o c] & <- & Hc). apply in_all_pairs in Hc as [Io Hc].
    destruct (D o Io) as (_ & _ & PI & _). destruct (PI c Hc) as [F1 I1].
    rewrite (BL o c Io Hc), EX, EZ in He. cbv zeta in He. rewrite arr_pinhole, I1 in He by (apply front_pos in F1; lra).
    cbn [In] in He. destruct He as [<-|[<-|[]]]; lra.
Qed.
Lemma he_unique3 u solve cov p r X0 Z0 : honest solve -> optimize3D3D u solve cov p = Ok r ->
  let seen X Z o := target_in_camera X (to_camera_mount o) (to_target_mount o) Z in
  plain_obs (h3_observations p) -> rigid X0 -> rigid Z0 ->
  rigid (he_camera_mount_to_camera r) -> rigid (he_target_mount_to_target r) ->
  (forall o, In o (h3_observations p) ->
     not_on_a_line (map in_target (correspondence_set o)) /\
     perfect_points (seen X0 Z0 o) (correspondence_set o)) ->
  two_axes (motions_of (map mounts (h3_observations p))) ->
  (he_final_cost_per_obs r = 0 <-> he_camera_mount_to_camera r = X0 /\ he_target_mount_to_target r = Z0).
Proof.
  intros Ho E seen PO RX0 RZ0 RX RZ D TA. rewrite optimize3D3D_unfold in E.
  destruct (he_finish_fields _ _ _ _ _ _ _ E) as (xf & s & Es & _ & Ht & Hm & _ & Hf).
  assert (RC : rigid (poseCalToEigen (fst xf))) by (apply rigid_of_inv; rewrite <- Hm; exact RX).
  assert (BL : forall o c, In o (h3_observations p) -> In c (correspondence_set o) -> blk3 (o, c) xf =
     let q := iso_app (seen (he_camera_mount_to_camera r) (he_target_mount_to_target r) o) (in_target c) in
     [vx q - vx (in_image c); vy q - vy (in_image c); vz q - vz (in_image c)]).
  { intros o c Io Ic. unfold blk3, seen. destruct xf as [pc pt]. cbn [fst snd] in *. destruct (PO o Io) as [P1 P2].
    rewrite (cost3D3D_physical _ _ _ _ (he_camera_mount_to_camera r)); try assumption.
    - rewrite Ht. reflexivity.
    - rewrite Hm, iso_inv_inv by exact RC. reflexivity. }
  rewrite (num_residuals_const _ 3) in Hf by (intros [? ?]; reflexivity). rewrite Hf, per_obs_zero.
  2:{ destruct (two_axes_nonempty _ TA) as [A HA]. apply in_motions_of in HA as (W & _ & IW & _).
      apply in_map_iff in IW as (o & _ & Io). destruct (D o Io) as (FF & _).
      destruct (not_on_a_line_nonempty _ FF) as [c Hc]. pose proof (nonempty_in _ _ (proj2 (in_all_pairs _ _ _) (conj Io Hc))). lia. }
  split.
  - intros Z. apply (hand_eye_unique _ _ _ _ (map mounts (h3_observations p))); try assumption.
    + intros W IW. apply in_map_iff in IW as (o & <- & Io). destruct (PO o Io) as [P1 P2]. apply mounts_rigid; apply plain_rigid; assumption.
    + intros W IW. apply in_map_iff in IW as (o & <- & Io). destruct (PO o Io) as [P1 P2].
      destruct (D o Io) as (FF & PI).
      rewrite <- !tic_mounts by (first [ assumption | apply plain_rigid; assumption ]).
      fold (seen X0 Z0 o) (seen (he_camera_mount_to_camera r) (he_target_mount_to_target r) o).
      assert (RS : forall X Z, rigid X -> rigid Z -> rigid (seen X Z o)).
      { intros. apply rigid_mul; [ apply rigid_inv | ]; apply rigid_mul; try assumption; apply plain_rigid; assumption. }
      apply (points_pose _ _ (correspondence_set o)); auto. intros c Hc.
      assert (Q : forall e, In e (blk3 (o, c) xf) -> e = 0).
      { apply (honest_zero _ _ _ _ _ Ho Es Z). apply in_map, in_all_pairs. auto. }
      rewrite (BL o c Io Hc) in Q. cbv zeta in Q. rewrite (PI c Hc) in Q.
      pose proof (Q _ (or_introl eq_refl)). pose proof (Q _ (or_intror (or_introl eq_refl))).
      pose proof (Q _ (or_intror (or_intror (or_introl eq_refl)))).
      apply vec3_ext; lra.
  - intros [EX EZ]. apply (honest_cost _ _ _ _ _ Ho Es). intros f If e He.
    apply in_map_iff in If as ([o c] & <- & Hc). apply in_all_pairs in Hc as [Io Hc].
    destruct (D o Io) as (_ & PI).
    rewrite (BL o c Io Hc), EX, EZ, (PI c Hc) in He.
    cbn [In] in He. destruct He as [<-|[<-|[<-|[]]]]; lra.
Qed.

(** All motions leave a direction alone: the calibration can slide along it. *)
Lemma one_axis_free {I} (os : list (observation I)) X0 Z0 d s : rigid X0 -> rigid Z0 ->
  (forall o, In o os -> rigid (to_camera_mount o) /\ rigid (to_target_mount o)) ->
  (forall o o', In o os -> In o' os -> mvec (lin (motion o o')) d = d) ->
  exists X Z, rigid X /\ rigid Z /\ lin X = lin X0 /\ tr X = vadd (tr X0) (vscale s d) /\
    forall o, In o os ->
      target_in_camera X (to_camera_mount o) (to_target_mount o) Z =
      target_in_camera X0 (to_camera_mount o) (to_target_mount o) Z0.
Proof.
  intros RX RZ RO FX. set (D := iso_trans (vscale s d)). set (X := iso_mul D X0).
  assert (RX' : rigid X) by (apply rigid_mul; [ apply rigid_trans | exact RX ]).
  assert (LX : lin X = lin X0) by (cbn; apply mmul_I_l).
  assert (TX : tr X = vadd (tr X0) (vscale s d)).
  { cbn [X iso_mul D iso_trans lin tr]. rewrite mvec_I. reflexivity. }
  destruct os as [|o1 os].
  { exists X, Z0. repeat (split; [ assumption | ]). intros o []. }
  assert (I1 : In o1 (o1 :: os)) by (left; reflexivity).
  assert (RW : forall o, In o (o1 :: os) -> rigid (mounts o)) by (intros o Io; destruct (RO o Io); apply mounts_rigid; assumption).
  set (W1 := mounts o1) in *. assert (RW1 : rigid W1) by apply RW, I1.
  exists X, (iso_mul (iso_inv W1) (iso_mul D (iso_mul W1 Z0))).
  split; [ exact RX' | split; [ | split; [ exact LX | split; [ exact TX | ] ] ] ].
  { apply rigid_mul; [ apply rigid_inv, RW1 | apply rigid_mul; [ apply rigid_trans | apply rigid_mul; assumption ] ]. }
  intros o Io. destruct (RO o Io) as [RA RB]. rewrite !tic_mounts by assumption.
  unfold X. rewrite iso_inv_mul by apply rigid_trans. rewrite !iso_mul_assoc. f_equal.
  apply (cancel_l D); [ apply rigid_trans | ].
  rewrite <- (iso_mul_assoc D), iso_inv_r, iso_mul_id_l by apply rigid_trans.
  transitivity (iso_mul (iso_mul (motion o o1) D) (iso_mul W1 Z0)).
  { unfold motion. rewrite !iso_mul_assoc. reflexivity. }
  assert (C : iso_mul (motion o o1) D = iso_mul D (motion o o1)).
  { pose proof (FX o o1 Io I1) as F. apply iso_ext.
    - cbn [iso_mul D iso_trans lin]. rewrite mmul_I_l, mmul_I_r. reflexivity.
    - cbn [iso_mul D iso_trans lin tr]. rewrite mvec_I.
      replace (mvec (lin (motion o o1)) (vscale s d)) with (vscale s (mvec (lin (motion o o1)) d)) by (destruct (lin (motion o o1)), d; geo_ring).
      rewrite F. geo_ring. }
  rewrite C. unfold motion. fold W1. rewrite !iso_mul_assoc. f_equal. f_equal.
  rewrite <- iso_mul_assoc, iso_inv_l, iso_mul_id_l by exact RW1. reflexivity.
Qed.

(** All motions leave a point alone: there is a second calibration, with the target mirrored to behind the camera. *)
Lemma half_turn_rot : is_rot (M3 (-1) 0 0 0 (-1) 0 0 0 1).
Proof.
  split; [ apply mat3_ext | ]; unfold mmul, mT, I3, det; cbn [m00 m01 m02 m10 m11 m12 m20 m21 m22]; ring.
Qed.
Definition mirrored (T : iso) : iso := Iso (mmul (lin T) (M3 (-1) 0 0 0 (-1) 0 0 0 1)) (vneg (tr T)).
Lemma mirrored_rigid T : rigid T -> rigid (mirrored T).
Proof. intros H. apply is_rot_mmul; [ exact H | apply half_turn_rot ]. Qed.
Lemma mirrored_flat T v : vz v = 0 -> iso_app (mirrored T) v = vneg (iso_app T v).
Proof.
  destruct v as [a b c], T as [[n1 n2 n3 n4 n5 n6 n7 n8 n9] [t1 t2 t3]]; cbn [vz]; intros ->.
  unfold mirrored, iso_app, mvec, vadd, vneg, mmul; cbn [vx vy vz lin tr m00 m01 m02 m10 m11 m12 m20 m21 m22].
  apply vec3_ext; cbn [vx vy vz]; ring.
Qed.
Lemma app_reflect T m w : iso_app T (vsub (vscale 2 m) w) = vsub (vscale 2 (iso_app T m)) (iso_app T w).
Proof.
  destruct m as [a b c], w as [d e f], T as [[n1 n2 n3 n4 n5 n6 n7 n8 n9] [t1 t2 t3]].
  unfold iso_app, mvec, vadd, vsub, vscale; cbn [vx vy vz lin tr m00 m01 m02 m10 m11 m12 m20 m21 m22].
  apply vec3_ext; cbn [vx vy vz]; ring.
Qed.
Lemma reflect_app X m q : iso_app (Iso (lin X) (vsub (vscale 2 m) (tr X))) (vneg q) = vsub (vscale 2 m) (iso_app X q).
Proof.
  destruct m as [a b c], q as [d e f], X as [[n1 n2 n3 n4 n5 n6 n7 n8 n9] [t1 t2 t3]].
  unfold iso_app, mvec, vadd, vsub, vneg, vscale; cbn [vx vy vz lin tr m00 m01 m02 m10 m11 m12 m20 m21 m22].
  apply vec3_ext; cbn [vx vy vz]; ring.
Qed.
Lemma fixed_point_mirror {I} (os : list (observation I)) X Z m : rigid X -> rigid Z ->
  (forall o, In o os -> rigid (to_camera_mount o) /\ rigid (to_target_mount o)) ->
  (forall o o', In o os -> In o' os -> iso_app (motion o o') m = m) ->
  exists X' Z', rigid X' /\ rigid Z' /\
    forall o, In o os -> forall v, vz v = 0 ->
      iso_app (target_in_camera X' (to_camera_mount o) (to_target_mount o) Z') v =
      vneg (iso_app (target_in_camera X (to_camera_mount o) (to_target_mount o) Z) v).
Proof.
  intros RX RZ RO FX. set (X' := Iso (lin X) (vsub (vscale 2 m) (tr X))). assert (RX' : rigid X') by exact RX.
  destruct os as [|o1 os].
  { exists X', Z. repeat (split; [ assumption | ]). intros o []. }
  assert (I1 : In o1 (o1 :: os)) by (left; reflexivity).
  assert (RW : forall o, In o (o1 :: os) -> rigid (mounts o)) by (intros o Io; destruct (RO o Io); apply mounts_rigid; assumption).
  pose proof (RW o1 I1) as RW1. set (W1 := mounts o1) in *.
  set (M1 := iso_mul (iso_inv X) (iso_mul W1 Z)).
  assert (RM : rigid M1) by (apply rigid_mul; [ apply rigid_inv, RX | apply rigid_mul; assumption ]).
  exists X', (iso_mul (iso_inv W1) (iso_mul X' (mirrored M1))).
  split; [ exact RX' | split; [ apply rigid_mul; [ apply rigid_inv, RW1 | apply rigid_mul; [ exact RX' | apply mirrored_rigid, RM ] ] | ] ].
  intros o Io v Hv. destruct (RO o Io) as [RA RB]. rewrite !tic_mounts by assumption.
  assert (Q : forall q, iso_app (iso_inv X') (iso_app (motion o o1) (iso_app X' (vneg q))) =
                        vneg (iso_app (iso_inv X) (iso_app (motion o o1) (iso_app X q)))).
  { intros q. unfold X' at 2. rewrite reflect_app, app_reflect, (FX o o1 Io I1).
    set (w := iso_app (motion o o1) (iso_app X q)).
    rewrite <- (iso_app_inv_r X w RX) at 1. rewrite <- reflect_app. fold X'. apply iso_app_inv_l, RX'. }
  rewrite !iso_app_mul. rewrite (mirrored_flat M1 v Hv).
  transitivity (iso_app (iso_inv X') (iso_app (motion o o1) (iso_app X' (vneg (iso_app M1 v))))).
  { unfold motion. rewrite iso_app_mul. reflexivity. }
  rewrite Q. unfold motion, M1. rewrite !iso_app_mul. rewrite iso_app_inv_r by exact RX.
  fold W1. rewrite iso_app_inv_l by exact RW1. reflexivity.
Qed.
Lemma mirror_pixel k q : vz q <> 0 -> projectPoint_arr k (vneg q) = projectPoint_arr k q.
Proof.
  intros H. assert (vz (vneg q) <> 0) by (destruct q; cbn in *; lra). rewrite !arr_pinhole by assumption.
  destruct q as [a b c]; unfold pinhole; cbn [vneg vx vy vz] in *. f_equal; field; assumption.
Qed.
