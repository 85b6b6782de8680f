(** C81. *)
From Coq Require Import Reals Lra Psatz ZArith Arith Lia String List.
From Verif.Base Require Import Geom Outcome Matrix.
From Verif.Model Require Import Pose Covariance Solver HandEye DhChain LocalParam MaxLikelihood Kinematic.
From Verif.Spec Require Import FreezeSpec KinSpec KinReport OracleSpec KinExampleSpec UniqueSpec RedundancySpec.
From Verif.Proofs Require Import GeomLemmas RotLemmas AngleAxisLemmas PoseProofs ListLemmas CovarianceProofs HandEyeProofs
  YamlProofs DhProofs KinematicProofs KinematicCall.
Import ListNotations.
Local Open Scope R_scope.

(** ** One joint *)
Definition joint_motion (t : dh_transform) (x : R) : iso :=
  match jtype t with LINEAR => trans_z x | REVOLUTE => rot_z x | OTHER => iso_id end.
Lemma dh_lift_d d e theta r alpha : dh_matrix (e + d) theta r alpha = iso_mul (trans_z d) (dh_matrix e theta r alpha).
Proof. apply iso_ext; geo_ext; cbn; ring. Qed.
Lemma dh_lift_theta d theta phi r alpha : dh_matrix d (theta + phi) r alpha = iso_mul (rot_z phi) (dh_matrix d theta r alpha).
Proof. apply iso_ext; geo_ext; cbn; rewrite ?cos_plus, ?sin_plus; ring. Qed.
Lemma link_moves t o x : link t o x = iso_mul (joint_motion t x) (link t o 0).
Proof.
  unfold link, joint_motion. destruct (jtype t).
  - rewrite Rplus_0_r. apply dh_lift_d.
  - rewrite Rplus_0_r. apply dh_lift_theta.
  - symmetry. apply iso_mul_id_l.
Qed.
Lemma joint_motion_rigid t x : rigid (joint_motion t x).
Proof. unfold joint_motion. destruct (jtype t); [ apply rigid_trans | apply rot_z_rigid | apply rigid_id ]. Qed.
Definition tip_change (t : dh_transform) (a b : nat -> R) : iso := iso_mul (iso_inv (link t b 0)) (link t a 0).
Lemma tip_change_rigid t a b : rigid (tip_change t a b).
Proof. apply rigid_mul; [ apply rigid_inv | ]; apply link_rigid. Qed.
Lemma link_tip t a b x : link t a x = iso_mul (link t b x) (tip_change t a b).
Proof.
  rewrite (link_moves t a), (link_moves t b). unfold tip_change. rewrite iso_mul_assoc.
  rewrite <- (iso_mul_assoc (link t b 0)), iso_inv_r, iso_mul_id_l by apply link_rigid. reflexivity.
Qed.
Definition root_change (t : dh_transform) (a b : nat -> R) : iso :=
  match jtype t with OTHER => iso_id | _ => iso_mul (trans_z (a 0%nat - b 0%nat)) (rot_z (a 1%nat - b 1%nat)) end.
Lemma root_change_rigid t a b : rigid (root_change t a b).
Proof.
  unfold root_change. destruct (jtype t); [ | | apply rigid_id ]; (apply rigid_mul; [ apply rigid_trans | apply rot_z_rigid ]).
Qed.
Lemma link_root t a b x : a 2%nat = b 2%nat -> a 3%nat = b 3%nat -> link t a x = iso_mul (root_change t a b) (link t b x).
Proof.
  intros E2 E3. unfold root_change, link. rewrite E2, E3. destruct (jtype t).
  - rewrite iso_mul_assoc, <- dh_lift_theta, <- dh_lift_d. f_equal; ring.
  - rewrite iso_mul_assoc, <- dh_lift_theta, <- dh_lift_d. f_equal; ring.
  - symmetry. apply iso_mul_id_l.
Qed.
Lemma link_ext t a b x : (forall j, (j < 4)%nat -> a j = b j) -> link t a x = link t b x.
Proof. intros H. unfold link. rewrite !H by lia. reflexivity. Qed.

(** ** A chain *)
Lemma fk_defined c q A B F : rows A = rows B -> getFK c q A = Ok F -> exists G, getFK c q B = Ok G.
Proof.
  intros R E. assert (K : exists F, getFK c q A = Ok F) by eauto. apply fk_ok_iff in K. apply fk_ok_iff. rewrite <- R. exact K.
Qed.
Lemma product_mul a b ls : product (iso_mul a b) ls = iso_mul a (product b ls).
Proof.
  induction ls as [|l ls IH] using rev_ind; [ reflexivity | ]. rewrite !product_snoc, IH. apply iso_mul_assoc.
Qed.
Lemma fk_links_unique c q offs L1 L2 : (length q <= dof c)%nat -> fk_links c q offs L1 -> fk_links c q offs L2 -> L1 = L2.
Proof.
  intros D (A1 & A2) (B1 & B2). apply nth_error_ext'; [ congruence | ]. intros i.
  destruct (Nat.lt_ge_cases i (length q)) as [Hi | Hi].
  - destruct (nth_error_lt q i Hi) as (x & Hx). destruct (nth_error_lt (transforms c) i) as (t & Ht); [ unfold dof in D; lia | ].
    rewrite (A2 i t x Ht Hx), (B2 i t x Ht Hx). reflexivity.
  - rewrite (proj2 (nth_error_None L1 i)), (proj2 (nth_error_None L2 i)) by lia. reflexivity.
Qed.
Lemma fk_agree c q A B : rows A = rows B -> (forall i j, (i < length q)%nat -> (i < rows A)%nat -> (j < 4)%nat -> ent A i j = ent B i j) ->
  getFK c q A = getFK c q B.
Proof.
  intros R H. rewrite !getFK_unfold, R. destruct (Nat.ltb (dof c) (length q)); [ reflexivity | ].
  destruct (Nat.ltb_spec (rows B) (length q)) as [|L]; [ reflexivity | ]. apply foldM_ext. intros T i Hi. apply in_seq in Hi.
  unfold fk_step. rewrite !row4_ok by lia. unfold v4_of. rewrite !H by lia. reflexivity.
Qed.
(** Other offsets of the last joint are a rigid change at the tip. *)
Lemma fk_tip c A B row : S row = dof c -> equal_but row every_column A B ->
  exists L, rigid L /\ forall q F, length q = dof c -> getFK c q A = Ok F -> exists G, getFK c q B = Ok G /\ F = iso_mul G L.
Proof.
  intros Hr (R & _ & H). destruct (nth_error_lt (transforms c) row) as (t & Ht); [ unfold dof in Hr; lia | ].
  exists (tip_change t (ent A row) (ent B row)). split; [ apply tip_change_rigid | ]. intros q F Lq E.
  assert (K : exists F, getFK c q A = Ok F) by eauto. apply fk_ok_iff in K as (K1 & K2 & K3).
  destruct q as [|x q _] using rev_ind; [ cbn in Lq; lia | ]. rewrite app_length in *. cbn in *.
  assert (Q : length q = row) by lia.
  rewrite getFK_snoc in E by lia. apply bind_ok in E as (T & E1 & E2).
  assert (Jt : jtype t <> OTHER) by (apply (K3 row); [ lia | exact Ht ]).
  assert (Nx : nth_error (q ++ [x]) (length q) = Some x) by (rewrite nth_error_app2, Nat.sub_diag by lia; reflexivity).
  assert (Ht' : nth_error (transforms c) (length q) = Some t) by (rewrite Q; exact Ht).
  rewrite (fk_step_ok c _ A T _ t x) in E2 by (assumption || lia). injection E2 as <-.
  assert (E1' : getFK c q B = Ok T).
  { rewrite <- E1. symmetry. apply fk_agree; [ exact R | ]. intros i j Hi Hi' Hj. apply H; [ exact Hi' | exact Hj | lia ]. }
  exists (iso_mul T (link t (ent B (length q)) x)). split.
  - rewrite getFK_snoc by lia. rewrite E1'. cbn [bind]. apply fk_step_ok; assumption || lia.
  - rewrite Q, (link_tip t (ent A row) (ent B row)). symmetry. apply iso_mul_assoc.
Qed.
(** Another d or theta of the first joint is a rigid change at the base. *)
Lemma fk_root c A B : (0 < dof c)%nat -> rigid (base_offset c) -> equal_but 0 d_or_theta A B -> (0 < rows A)%nat ->
  exists X, rigid X /\ forall q F, length q = dof c -> getFK c q A = Ok F -> exists G, getFK c q B = Ok G /\ F = iso_mul X G.
Proof.
  intros D Hb (R & _ & H) RA. destruct (nth_error_lt (transforms c) 0 D) as (t & Ht).
  set (Y := root_change t (ent A 0%nat) (ent B 0%nat)). assert (HY : rigid Y) by apply root_change_rigid.
  exists (iso_mul (iso_mul (base_offset c) Y) (iso_inv (base_offset c))).
  split; [ repeat apply rigid_mul; try assumption; apply rigid_inv, Hb | ]. intros q F Lq E.
  destruct (fk_defined c q A B F R E) as (G & EG). exists G. split; [ exact EG | ].
  destruct (fk_value_ok _ _ _ _ E) as (La & (A1 & A2) & ->). destruct (fk_value_ok _ _ _ _ EG) as (Lb & (B1 & B2) & ->).
  destruct La as [|a La]; [ cbn in A1; lia | ]. destruct Lb as [|b Lb]; [ cbn in B1; lia | ].
  assert (K : exists F, getFK c q A = Ok F) by eauto. apply fk_ok_iff in K as (K1 & K2 & _).
  destruct q as [|x q]; [ cbn in Lq; lia | ]. cbn [length] in *.
  pose proof (A2 0%nat t x Ht eq_refl) as Ea. pose proof (B2 0%nat t x Ht eq_refl) as Eb. cbn in Ea, Eb.
  injection Ea as ->. injection Eb as ->.
  assert (Ls : La = Lb).
  { apply nth_error_ext'; [ lia | ]. intros i Hi. destruct (nth_error_lt q i) as (y & Hy); [ lia | ].
    destruct (nth_error_lt (transforms c) (S i)) as (s & Hs); [ unfold dof in *; lia | ].
    pose proof (A2 (S i) s y Hs Hy) as Ea. pose proof (B2 (S i) s y Hs Hy) as Eb. cbn in Ea, Eb. rewrite Ea, Eb. f_equal.
    apply link_ext. intros j Hj. apply H; [ lia | exact Hj | lia ]. }
  subst Lb. assert (U : forall l, product (base_offset c) (l :: La) = product (iso_mul (base_offset c) l) La) by reflexivity.
  rewrite !U. rewrite (link_root t (ent A 0%nat) (ent B 0%nat)) by (apply H; unfold d_or_theta; lia). fold Y.
  rewrite <- product_mul. f_equal. rewrite !iso_mul_assoc. f_equal. f_equal.
  rewrite <- (iso_mul_assoc (iso_inv (base_offset c))), iso_inv_l, iso_mul_id_l by exact Hb. reflexivity.
Qed.
Lemma fk_no_joints c q A F : dof c = 0%nat -> length q = dof c -> getFK c q A = Ok F -> F = base_offset c.
Proof.
  intros D L E. destruct q; [ | cbn in L; lia ]. rewrite getFK_unfold in E. cbn in E.
  injection E as <-. reflexivity.
Qed.

(** ** Estimates *)
Section Predictions.
  Variables (cam tgt : dh_chain) (C T B : iso) (oc ot : matrix).
  Hypotheses (Hc : rigid (base_offset cam)) (Ht : rigid (base_offset tgt)) (HC : rigid C) (HT : rigid T) (HB : rigid B).
  Let e := KE C T B oc ot.

  Lemma equal_but_sym row col M N : equal_but row col M N -> equal_but row col N M.
  Proof.
    intros (R & S & H). split; [ congruence | split; [ congruence | ] ]. intros i j Hi Hj N'. symmetry. apply H; [ congruence | exact Hj | exact N' ].
  Qed.
  (** the pose that is predicted depends on the tips and mounts through two products *)
  Lemma predicts_by C' T' B' oc' ot' :
    (forall qc F, length qc = dof cam -> getFK cam qc oc = Ok F -> exists G, getFK cam qc oc' = Ok G /\
       forall qt H, length qt = dof tgt -> getFK tgt qt ot = Ok H -> exists K, getFK tgt qt ot' = Ok K /\
         kin_target_in_camera F C B H T = kin_target_in_camera G C' B' K T') ->
    rows oc = rows oc' -> rows ot = rows ot' ->
    same_predictions cam tgt e (KE C' T' B' oc' ot').
  Proof.
    intros H Rc Rt o (L1 & L2) P. split.
    - intros (Fc & Ft & E1 & E2 & ->). cbn in E1, E2. destruct (H _ _ L1 E1) as (Gc & E3 & H'). destruct (H' _ _ L2 E2) as (Gt & E4 & E).
      exists Gc, Gt. cbn. auto.
    - intros (Gc & Gt & E3 & E4 & ->). cbn in E3, E4.
      destruct (fk_defined cam _ oc' oc _ (eq_sym Rc) E3) as (Fc & E1). destruct (fk_defined tgt _ ot' ot _ (eq_sym Rt) E4) as (Ft & E2).
      destruct (H _ _ L1 E1) as (Gc' & E3' & H'). destruct (H' _ _ L2 E2) as (Gt' & E4' & E).
      rewrite E3 in E3'. rewrite E4 in E4'. injection E3' as <-. injection E4' as <-. exists Fc, Ft. cbn. auto.
  Qed.

  Lemma last_target_joint row ot' : S row = dof tgt -> equal_but row every_column ot ot' ->
    exists T', rigid T' /\ same_predictions cam tgt e (KE C T' B oc ot').
  Proof.
    intros Hr H. destruct (fk_tip tgt ot ot' row Hr H) as (L & HL & K). exists (iso_mul L T). split; [ apply rigid_mul; assumption | ].
    apply predicts_by; [ | reflexivity | apply H ]. intros qc F Lc E1. exists F. split; [ exact E1 | ]. intros qt Ft Lt E2.
    destruct (K qt Ft Lt E2) as (G & E3 & ->). exists G. split; [ exact E3 | ]. unfold kin_target_in_camera. rewrite !iso_mul_assoc. reflexivity.
  Qed.
  Lemma last_camera_joint row oc' : S row = dof cam -> equal_but row every_column oc oc' ->
    exists C', rigid C' /\ same_predictions cam tgt e (KE C' T B oc' ot).
  Proof.
    intros Hr H. destruct (fk_tip cam oc oc' row Hr H) as (L & HL & K). exists (iso_mul L C). split; [ apply rigid_mul; assumption | ].
    apply predicts_by; [ | apply H | reflexivity ]. intros qc F Lc E1. destruct (K qc F Lc E1) as (G & E3 & ->).
    exists G. split; [ exact E3 | ]. intros qt Ft Lt E2. exists Ft. split; [ exact E2 | ]. unfold kin_target_in_camera. rewrite !iso_mul_assoc. reflexivity.
  Qed.
  Lemma first_target_joint ot' : (0 < dof tgt)%nat -> (0 < rows ot)%nat -> equal_but 0 d_or_theta ot ot' ->
    exists B', rigid B' /\ same_predictions cam tgt e (KE C T B' oc ot').
  Proof.
    intros D R H. destruct (fk_root tgt ot ot' D Ht H R) as (X & HX & K). exists (iso_mul B X). split; [ apply rigid_mul; assumption | ].
    apply predicts_by; [ | reflexivity | apply H ]. intros qc F Lc E1. exists F. split; [ exact E1 | ]. intros qt Ft Lt E2.
    destruct (K qt Ft Lt E2) as (G & E3 & ->). exists G. split; [ exact E3 | ]. unfold kin_target_in_camera. rewrite !iso_mul_assoc. reflexivity.
  Qed.
  Lemma first_camera_joint oc' : (0 < dof cam)%nat -> (0 < rows oc)%nat -> equal_but 0 d_or_theta oc oc' ->
    exists B', rigid B' /\ same_predictions cam tgt e (KE C T B' oc' ot).
  Proof.
    intros D R H. destruct (fk_root cam oc oc' D Hc H R) as (X & HX & K). exists (iso_mul (iso_inv X) B). split; [ apply rigid_mul; [ apply rigid_inv | ]; assumption | ].
    apply predicts_by; [ | apply H | reflexivity ]. intros qc F Lc E1. destruct (K qc F Lc E1) as (G & E3 & ->).
    exists G. split; [ exact E3 | ]. intros qt Ft Lt E2. exists Ft. split; [ exact E2 | ]. unfold kin_target_in_camera.
    rewrite iso_mul_assoc, (iso_inv_mul X (iso_mul G C)), !iso_mul_assoc by exact HX. reflexivity.
  Qed.
  Lemma fixed_camera_base B' : dof cam = 0%nat -> rigid B' ->
    exists C', rigid C' /\ same_predictions cam tgt e (KE C' T B' oc ot).
  Proof.
    intros D HB'. set (b := base_offset cam) in *.
    exists (iso_mul (iso_inv b) (iso_mul B' (iso_mul (iso_inv B) (iso_mul b C)))).
    split; [ repeat apply rigid_mul; try apply rigid_inv; assumption | ].
    apply predicts_by; [ | reflexivity | reflexivity ]. intros qc F Lc E1. exists F. split; [ exact E1 | ]. intros qt Ft Lt E2. exists Ft.
    split; [ exact E2 | ]. rewrite (fk_no_joints cam qc oc F D Lc E1). fold b. unfold kin_target_in_camera.
    rewrite <- (iso_mul_assoc b (iso_inv b)), iso_inv_r, iso_mul_id_l by exact Hc.
    rewrite (iso_inv_mul B') by exact HB'. rewrite (iso_inv_mul (iso_inv B)), iso_inv_inv by (try apply rigid_inv; exact HB).
    rewrite !iso_mul_assoc. f_equal. f_equal. rewrite <- (iso_mul_assoc (iso_inv B') B'), iso_inv_l, iso_mul_id_l by exact HB'. reflexivity.
  Qed.
  Lemma fixed_target_base B' : dof tgt = 0%nat -> rigid B' ->
    exists T', rigid T' /\ same_predictions cam tgt e (KE C T' B' oc ot).
  Proof.
    intros D HB'. set (b := base_offset tgt) in *.
    exists (iso_mul (iso_inv b) (iso_mul (iso_inv B') (iso_mul B (iso_mul b T)))).
    split; [ repeat apply rigid_mul; try apply rigid_inv; assumption | ].
    apply predicts_by; [ | reflexivity | reflexivity ]. intros qc F Lc E1. exists F. split; [ exact E1 | ]. intros qt Ft Lt E2. exists Ft.
    split; [ exact E2 | ]. rewrite (fk_no_joints tgt qt ot Ft D Lt E2). fold b. unfold kin_target_in_camera.
    rewrite <- (iso_mul_assoc b (iso_inv b)), iso_inv_r, iso_mul_id_l by exact Ht.
    rewrite <- (iso_mul_assoc B' (iso_inv B')), iso_inv_r, iso_mul_id_l by exact HB'. reflexivity.
  Qed.
End Predictions.

(** ** Values of the parameter blocks *)
(** Every rigid transform can be stored: a rotation by less than machine epsilon as one by a turn more. *)
Lemma storable T : rigid T -> exists w, createTransform (tr T) w = T.
Proof.
  intros R. destruct (aa_of_mat_spec _ R) as (U & A & M). set (a := aa_angle _) in *. set (u := aa_axis _) in *.
  exists (vscale (a + 2 * PI) u). pose proof PI_RGT_0.
  destruct (normalized_scaled (a + 2 * PI) u) as [E1 E2]; [ lra | exact U | ].
  rewrite createTransform_eq, E1, E2. destruct (Rlt_dec DBL_EPS (a + 2 * PI)) as [X|X].
  - apply iso_ext; cbn [lin tr]; [ | reflexivity ]. rewrite <- M. unfold aa_matrix.
    replace (a + 2 * PI) with (a + 2 * INR 1 * PI) by (cbn [INR]; ring). rewrite cos_period, sin_period. reflexivity.
  - exfalso. apply X. assert (DBL_EPS < 1) by (unfold DBL_EPS; lra). pose proof PI2_1. lra.
Qed.
Definition pick (v : vec3) (i : nat) : R := match i with 0 => vx v | 1 => vy v | _ => vz v end%nat.
Definition put3 (m : memory) (k : nat) (v : vec3) : memory := fun k' i => if andb (Nat.eqb k' k) (Nat.ltb i 3) then pick v i else m k' i.
Lemma put3_read m k v : read3 (put3 m k v) k = v.
Proof. unfold read3, put3. rewrite Nat.eqb_refl. destruct v. reflexivity. Qed.
Lemma put3_other m k v k' i : k' <> k -> put3 m k v k' i = m k' i.
Proof. intros H. unfold put3. destruct (Nat.eqb_spec k' k); [ contradiction | reflexivity ]. Qed.
Lemma put3_beyond m k v k' i : (3 <= i)%nat -> put3 m k v k' i = m k' i.
Proof. intros H. unfold put3. destruct (Nat.ltb_spec i 3); [ lia | ]. rewrite Bool.andb_false_r. reflexivity. Qed.
Lemma read3_other m k v k' : k' <> k -> read3 (put3 m k v) k' = read3 m k'.
Proof. intros H. unfold read3. rewrite !put3_other by exact H. reflexivity. Qed.
Ltac read_puts := repeat match goal with |- context [read3 (put3 ?m ?k ?v) ?k'] =>
  first [ rewrite (put3_read m k v) | rewrite (read3_other m k v k') by lia ] end.

Lemma pose_error_predicts w com e e' o v : same_predictions (kc_camera_chain com) (kc_target_chain com) e e' ->
  all_joints (kc_camera_chain com) (kc_target_chain com) o -> pose_error w com e o = Ok v -> pose_error w com e' o = Ok v.
Proof.
  intros S L E. unfold pose_error in E. apply bind_ok in E as (Fc & E1 & E). apply bind_ok in E as (Ft & E2 & E).
  destruct (proj1 (S o L (kin_target_in_camera Fc (ke_camera_mount_to_camera e) (ke_camera_base_to_target_base e) Ft
    (ke_target_mount_to_target e)))) as (Gc & Gt & E3 & E4 & E5); [ exists Fc, Ft; auto | ].
  unfold pose_error. rewrite E3, E4. cbn [bind]. rewrite E5 in E. exact E.
Qed.
Lemma mapM_same {A B} (f g : A -> res B) l vs : (forall a v, In a l -> f a = Ok v -> g a = Ok v) -> mapM f l = Ok vs -> mapM g l = Ok vs.
Proof.
  revert vs. induction l as [|a l IH]; intros vs H E; [ exact E | ]. cbn in *.
  apply bind_ok in E as (v & E1 & E). apply bind_ok in E as (r & E2 & E). rewrite (H a v (or_introl eq_refl) E1). cbn [bind].
  rewrite (IH r) by (first [ intros; apply H; [ right; assumption | assumption ] | exact E2 ]). exact E.
Qed.
Lemma mapM_map_id {A B} (f : A -> res B) l : mapM f l = mapM (fun x => x) (map f l).
Proof. induction l as [|a l IH]; [ reflexivity | ]. cbn. rewrite IH. reflexivity. Qed.
Lemma mapM_app_ok {A B} (f : A -> res B) l1 l2 vs : mapM f (l1 ++ l2) = Ok vs <->
  exists v1 v2, mapM f l1 = Ok v1 /\ mapM f l2 = Ok v2 /\ vs = (v1 ++ v2)%list.
Proof.
  revert vs. induction l1 as [|a l1 IH]; intros vs.
  - cbn. split; [ intros E; exists [], vs; auto | intros (v1 & v2 & [= <-] & E & ->); exact E ].
  - cbn. split.
    + intros E. apply bind_ok in E as (v & E1 & E). apply bind_ok in E as (r & E2 & E). injection E as <-.
      apply IH in E2 as (v1 & v2 & E3 & E4 & ->). exists (v :: v1), v2. rewrite E1. cbn [bind]. rewrite E3. auto.
    + intros (v1 & v2 & E1 & E2 & ->). apply bind_ok in E1 as (v & E1 & E). apply bind_ok in E as (r & E3 & E). injection E as <-.
      rewrite E1. cbn [bind]. assert (E4 : mapM f (l1 ++ l2) = Ok (r ++ v2)%list) by (apply IH; eauto). rewrite E4. reflexivity.
Qed.
Definition squares (l : list R) : R := fold_right (fun r acc => r * r + acc) 0 l.
Lemma squares_app a b : squares (a ++ b) = squares a + squares b.
Proof. unfold squares. induction a as [|x a IH]; cbn [fold_right app]; [ lra | rewrite IH; lra ]. Qed.
Lemma squares_le f g l : (forall e : nat, In e l -> g e * g e <= f e * f e) -> squares (map g l) <= squares (map f l).
Proof.
  induction l as [|e l IH]; intros H; [ apply Rle_refl | ]. cbn. pose proof (H e (or_introl eq_refl)).
  assert (squares (map g l) <= squares (map f l)) by (apply IH; intros; apply H; right; assumption). unfold squares in *. lra.
Qed.
Lemma squares_lt f g l : (forall e : nat, In e l -> g e * g e <= f e * f e) -> (exists e, In e l /\ g e * g e < f e * f e) ->
  squares (map g l) < squares (map f l).
Proof.
  induction l as [|e l IH]; intros H (e' & He & Hl); [ destruct He | ]. cbn. pose proof (H e (or_introl eq_refl)) as H0.
  assert (Q : squares (map g l) <= squares (map f l)) by (apply squares_le; intros; apply H; right; assumption).
  destruct He as [<- | He].
  - unfold squares in *. lra.
  - assert (squares (map g l) < squares (map f l)) by (apply IH; [ intros; apply H; right; assumption | eauto ]). unfold squares in *. lra.
Qed.

Section Values.
  Variables (ms : list kin_measurement) (tgt : dh_chain) (g1 g2 : iso) (held_row : nat -> Prop) (pb : kin_problemPose6D) (w : R)
            (residuals : list kin_residual) (p : problem).
  Hypothesis A : asks ms tgt g1 g2 held_row pb.
  Let com := k6_common pb.
  Hypothesis Q : right_problem com (fun e => map (pose_error w com e) (k6_observations pb)) residuals p.
  Hypothesis J : forall o, In o ms -> all_joints fixed_camera tgt o.
  Hypothesis Hb : rigid (base_offset tgt).

  Lemma asks_camera : dof (kc_camera_chain com) = 0%nat /\ rigid (base_offset (kc_camera_chain com)).
  Proof. destruct A as (_ & D & B & _). split; [ exact D | ]. fold com in B. rewrite B. apply rigid_id. Qed.
  Lemma asks_target : kc_target_chain com = tgt.
  Proof. apply A. Qed.
  (** Values that predict the same, with offsets that are no larger, cost no more. *)
  Lemma cheaper m m' c : cost_is residuals m c ->
    same_predictions (kc_camera_chain com) (kc_target_chain com) (stored_estimate com m) (stored_estimate com m') ->
    (forall e, (e < dof tgt * 4)%nat -> m' 1%nat e = m 1%nat e \/ m' 1%nat e = 0) ->
    exists c', cost_is residuals m' c' /\ c' <= c /\
      ((exists i, (i < block_size com 1)%nat /\ ~ held com 1 i) ->
       (exists e, (e < dof tgt * 4)%nat /\ m 1%nat e <> 0 /\ m' 1%nat e = 0) -> c' < c).
  Proof.
    intros (vs & E & ->) S Hm. destruct Q as (_ & _ & obs & prior1 & prior2 & -> & Ho & P1 & P2).
    apply mapM_app_ok in E as (v1 & v2 & E1 & E & ->). apply mapM_app_ok in E as (v3 & v4 & E3 & E4 & ->).
    assert (E1' : mapM (fun f : kin_residual => f m') obs = Ok v1).
    { rewrite mapM_map_id, Ho in E1 |- *. rewrite <- mapM_map_id in E1 |- *. revert E1. apply mapM_same. intros o v Ho' Eo.
      apply (pose_error_predicts w com _ _ o v S); [ | exact Eo ]. destruct A as (Em & D & _). rewrite Em in Ho'. destruct (J o Ho') as [L1 L2].
      split; [ fold com in D; rewrite D; exact L1 | rewrite asks_target; exact L2 ]. }
    assert (N1 : prior1 = []).
    { destruct P1 as [[-> _] | ((i & _ & N) & _)]; [ reflexivity | exfalso ]. apply N. right. left. split; [ reflexivity | apply asks_camera ]. }
    subst prior1. cbn in E3. injection E3 as <-.
    assert (Sd : kc_target_chain_offset_stdev com = 5 / 1000) by apply A. rewrite Sd, asks_target in P2.
    assert (Sq : forall x, x / (5 / 1000) * (x / (5 / 1000)) = 40000 * (x * x)) by (intros; field).
    assert (Le : forall e, In e (seq 0 (dof tgt * 4)) -> m' 1%nat e / (5 / 1000) * (m' 1%nat e / (5 / 1000)) <= m 1%nat e / (5 / 1000) * (m 1%nat e / (5 / 1000))).
    { intros e He. apply in_seq in He. rewrite !Sq. destruct (Hm e ltac:(lia)) as [-> | ->]; [ lra | ]. pose proof (Rle_0_sqr (m 1%nat e)). unfold Rsqr in *. lra. }
    destruct P2 as [[-> Hh] | (_ & P2)].
    - cbn in E4. injection E4 as <-. exists (half_squares (concat (v1 ++ [] ++ []))). split; [ | split; [ apply Rle_refl | ] ].
      + exists (v1 ++ [] ++ [])%list. split; [ apply mapM_app_ok; exists v1, []; auto | reflexivity ].
      + intros (i & Hi & N). exfalso. exact (N (Hh i Hi)).
    - rewrite mapM_map_id, P2 in E4. cbn in E4. injection E4 as <-.
      assert (E4' : mapM (fun f : kin_residual => f m') prior2 = Ok [offset_prior tgt 1 (5 / 1000) m']).
      { rewrite mapM_map_id, P2. reflexivity. }
      exists (half_squares (concat (v1 ++ [] ++ [offset_prior tgt 1 (5 / 1000) m']))). split.
      { exists (v1 ++ [] ++ [offset_prior tgt 1 (5 / 1000) m'])%list. split; [ | reflexivity ]. apply mapM_app_ok. exists v1, [offset_prior tgt 1 (5 / 1000) m']. auto. }
      unfold half_squares. cbn [app]. rewrite !concat_app. cbn [concat]. rewrite !app_nil_r. fold (squares (concat v1 ++ offset_prior tgt 1 (5 / 1000) m')).
      fold (squares (concat v1 ++ offset_prior tgt 1 (5 / 1000) m)). rewrite !squares_app. unfold offset_prior. split.
      + pose proof (squares_le _ _ _ Le). lra.
      + intros _ (e & He & N & Z). assert (squares (map (fun e => m' 1%nat e / (5 / 1000)) (seq 0 (dof tgt * 4))) < squares (map (fun e => m 1%nat e / (5 / 1000)) (seq 0 (dof tgt * 4)))).
        { apply squares_lt; [ exact Le | ]. exists e. split; [ apply in_seq; lia | ]. cbv beta. rewrite !Sq, Z. assert (0 < m 1%nat e * m 1%nat e) by nra. lra. }
        lra.
  Qed.

  Lemma same_predictions_trans cam c e1 e2 e3 : same_predictions cam c e1 e2 -> same_predictions cam c e2 e3 -> same_predictions cam c e1 e3.
  Proof. intros H1 H2 o L P. rewrite (H1 o L P). apply H2, L. Qed.
  Lemma same_predictions_estimate cam c e1 e2 : same_estimate e1 e2 -> cols (ke_camera_offsets e1) = 4%nat -> cols (ke_target_offsets e1) = 4%nat ->
    same_predictions cam c e1 e2.
  Proof.
    intros (E1 & E2 & E3 & S1 & S2) C1 C2 o _ P. unfold predicts. rewrite E1, E2, E3.
    rewrite (fk_same cam _ _ _ S1 C1), (fk_same c _ _ _ S2 C2). reflexivity.
  Qed.
  Lemma estimate_parts m : stored_estimate com m =
    KE (createTransform (read3 m 2) (read3 m 3)) (createTransform (read3 m 4) (read3 m 5)) (createTransform (read3 m 6) (read3 m 7))
       (Mat (dof (kc_camera_chain com)) 4 (fun i j => m 0%nat (j * dof (kc_camera_chain com) + i)%nat))
       (Mat (dof tgt) 4 (fun i j => m 1%nat (j * dof tgt + i)%nat)).
  Proof. unfold stored_estimate. rewrite asks_target. reflexivity. Qed.
  Lemma held_iff k i : (k < 8)%nat -> (i < block_size com k)%nat ->
    (frozen p k i <-> k = 0%nat \/ (k = 1%nat /\ held_row (i mod dof tgt)%nat) \/ k = 6%nat \/ k = 7%nat).
  Proof.
    intros Hk Hi. destruct Q as (_ & F & _). rewrite (F k i Hk Hi). destruct A as (_ & _ & _ & Et & _ & _ & _ & _ & _ & H). apply H; assumption.
  Qed.
  Lemma block1 : (0 < dof tgt)%nat -> block_size com 1 = (dof tgt * 4)%nat.
  Proof. intros H. unfold block_size. rewrite asks_target. lia. Qed.
  Lemma createTransform_zero : createTransform vzero vzero = iso_id.
  Proof.
    rewrite createTransform_eq, norm_vzero. destruct (Rlt_dec DBL_EPS 0) as [X|_]; [ pose proof DBL_EPS_pos; lra | reflexivity ].
  Qed.

  Lemma nothing_lost : (0 < dof tgt)%nat -> (forall row, held_row row <-> S row = dof tgt) ->
    forall m c, cost_is residuals m c -> exists m' c', cost_is residuals m' c' /\ c' <= c /\
      forall k i, (k < 8)%nat -> (i < block_size com k)%nat -> frozen p k i -> m' k i = kin_memory0 com k i.
  Proof.
    intros D Hh m c Hc. destruct asks_camera as [Dc Rc].
    set (C := createTransform (read3 m 2) (read3 m 3)). set (T := createTransform (read3 m 4) (read3 m 5)).
    set (B := createTransform (read3 m 6) (read3 m 7)).
    set (mz := fun k i => match k with 0%nat => 0 | 1%nat => if Nat.eqb (S (i mod dof tgt)) (dof tgt) then 0 else m 1%nat i | _ => m k i end).
    set (oc := Mat (dof (kc_camera_chain com)) 4 (fun i j => m 0%nat (j * dof (kc_camera_chain com) + i)%nat)).
    set (ot := Mat (dof tgt) 4 (fun i j => m 1%nat (j * dof tgt + i)%nat)).
    set (ot' := Mat (dof tgt) 4 (fun i j => mz 1%nat (j * dof tgt + i)%nat)).
    assert (HC : rigid C) by apply createTransform_rigid. assert (HT : rigid T) by apply createTransform_rigid.
    assert (HB : rigid B) by apply createTransform_rigid.
    destruct (fixed_camera_base (kc_camera_chain com) tgt C T B oc ot Rc HC HB iso_id Dc rigid_id) as (C' & HC' & S1).
    assert (Eo : equal_but (dof tgt - 1) every_column ot ot').
    { split; [ reflexivity | split; [ reflexivity | ] ]. cbn [ent rows ot ot' mz]. intros i j Hi Hj N.
      replace ((j * dof tgt + i) mod dof tgt)%nat with i.
      - destruct (Nat.eqb_spec (S i) (dof tgt)) as [X|X]; [ | reflexivity ]. exfalso. apply N. split; [ lia | exact I ].
      - rewrite Nat.add_comm, Nat.mod_add by lia. symmetry. apply Nat.mod_small, Hi. }
    destruct (last_target_joint (kc_camera_chain com) tgt C' T iso_id oc ot HT (dof tgt - 1) ot' ltac:(lia) Eo) as (T' & HT' & S2).
    destruct (storable C' HC') as (wc & Ec). destruct (storable T' HT') as (wt & Et).
    set (m' := put3 (put3 (put3 (put3 (put3 (put3 mz 2 (tr C')) 3 wc) 4 (tr T')) 5 wt) 6 vzero) 7 vzero).
    assert (M : forall k i, (k < 2)%nat -> m' k i = mz k i).
    { intros k i Hk. unfold m'. rewrite !put3_other by lia. reflexivity. }
    assert (Es : same_estimate (KE C' T' iso_id oc ot') (stored_estimate com m')).
    { rewrite estimate_parts. unfold m'. repeat split; cbn [ke_camera_mount_to_camera ke_target_mount_to_target ke_camera_base_to_target_base].
      - read_puts. symmetry. exact Ec.
      - read_puts. symmetry. exact Et.
      - read_puts. symmetry. apply createTransform_zero.
      - cbn. intros i j Hi. rewrite Dc in Hi. lia. }
    destruct (cheaper m m' c Hc) as (c' & Hc' & Le & _).
    { rewrite asks_target. apply (same_predictions_trans _ _ _ (KE C' T' iso_id oc ot')).
      - rewrite estimate_parts. exact (same_predictions_trans _ _ _ _ _ S1 S2).
      - apply same_predictions_estimate; [ exact Es | reflexivity | reflexivity ]. }
    { intros e He. rewrite M by lia. cbn [mz]. destruct (Nat.eqb _ _); auto. }
    exists m', c'. split; [ exact Hc' | split; [ exact Le | ] ]. intros k i Hk Hi F. apply held_iff in F; [ | exact Hk | exact Hi ].
    assert (G3 : kc_camera_base_to_target_base_guess com = iso_id) by apply A.
    destruct F as [-> | [(-> & F) | [-> | ->]]].
    - rewrite M by lia. reflexivity.
    - rewrite M by lia. cbn [mz]. apply Hh in F. rewrite F, Nat.eqb_refl. reflexivity.
    - unfold m'. rewrite (put3_other _ 7) by lia. unfold kin_memory0. rewrite G3. unfold put3. cbn in Hi.
      destruct (Nat.ltb_spec i 3); [ | lia ]. destruct i as [|[|i]]; reflexivity.
    - unfold m'. unfold kin_memory0. rewrite G3. unfold put3 at 1. cbn in Hi. destruct (Nat.ltb_spec i 3); [ | lia ]. cbn [Nat.eqb andb].
      assert (Z : guess_aa iso_id = vzero).
      { unfold guess_aa. destruct (aa_of_mat_spec I3 is_rot_I) as (U & Ra & Ma). cbn [lin iso_id]. set (a := aa_angle _) in *. set (u := aa_axis _) in *.
        assert (Ca : cos a = 1). { pose proof (f_equal trace Ma) as E. rewrite trace_aa in E by exact U. unfold trace, I3 in E. cbn [m00 m11 m22] in E. lra. }
        assert (a = 0) as ->. { apply cos_inj; [ exact Ra | pose proof PI_RGT_0; lra | rewrite cos_0; exact Ca ]. }
        geo_unfold; f_equal; ring. }
      rewrite Z. destruct i as [|[|i]]; reflexivity.
  Qed.

  Lemma first_joint_zero : (0 < dof tgt)%nat -> ~ held_row 0%nat -> forall m, best residuals p m ->
    forall j, (j < 2)%nat -> ent (ke_target_offsets (stored_estimate com m)) 0 j = 0.
  Proof.
    intros D Nh m (c & Hc & Hmin). destruct asks_camera as [Dc Rc].
    set (C := createTransform (read3 m 2) (read3 m 3)). set (T := createTransform (read3 m 4) (read3 m 5)).
    set (B := createTransform (read3 m 6) (read3 m 7)).
    set (mz := fun k i => match k with 1%nat => if orb (Nat.eqb i 0) (Nat.eqb i (dof tgt)) then 0 else m 1%nat i | _ => m k i end).
    set (oc := Mat (dof (kc_camera_chain com)) 4 (fun i j => m 0%nat (j * dof (kc_camera_chain com) + i)%nat)).
    set (ot := Mat (dof tgt) 4 (fun i j => m 1%nat (j * dof tgt + i)%nat)).
    set (ot' := Mat (dof tgt) 4 (fun i j => mz 1%nat (j * dof tgt + i)%nat)).
    assert (HC : rigid C) by apply createTransform_rigid. assert (HT : rigid T) by apply createTransform_rigid.
    assert (HB : rigid B) by apply createTransform_rigid.
    assert (Eo : equal_but 0 d_or_theta ot ot').
    { split; [ reflexivity | split; [ reflexivity | ] ]. cbn [ent rows ot ot' mz]. intros i j Hi Hj N.
      destruct (Nat.eqb_spec (j * dof tgt + i) 0) as [X|X]; [ exfalso; apply N; unfold d_or_theta; clear - D Hi X; destruct j as [|[|j]]; split; nia | ].
      destruct (Nat.eqb_spec (j * dof tgt + i) (dof tgt)) as [Y|Y]; [ exfalso; apply N; unfold d_or_theta; clear - D Hi Y; destruct j as [|[|j]]; split; nia | ]. reflexivity. }
    destruct (first_target_joint (kc_camera_chain com) tgt C T B oc ot Hb HB ot' D D Eo) as (B' & HB' & S1).
    destruct (fixed_camera_base (kc_camera_chain com) tgt C T B' oc ot' Rc HC HB' B Dc HB) as (C' & HC' & S2).
    destruct (storable C' HC') as (wc & Ec).
    set (m' := put3 (put3 mz 2 (tr C')) 3 wc).
    assert (M : forall k i, k <> 2%nat -> k <> 3%nat -> m' k i = mz k i).
    { intros k i Hk2 Hk3. unfold m'. rewrite !put3_other by assumption. reflexivity. }
    assert (Es : same_estimate (KE C' T B oc ot') (stored_estimate com m')).
    { rewrite estimate_parts. repeat split; cbn [ke_camera_mount_to_camera ke_target_mount_to_target ke_camera_base_to_target_base].
      - unfold m'. read_puts. symmetry. exact Ec. }
    destruct (cheaper m m' c Hc) as (c' & Hc' & _ & Lt).
    { rewrite asks_target. apply (same_predictions_trans _ _ _ (KE C' T B oc ot')).
      - rewrite estimate_parts. exact (same_predictions_trans _ _ _ _ _ S1 S2).
      - apply same_predictions_estimate; [ exact Es | reflexivity | reflexivity ]. }
    { intros e He. rewrite M by lia. cbn [mz]. destruct (orb _ _); auto. }
    assert (Fr : forall k i, frozen p k i -> m' k i = m k i).
    { intros k i F. destruct (Nat.eq_dec k 2) as [->|N2]; [ | destruct (Nat.eq_dec k 3) as [->|N3] ].
      - destruct (Nat.lt_ge_cases i 3) as [Hi|Hi]; [ | unfold m'; rewrite !put3_beyond by lia; reflexivity ].
        apply held_iff in F; [ lia | lia | exact Hi ].
      - destruct (Nat.lt_ge_cases i 3) as [Hi|Hi]; [ | unfold m'; rewrite !put3_beyond by lia; reflexivity ].
        apply held_iff in F; [ lia | lia | exact Hi ].
      - rewrite M by assumption. unfold mz. destruct k as [|[|k]]; [ reflexivity | | reflexivity ].
        destruct (Nat.eqb_spec i 0) as [->|X].
        + exfalso. apply held_iff in F; [ | lia | rewrite block1 by exact D; lia ]. rewrite Nat.mod_0_l in F by lia.
          destruct F as [F|[[_ F]|[F|F]]]; [ discriminate | exact (Nh F) | discriminate | discriminate ].
        + destruct (Nat.eqb_spec i (dof tgt)) as [->|Y]; [ | reflexivity ].
          exfalso. apply held_iff in F; [ | lia | rewrite block1 by exact D; lia ]. rewrite Nat.mod_same in F by lia.
          destruct F as [F|[[_ F]|[F|F]]]; [ discriminate | exact (Nh F) | discriminate | discriminate ]. }
    pose proof (Hmin m' c' Fr Hc') as Le.
    intros j Hj. rewrite estimate_parts. cbn [ke_target_offsets ent]. destruct (Req_dec (m 1%nat (j * dof tgt + 0)%nat) 0) as [Z|Z]; [ exact Z | exfalso ].
    apply (Rlt_irrefl c), (Rle_lt_trans _ c'); [ exact Le | ]. apply Lt.
    - exists 0%nat. rewrite block1 by exact D. split; [ lia | ]. intros H. destruct A as (_ & _ & _ & Et & _ & _ & _ & _ & _ & H').
      fold com in H'. apply H' in H; [ | lia | fold com; rewrite block1 by exact D; lia ]. rewrite Nat.mod_0_l in H by lia.
      destruct H as [F|[[_ F]|[F|F]]]; [ discriminate | exact (Nh F) | discriminate | discriminate ].
    - exists (j * dof tgt + 0)%nat. split; [ nia | split; [ exact Z | ] ]. rewrite M by lia. cbn [mz].
      assert (X : orb (Nat.eqb (j * dof tgt + 0) 0) (Nat.eqb (j * dof tgt + 0) (dof tgt)) = true).
      { destruct j as [|[|j]]; [ reflexivity | | lia ]. replace (1 * dof tgt + 0)%nat with (dof tgt) by lia. rewrite Nat.eqb_refl, Bool.orb_true_r. reflexivity. }
      rewrite X. reflexivity.
  Qed.
End Values.
