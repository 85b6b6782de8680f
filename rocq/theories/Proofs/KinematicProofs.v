(** C13, C47, C48, C53. *)
From Coq Require Import Reals Lra Psatz ZArith Arith Lia FunctionalExtensionality String List Permutation.
From Verif.Base Require Import Geom Outcome Matrix.
From Verif.Model Require Import Pose Covariance Solver HandEye DhChain LocalParam MaxLikelihood Kinematic.
From Verif.Spec Require Import CovarianceSpec PinHole DhSpec FreezeSpec KinSpec KinReport.
From Verif.Proofs Require Import GeomLemmas RotLemmas AngleAxisLemmas PoseProofs ListLemmas CovarianceProofs
  HandEyeProofs DhProofs LocalParamProofs MaxLikelihoodProofs.
Import ListNotations.
Local Open Scope R_scope.

(** ** C13: masks *)
Definition mask_pairs (n : nat) (mask : nat -> nat -> bool) : list (nat * nat) :=
  filter (fun rc => mask (fst rc) (snd rc)) (flat_map (fun row => map (fun col => (row, col)) (seq 0 4)) (seq 0 n)).
Lemma fold_left_filter_map {A B} (p : A -> bool) (f : A -> B) l acc :
  fold_left (fun out a => if p a then (out ++ [f a])%list else out) l acc = (acc ++ map f (filter p l))%list.
Proof.
  revert acc. induction l as [|a r IH]; intros acc; cbn; [ rewrite app_nil_r; reflexivity | ].
  rewrite IH. destruct (p a); cbn; [ rewrite <- app_assoc; reflexivity | reflexivity ].
Qed.
Lemma createDHMask_eq n mask :
  createDHMask n mask = map (fun rc => Z.of_nat (n * snd rc + fst rc)) (mask_pairs n mask).
Proof.
  unfold createDHMask.
  transitivity (fold_left (fun out rc => if mask (fst rc) (snd rc) then (out ++ [Z.of_nat (n * snd rc + fst rc)])%list else out)
    (flat_map (fun row => map (fun col => (row, col)) (seq 0 4)) (seq 0 n)) []).
  - rewrite <- (fold_left_nested (fun _ : nat => seq 0 4)). reflexivity.
  - rewrite (fold_left_filter_map (fun rc => mask (fst rc) (snd rc)) (fun rc => Z.of_nat (n * snd rc + fst rc))). reflexivity.
Qed.
Lemma mask_pairs_in n mask i j : In (i, j) (mask_pairs n mask) <-> (i < n)%nat /\ (j < 4)%nat /\ mask i j = true.
Proof.
  unfold mask_pairs. rewrite filter_In, in_flat_map. cbn [fst snd]. split.
  - intros ((row & Hr & Hc) & M). apply in_map_iff in Hc as (col & [= <- <-] & Hc).
    apply in_seq in Hr. apply in_seq in Hc. split; [ lia | split; [ lia | exact M ] ].
  - intros (Hi & Hj & M). split; [ | exact M ]. exists i. split; [ apply in_seq; lia | ].
    apply in_map_iff. exists j. split; [ reflexivity | apply in_seq; lia ].
Qed.
Lemma mask_in n mask i j : (i < n)%nat -> (j < 4)%nat ->
  In (Z.of_nat (j * n + i)) (createDHMask n mask) <-> mask i j = true.
Proof.
  intros Hi Hj. rewrite createDHMask_eq, in_map_iff. split.
  - intros ([i' j'] & E & H). apply mask_pairs_in in H as (Hi' & Hj' & M). cbn [fst snd] in E.
    apply Nat2Z.inj in E. destruct (colmajor_offset_inj n i' j' i j Hi' Hi) as [-> ->]; [ lia | exact M ].
  - intros M. exists (i, j). cbn [fst snd]. split; [ f_equal; lia | apply mask_pairs_in; auto ].
Qed.
Lemma mask_range n mask z : In z (createDHMask n mask) ->
  exists i j, (i < n)%nat /\ (j < 4)%nat /\ mask i j = true /\ z = Z.of_nat (j * n + i) /\
              (0 <= z < Z.of_nat (n * 4))%Z.
Proof.
  rewrite createDHMask_eq, in_map_iff. intros ([i j] & <- & H). apply mask_pairs_in in H as (Hi & Hj & M).
  exists i, j. cbn [fst snd]. repeat split; try assumption; try lia; try nia.
Qed.
Lemma NoDup_app' {A} (l1 l2 : list A) : NoDup l1 -> NoDup l2 -> (forall x, In x l1 -> In x l2 -> False) -> NoDup (l1 ++ l2).
Proof.
  induction l1 as [|a r IH]; intros H1 H2 D; cbn; [ exact H2 | ]. inversion H1 as [|? ? Na Nr]; subst.
  constructor.
  - rewrite in_app_iff. intros [C|C]; [ contradiction | exact (D a (or_introl eq_refl) C) ].
  - apply IH; [ exact Nr | exact H2 | ]. intros x Hx. apply D. right. exact Hx.
Qed.
Lemma NoDup_pairs n : NoDup (flat_map (fun row => map (fun col => (row, col)) (seq 0 4)) (seq 0 n)).
Proof.
  induction n as [|n IH]; [ constructor | ]. rewrite (seq_S n 0), flat_map_app'. cbn [flat_map plus]. rewrite app_nil_r.
  apply NoDup_app'; [ exact IH | | ].
  - apply FinFun.Injective_map_NoDup; [ intros a b E; injection E; auto | apply seq_NoDup ].
  - intros [i j] H1 H2. apply in_flat_map in H1 as (r & Hr & H1). apply in_map_iff in H1 as (? & [= <- <-] & _).
    apply in_map_iff in H2 as (? & [= <- <-] & _). apply in_seq in Hr. lia.
Qed.

Lemma mask_nodup n mask : NoDup (createDHMask n mask).
Proof.
  rewrite createDHMask_eq. unfold mask_pairs. set (P := flat_map _ _).
  assert (Hb : forall i j, In (i, j) P -> (i < n)%nat).
  { intros i j H. apply in_flat_map in H as (r & Hr & H). apply in_map_iff in H as (? & [= <- <-] & _).
    apply in_seq in Hr. lia. }
  assert (N : NoDup P) by apply NoDup_pairs. revert N Hb. clearbody P.
  induction P as [|[i j] r IH]; intros N Hb; [ constructor | ]. inversion N as [|? ? Na Nr]; subst.
  cbn [filter fst snd]. assert (IH' := IH Nr (fun i j H => Hb i j (or_intror H))).
  destruct (mask i j); [ | exact IH' ]. cbn [map fst snd]. constructor; [ | exact IH' ].
  intros C. apply in_map_iff in C as ([i' j'] & E & C). apply filter_In in C as [C _]. cbn [fst snd] in E.
  apply Nat2Z.inj in E.
  destruct (colmajor_offset_inj n i' j' i j) as [-> ->];
    [ eapply Hb; right; exact C | eapply Hb; left; reflexivity | lia | contradiction ].
Qed.

(** ** Labels *)
Definition four (ls : list (list string)) : Prop := forall l, In l ls -> length l = 4%nat.
Lemma labels_inner ls c out : four ls -> (c < 4)%nat ->
  foldM (fun out label => do l <- at_ label c; Ok (out ++ [l])%list) ls out
  = Ok (out ++ map (fun l => nth c l EmptyString) ls)%list.
Proof.
  intros F Hc. revert out. induction ls as [|l r IH]; intros out; cbn; [ rewrite app_nil_r; reflexivity | ].
  rewrite (at_ok l c EmptyString) by (rewrite (F l (or_introl eq_refl)); exact Hc). cbn.
  rewrite IH by (intros x Hx; apply F; right; exact Hx). rewrite <- app_assoc. reflexivity.
Qed.
Lemma map_nth_seq {A B} (f : A -> B) l d : map f l = map (fun i => f (nth i l d)) (seq 0 (length l)).
Proof.
  induction l as [|a r IH]; [ reflexivity | ]. cbn [length seq map nth]. f_equal. rewrite IH, <- seq_shift, map_map. reflexivity.
Qed.
Lemma concat_labels_eq ls : four ls ->
  concat_labels ls = Ok (colmajor (length ls) 4 (fun i c => nth c (nth i ls []) EmptyString)).
Proof.
  intros F. unfold concat_labels.
  change (seq 0 4) with [0; 1; 2; 3]%nat. cbn [foldM].
  repeat (rewrite labels_inner by (first [ exact F | lia ]); cbn [bind]).
  unfold colmajor. change (seq 0 4) with [0; 1; 2; 3]%nat. cbn [flat_map]. rewrite app_nil_r.
  rewrite !(map_nth_seq (fun l : list string => nth _ l EmptyString) ls []). rewrite <- !app_assoc. reflexivity.
Qed.
Lemma chainParamLabels_map c : chainParamLabels c = map getParamLabels (transforms c).
Proof. apply (fold_left_push getParamLabels (transforms c) []). Qed.
Lemma chainParamLabels_four c : four (chainParamLabels c).
Proof.
  intros l H. rewrite chainParamLabels_map in H. apply in_map_iff in H as (t & <- & _). reflexivity.
Qed.
Lemma chain_labels_four c s : four (chain_labels c s).
Proof.
  unfold chain_labels. destruct (Nat.eqb (dof c) 0); [ | apply chainParamLabels_four ].
  intros l [<-|[]]. reflexivity.
Qed.
Lemma chain_labels_length c s : length (chain_labels c s) = offset_rows c.
Proof.
  unfold chain_labels, offset_rows. destruct (Nat.eqb (dof c) 0); [ reflexivity | ].
  rewrite chainParamLabels_map, map_length. reflexivity.
Qed.
Definition params8 (p0 p1 p2 p3 p4 p5 p6 p7 : nat) := [p0; p1; p2; p3; p4; p5; p6; p7].
Lemma nth_error_nth_default {A} (l : list A) i d : (i < length l)%nat -> nth_error l i = Some (nth i l d).
Proof. intros. apply nth_error_nth'. assumption. Qed.

Ltac insert_all :=
  cbn [insert_key];
  repeat (match goal with |- context [Nat.eqb ?a ?b] =>
    replace (Nat.eqb a b) with false by (symmetry; apply Nat.eqb_neq; intros ?; subst; tauto) end; cbn [insert_key]).

Lemma construct_labels_ok p0 p1 p2 p3 p4 p5 p6 p7 cl tl l2 l3 l4 l5 l6 l7 :
  NoDup [p0; p1; p2; p3; p4; p5; p6; p7] -> four cl -> four tl ->
  constructParameterLabels (constructParameters p0 p1 p2 p3 p4 p5 p6 p7) cl tl l2 l3 l4 l5 l6 l7 =
  Ok [(p0, colmajor (length cl) 4 (fun i c => nth c (nth i cl []) EmptyString));
      (p1, colmajor (length tl) 4 (fun i c => nth c (nth i tl []) EmptyString));
      (p2, l2); (p3, l3); (p4, l4); (p5, l5); (p6, l6); (p7, l7)].
Proof.
  intros N F1 F2. unfold constructParameterLabels, constructParameters. rewrite !concat_labels_eq by assumption.
  cbn [bind idx nth_error].
  do 8 (apply NoDup_cons_iff in N as [?N N]). cbn [In] in *.
  insert_all.
  reflexivity.
Qed.
Lemma construct_masks_ok p0 p1 p2 p3 p4 p5 p6 p7 m0 m1 m2 m3 m4 m5 m6 m7 :
  NoDup [p0; p1; p2; p3; p4; p5; p6; p7] ->
  constructParameterMasks (constructParameters p0 p1 p2 p3 p4 p5 p6 p7) [m0; m1; m2; m3; m4; m5; m6; m7] =
  Ok [(p0, m0); (p1, m1); (p2, m2); (p3, m3); (p4, m4); (p5, m5); (p6, m6); (p7, m7)].
Proof.
  intros N. unfold constructParameterMasks, constructParameters. cbn [length Nat.eqb negb seq foldM bind idx nth_error].
  do 8 (apply NoDup_cons_iff in N as [?N N]). cbn [In] in *.
  insert_all.
  reflexivity.
Qed.
Lemma construct_names_ok p0 p1 p2 p3 p4 p5 p6 p7 :
  NoDup [p0; p1; p2; p3; p4; p5; p6; p7] ->
  constructParameterNames (constructParameters p0 p1 p2 p3 p4 p5 p6 p7) =
  Ok (combine [p0; p1; p2; p3; p4; p5; p6; p7] block_names).
Proof.
  intros N. unfold constructParameterNames, constructParameters, block_names.
  cbn [combine seq foldM bind idx nth_error].
  do 8 (apply NoDup_cons_iff in N as [?N N]). cbn [In] in *.
  insert_all.
  reflexivity.
Qed.

(** ** Transforms *)
Lemma iso_trans_rot t A : iso_mul (iso_mul iso_id (iso_trans t)) (iso_rot A) = Iso A t.
Proof.
  rewrite iso_mul_id_l. apply iso_ext; cbn [iso_mul iso_trans iso_rot lin tr].
  - apply mmul_I_l.
  - destruct t. geo_ring.
Qed.
Lemma createTransform_eq t w :
  createTransform t w = Iso (if Rlt_dec DBL_EPS (norm w) then aa_matrix (norm w) (normalized w) else I3) t.
Proof.
  unfold createTransform. destruct (Rlt_dec _ _); [ apply iso_trans_rot | ].
  rewrite iso_mul_id_l. reflexivity.
Qed.
Lemma createTransform_rigid t w : rigid (createTransform t w).
Proof.
  rewrite createTransform_eq. unfold rigid. cbn [lin]. destruct (Rlt_dec _ _); [ apply aa_norm_rot | apply rigid_id ].
Qed.
Lemma createTransform_rotation t w : w = vzero \/ DBL_EPS < norm w ->
  createTransform t w = Iso (aa_matrix (norm w) (normalized w)) t.
Proof.
  intros H. rewrite createTransform_eq. f_equal. destruct (Rlt_dec _ _) as [L|L]; [ reflexivity | ].
  destruct H as [->|H]; [ | contradiction ]. rewrite norm_vzero, aa_matrix_0. reflexivity.
Qed.
Lemma guess_stored T : turns_enough T -> createTransform (tr T) (guess_aa T) = T.
Proof.
  intros [R H]. destruct (aa_of_mat_spec _ R) as (U & A & M).
  rewrite createTransform_eq. unfold guess_aa. set (a := aa_angle _) in *. set (u := aa_axis _) in *.
  destruct H as [I|(a' & u' & Hu & L & Ha & He)].
  - assert (C : cos a = 1).
    { pose proof (f_equal trace M) as E. rewrite trace_aa, I in E by exact U. unfold trace, I3 in E.
      cbn [m00 m11 m22] in E. lra. }
    assert (a = 0).
    { apply cos_inj; [ exact A | pose proof PI_RGT_0; lra | rewrite cos_0; exact C ]. }
    rewrite H. replace (vscale 0 u) with vzero by (geo_unfold; f_equal; ring).
    rewrite norm_vzero. destruct (Rlt_dec DBL_EPS 0) as [X|_]; [ pose proof DBL_EPS_pos; lra | ].
    apply iso_ext; cbn [lin tr]; [ symmetry; exact I | reflexivity ].
  - assert (a = a').
    { apply cos_inj; [ exact A | exact Ha | ].
      pose proof (f_equal trace M) as E. rewrite trace_aa in E by exact U. rewrite L in E.
      rewrite trace_aa in E by exact Hu. lra. }
    pose proof DBL_EPS_pos. destruct (normalized_scaled a u) as [E1 E2]; [ lra | exact U | ].
    rewrite E1, E2. destruct (Rlt_dec DBL_EPS a) as [X|X]; [ | lra ].
    apply iso_ext; cbn [lin tr]; [ exact M | reflexivity ].
Qed.

(** ** Angular distance *)
Lemma angular_distance_angle A B : is_rot A -> is_rot B ->
  angle_between A B (angular_distance (quat_of_mat A) (quat_of_mat B)).
Proof.
  intros HA HB. pose proof (quat_of_mat_unit A HA) as UA. pose proof (quat_of_mat_unit B HB) as UB.
  set (a := quat_of_mat A) in *. set (b := quat_of_mat B) in *.
  set (d := qmul a (qconj b)).
  assert (Ub : qnorm2 (qconj b) = 1) by (rewrite <- UB; destruct b; unfold qnorm2, qconj; cbn; ring).
  assert (Ud : qnorm2 d = 1) by (unfold d; rewrite qmul_norm, UA, Ub; ring).
  destruct (aa_of_quat_spec d Ud) as (U & An & M).
  assert (Md : q_matrix d = mmul A (mT B)).
  { unfold d. rewrite q_matrix_mul by assumption. unfold a. rewrite q_matrix_quat_of_mat by exact HA. f_equal.
    transitivity (mT (q_matrix b)); [ destruct b; geo_unfold; unfold q_matrix, qconj, mT; cbn; f_equal; ring | ].
    unfold b. rewrite q_matrix_quat_of_mat by exact HB. reflexivity. }
  assert (E : angular_distance a b = aa_angle (aa_of_quat d)).
  { unfold angular_distance. fold d. unfold aa_of_quat. destruct (Req_EM_T (norm (qvec d)) 0) as [Z|Z]; [ | reflexivity ].
    cbn [aa_angle]. rewrite Z. pose proof Ud as Ud'. rewrite qnorm2_split in Ud'. rewrite <- norm_sq, Z in Ud'.
    assert (W : Rabs (qw d) = 1).
    { pose proof (Rabs_pos (qw d)). pose proof (Rsqr_abs (qw d)) as Q. unfold Rsqr in Q. nra. }
    rewrite W. replace 0 with (1 * sin 0) at 1 by (rewrite sin_0; ring).
    replace 1 with (1 * cos 0) at 2 by (rewrite cos_0; ring).
    rewrite atan2_polar by (pose proof PI_RGT_0; lra). ring. }
  rewrite E. split; [ exact An | ]. exists (aa_axis (aa_of_quat d)). split; [ exact U | ].
  rewrite M, Md, mmul_assoc. destruct HB as [HB _]. rewrite HB, mmul_I_r. reflexivity.
Qed.
Lemma angle_between_unique A B a b : is_rot B -> angle_between A B a -> angle_between A B b -> a = b.
Proof.
  intros HB (Ha & u & Hu & Ea) (Hb & v & Hv & Eb).
  assert (Hr : forall M, mmul (mmul M B) (mT B) = M).
  { intros M. rewrite mmul_assoc. rewrite (is_rot_right B HB). apply mmul_I_r. }
  assert (E : aa_matrix a u = aa_matrix b v).
  { rewrite <- (Hr (aa_matrix a u)), <- (Hr (aa_matrix b v)), <- Ea, <- Eb. reflexivity. }
  apply cos_inj; try assumption. pose proof (f_equal trace E) as T. rewrite !trace_aa in T by assumption. lra.
Qed.
Lemma angle_between_self A : angle_between A A 0.
Proof.
  split; [ pose proof PI_RGT_0; lra | ]. exists unitX. split; [ geo_unfold; ring | ].
  rewrite aa_matrix_0, mmul_I_l. reflexivity.
Qed.
Lemma angular_distance_zero A B : is_rot A -> is_rot B ->
  angular_distance (quat_of_mat A) (quat_of_mat B) = 0 <-> A = B.
Proof.
  intros HA HB. pose proof (angular_distance_angle A B HA HB) as H. split.
  - intros E. rewrite E in H. destruct H as (_ & u & _ & ->). rewrite aa_matrix_0. apply mmul_I_l.
  - intros ->. apply (angle_between_unique B B); [ exact HB | exact H | apply angle_between_self ].
Qed.

(** ** C47: residuals *)
Section Costs.
Variables (cam tgt : dh_chain) (m : memory) (p0 p1 p2 p3 p4 p5 p6 p7 : nat).
Let C := createTransform (read3 m p2) (read3 m p3).
Let T := createTransform (read3 m p4) (read3 m p5).
Let B := createTransform (read3 m p6) (read3 m p7).
Let ps := constructParameters p0 p1 p2 p3 p4 p5 p6 p7.

Lemma dual_eq qc qt :
  dual_camera_to_target cam tgt qc qt m ps =
  do Fc <- getFK cam qc (map_offsets m p0 (dof cam));
  do Ft <- getFK tgt qt (map_offsets m p1 (dof tgt));
  Ok (kin_target_in_camera Fc C B Ft T).
Proof.
  unfold dual_camera_to_target, ps, constructParameters, createTransform_at. cbn [idx nth_error bind Nat.add].
  destruct (getFK cam _ _) as [Fc| |]; [ cbn [bind] | reflexivity | reflexivity ].
  destruct (getFK tgt _ _) as [Ft| |]; [ cbn [bind] | reflexivity | reflexivity ].
  unfold kin_target_in_camera, C, B, T. rewrite !iso_mul_assoc. reflexivity.
Qed.
Lemma cost2D3D_eq obs pt k qc qt :
  dualCost2D3D obs pt k cam tgt qc qt ps m =
  do Fc <- getFK cam qc (map_offsets m p0 (dof cam));
  do Ft <- getFK tgt qt (map_offsets m p1 (dof tgt));
  let q := projectPoint_eig k (iso_app (kin_target_in_camera Fc C B Ft T) pt) in
  Ok [px q - px obs; py q - py obs].
Proof.
  unfold dualCost2D3D. rewrite dual_eq.
  destruct (getFK cam _ _) as [Fc| |]; [ cbn [bind] | reflexivity | reflexivity ].
  destruct (getFK tgt _ _) as [Ft| |]; reflexivity.
Qed.
Lemma costPose_eq meas w :
  dualCostPose6D meas cam tgt w ps m =
  do Fc <- getFK cam (km_camera_chain_joints meas) (map_offsets m p0 (dof cam));
  do Ft <- getFK tgt (km_target_chain_joints meas) (map_offsets m p1 (dof tgt));
  let P := kin_target_in_camera Fc C B Ft T in
  let E := iso_mul (km_camera_to_target meas) (iso_inv P) in
  Ok [vx (tr E); vy (tr E); vz (tr E);
      w * angular_distance (quat_of_mat (lin (km_camera_to_target meas))) (quat_of_mat (lin P))].
Proof.
  unfold dualCostPose6D. rewrite dual_eq.
  destruct (getFK cam _ _) as [Fc| |]; [ cbn [bind] | reflexivity | reflexivity ].
  destruct (getFK tgt _ _) as [Ft| |]; reflexivity.
Qed.
Lemma kin_cost2_value obs pt k qc qt Fc Ft :
  getFK cam qc (map_offsets m p0 (dof cam)) = Ok Fc -> getFK tgt qt (map_offsets m p1 (dof tgt)) = Ok Ft ->
  let q := projectPoint_eig k (iso_app (kin_target_in_camera Fc C B Ft T) pt) in
  dualCost2D3D obs pt k cam tgt qc qt ps m = Ok [px q - px obs; py q - py obs].
Proof. intros E1 E2. rewrite cost2D3D_eq, E1, E2. reflexivity. Qed.
Lemma kin_cost2_zero obs pt k qc qt Fc Ft :
  getFK cam qc (map_offsets m p0 (dof cam)) = Ok Fc -> getFK tgt qt (map_offsets m p1 (dof tgt)) = Ok Ft ->
  dualCost2D3D obs pt k cam tgt qc qt ps m = Ok [0; 0] <->
  obs = projectPoint_eig k (iso_app (kin_target_in_camera Fc C B Ft T) pt).
Proof.
  intros E1 E2. rewrite cost2D3D_eq, E1, E2. cbn [bind]. destruct (projectPoint_eig _ _) as [a b], obs as [c d]. cbn [px py].
  split; [ intros [= H1 H2]; f_equal; lra | intros [= -> ->]; f_equal; f_equal; [ lra | f_equal; lra ] ].
Qed.
Lemma kin_target_rigid Fc Ft : rigid Fc -> rigid Ft -> rigid (kin_target_in_camera Fc C B Ft T).
Proof.
  intros H1 H2. unfold kin_target_in_camera.
  repeat first [ apply rigid_mul | apply rigid_inv | apply createTransform_rigid | assumption ].
Qed.
Lemma kin_costP_value meas w Fc Ft :
  getFK cam (km_camera_chain_joints meas) (map_offsets m p0 (dof cam)) = Ok Fc ->
  getFK tgt (km_target_chain_joints meas) (map_offsets m p1 (dof tgt)) = Ok Ft ->
  rigid (base_offset cam) -> rigid (base_offset tgt) -> rigid (km_camera_to_target meas) ->
  let P := kin_target_in_camera Fc C B Ft T in
  let E := iso_mul (km_camera_to_target meas) (iso_inv P) in
  exists angle, angle_between (lin (km_camera_to_target meas)) (lin P) angle /\
    dualCostPose6D meas cam tgt w ps m = Ok [vx (tr E); vy (tr E); vz (tr E); w * angle].
Proof.
  intros E1 E2 R1 R2 R3 P E. exists (angular_distance (quat_of_mat (lin (km_camera_to_target meas))) (quat_of_mat (lin P))).
  split; [ | rewrite costPose_eq, E1, E2; reflexivity ].
  apply angular_distance_angle; [ exact R3 | ].
  apply kin_target_rigid; [ exact (fk_rigid _ _ _ _ R1 E1) | exact (fk_rigid _ _ _ _ R2 E2) ].
Qed.
Lemma kin_costP_zero meas w Fc Ft :
  getFK cam (km_camera_chain_joints meas) (map_offsets m p0 (dof cam)) = Ok Fc ->
  getFK tgt (km_target_chain_joints meas) (map_offsets m p1 (dof tgt)) = Ok Ft ->
  rigid (base_offset cam) -> rigid (base_offset tgt) -> rigid (km_camera_to_target meas) -> w <> 0 ->
  dualCostPose6D meas cam tgt w ps m = Ok [0; 0; 0; 0] <->
  km_camera_to_target meas = kin_target_in_camera Fc C B Ft T.
Proof.
  intros E1 E2 R1 R2 R3 Hw. rewrite costPose_eq, E1, E2. cbn [bind].
  set (M := km_camera_to_target meas) in *. set (P := kin_target_in_camera _ _ _ _ _).
  assert (RP : rigid P) by (apply kin_target_rigid; [ exact (fk_rigid _ _ _ _ R1 E1) | exact (fk_rigid _ _ _ _ R2 E2) ]).
  split.
  - intros [= H1 H2 H3 H4]. apply Rmult_integral in H4 as [H4|H4]; [ contradiction | ].
    apply (proj1 (angular_distance_zero _ _ R3 RP)) in H4.
    assert (Z : tr (iso_mul M (iso_inv P)) = vzero) by (apply vec3_ext; cbn [vx vy vz vzero]; assumption).
    assert (L : lin (iso_mul M (iso_inv P)) = I3).
    { change (mmul (lin M) (lin (iso_inv P)) = I3). rewrite H4. exact (f_equal lin (iso_inv_r P RP)). }
    assert (E : iso_mul M (iso_inv P) = iso_id) by (apply iso_ext; assumption).
    rewrite <- (iso_mul_id_r M), <- (iso_inv_l P RP), <- iso_mul_assoc, E. apply iso_mul_id_l.
  - intros ->. rewrite (proj2 (angular_distance_zero (lin P) (lin P) RP RP) eq_refl), (iso_inv_r P RP).
    cbn [iso_id tr vx vy vz vzero]. rewrite Rmult_0_r. reflexivity.
Qed.
Lemma kin_cost2_outcome obs pt k qc qt :
  (exists r, dualCost2D3D obs pt k cam tgt qc qt ps m = Ok r) <->
  (length qc <= dof cam)%nat /\ known_types cam (length qc) /\ (length qt <= dof tgt)%nat /\ known_types tgt (length qt).
Proof.
  rewrite cost2D3D_eq. pose proof (fk_ok_iff cam qc (map_offsets m p0 (dof cam))) as K1.
  pose proof (fk_ok_iff tgt qt (map_offsets m p1 (dof tgt))) as K2. cbn [rows map_offsets] in K1, K2.
  split.
  - intros (r & E). destruct (getFK cam _ _) as [Fc| |] eqn:E1; try discriminate. cbn [bind] in E.
    destruct (getFK tgt _ _) as [Ft| |] eqn:E2; try discriminate.
    destruct (proj1 K1 (ex_intro _ _ eq_refl)) as (?&?&?). destruct (proj1 K2 (ex_intro _ _ eq_refl)) as (?&?&?). auto.
  - intros (H1 & H2 & H3 & H4). destruct (proj2 K1 (conj H1 (conj H1 H2))) as (Fc & ->).
    destruct (proj2 K2 (conj H3 (conj H3 H4))) as (Ft & ->). eexists. reflexivity.
Qed.
Lemma kin_costP_outcome meas w :
  (exists r, dualCostPose6D meas cam tgt w ps m = Ok r) <->
  (length (km_camera_chain_joints meas) <= dof cam)%nat /\ known_types cam (length (km_camera_chain_joints meas)) /\
  (length (km_target_chain_joints meas) <= dof tgt)%nat /\ known_types tgt (length (km_target_chain_joints meas)).
Proof.
  rewrite costPose_eq. set (qc := km_camera_chain_joints meas). set (qt := km_target_chain_joints meas).
  pose proof (fk_ok_iff cam qc (map_offsets m p0 (dof cam))) as K1.
  pose proof (fk_ok_iff tgt qt (map_offsets m p1 (dof tgt))) as K2. cbn [rows map_offsets] in K1, K2.
  split.
  - intros (r & E). destruct (getFK cam _ _) as [Fc| |] eqn:E1; try discriminate. cbn [bind] in E.
    destruct (getFK tgt _ _) as [Ft| |] eqn:E2; try discriminate.
    destruct (proj1 K1 (ex_intro _ _ eq_refl)) as (?&?&?). destruct (proj1 K2 (ex_intro _ _ eq_refl)) as (?&?&?). auto.
  - intros (H1 & H2 & H3 & H4). destruct (proj2 K1 (conj H1 (conj H1 H2))) as (Fc & ->).
    destruct (proj2 K2 (conj H3 (conj H3 H4))) as (Ft & ->). eexists. reflexivity.
Qed.
End Costs.

(** ** C48: the whole call *)
Definition kin_labels (com : kin_common) : amap (list string) :=
  let cl := chain_labels (kc_camera_chain com) "camera_chain_placeholder" in
  let tl := chain_labels (kc_target_chain com) "target_chain_placeholder" in
  let lab1 := kc_label_camera_mount_to_camera com in
  let lab2 := kc_label_target_mount_to_target com in
  let lab3 := kc_label_camera_base_to_target com in
  [(0%nat, colmajor (length cl) 4 (fun i c => nth c (nth i cl []) EmptyString));
   (1%nat, colmajor (length tl) 4 (fun i c => nth c (nth i tl []) EmptyString));
   (2%nat, labels3 lab1 "_x" "_y" "_z"); (3%nat, labels3 lab1 "_rx" "_ry" "_rz");
   (4%nat, labels3 lab2 "_x" "_y" "_z"); (5%nat, labels3 lab2 "_rx" "_ry" "_rz");
   (6%nat, labels3 lab3 "_x" "_y" "_z"); (7%nat, labels3 lab3 "_rx" "_ry" "_rz")].
Definition kin_masks (com : kin_common) : amap (list Z) := combine kin_keys (kc_mask com).
Definition kin_names : amap string := combine kin_keys block_names.
Definition kin_params : list nat := constructParameters 0 1 2 3 4 5 6 7.
Definition kin_start (cov : cov_oracle) (com : kin_common) : problem :=
  Problem (map (fun k => (k, kin_size com k)) (co_order cov kin_keys)) (fun _ => fresh_block).
Definition kin_frozen0 (com : kin_common) (b : nat) : bool :=
  orb (andb (Nat.eqb b 0) (Nat.eqb (dof (kc_camera_chain com)) 0))
      (andb (Nat.eqb b 1) (Nat.eqb (dof (kc_target_chain com)) 0)).
Definition kin_prepared (cov : cov_oracle) (com : kin_common) : problem :=
  Problem (map (fun k => (k, kin_size com k)) (co_order cov kin_keys))
          (fun b => BS (kin_frozen0 com b) None).

Lemma nodup_keys : NoDup kin_keys.
Proof. repeat constructor; cbn; lia. Qed.
Lemma eight {A} (l : list A) : length l = 8%nat ->
  exists a b c d e f g h, l = [a; b; c; d; e; f; g; h].
Proof.
  intros H. do 8 (destruct l as [|? l]; [ discriminate H | ]). destruct l; [ | discriminate H ].
  repeat eexists.
Qed.
Lemma kin_blocks_keys (com : kin_common) l : keys (map (fun k => (k, kin_size com k)) l) = l.
Proof. unfold keys. rewrite map_map. cbn. apply map_id. Qed.
Lemma kin_find (com : kin_common) l k : In k l -> find_key k (map (fun k => (k, kin_size com k)) l) = Some (kin_size com k).
Proof.
  induction l as [|a r IH]; intros H; [ destruct H | ]. cbn. destruct (Nat.eqb_spec k a) as [->|N]; [ reflexivity | ].
  apply IH. destruct H as [->|H]; [ congruence | exact H ].
Qed.
Lemma order_in cov k : lists_blocks cov -> In k kin_keys -> In k (co_order cov kin_keys).
Proof. intros H. apply Permutation_in, H. Qed.
Lemma order_in_inv cov k : lists_blocks cov -> In k (co_order cov kin_keys) -> In k kin_keys.
Proof. intros H. apply Permutation_in, Permutation_sym, H. Qed.
Lemma prepared_nodup cov com : lists_blocks cov -> NoDup (keys (p_blocks (kin_prepared cov com))).
Proof.
  intros H. cbn [p_blocks kin_prepared]. rewrite kin_blocks_keys. eapply Permutation_NoDup; [ apply H | apply nodup_keys ].
Qed.
Lemma prepared_block cov com k n : lists_blocks cov ->
  In (k, n) (p_blocks (kin_prepared cov com)) <-> In k kin_keys /\ n = kin_size com k.
Proof.
  intros H. cbn [p_blocks kin_prepared]. rewrite in_map_iff. split.
  - intros (x & [= <- <-] & Hx). split; [ eapply order_in_inv; eassumption | reflexivity ].
  - intros [Hk ->]. exists k. split; [ reflexivity | apply order_in; assumption ].
Qed.

(** Problems are compared by what they contain. *)
Definition problem_eq (p q : problem) : Prop := p_blocks p = p_blocks q /\ forall b, p_state p b = p_state q b.

Lemma set_const_step cov com p k (H : lists_blocks cov) :
  p_blocks p = map (fun k => (k, kin_size com k)) (co_order cov kin_keys) -> In k kin_keys ->
  SetParameterBlockConstant p k = Ok (set_state p k (BS true (bs_subset (p_state p k)))).
Proof.
  intros E Hk. unfold SetParameterBlockConstant. rewrite E, kin_find by (apply order_in; assumption). reflexivity.
Qed.
Lemma kin_prepare cov com : lists_blocks cov ->
  (do p <- (if Nat.eqb (dof (kc_camera_chain com)) 0 then SetParameterBlockConstant (kin_start cov com) 0 else Ok (kin_start cov com));
   if Nat.eqb (dof (kc_target_chain com)) 0 then SetParameterBlockConstant p 1 else Ok p)
  = Ok (kin_prepared cov com).
Proof.
  intros H.
  assert (K0 : In 0%nat kin_keys) by (cbn; auto). assert (K1 : In 1%nat kin_keys) by (cbn; auto).
  unfold kin_prepared, kin_frozen0. destruct (Nat.eqb (dof (kc_camera_chain com)) 0) eqn:E0.
  - rewrite (set_const_step cov com) by (first [ exact H | reflexivity | exact K0 ]). cbn [bind].
    destruct (Nat.eqb (dof (kc_target_chain com)) 0) eqn:E1.
    + rewrite (set_const_step cov com) by (first [ exact H | reflexivity | exact K1 ]).
      unfold set_state. cbn [p_blocks p_state kin_start]. f_equal. f_equal. apply functional_extensionality. intros b.
      destruct b as [|[|b]]; reflexivity.
    + unfold set_state. cbn [p_blocks p_state kin_start]. f_equal. f_equal. apply functional_extensionality. intros b.
      destruct b as [|[|b]]; reflexivity.
  - cbn [bind]. destruct (Nat.eqb (dof (kc_target_chain com)) 0) eqn:E1.
    + rewrite (set_const_step cov com) by (first [ exact H | reflexivity | exact K1 ]).
      unfold set_state. cbn [p_blocks p_state kin_start]. f_equal. f_equal. apply functional_extensionality. intros b.
      destruct b as [|[|b]]; reflexivity.
    + unfold kin_start. f_equal. f_equal. apply functional_extensionality. intros b.
      destruct b as [|[|b]]; reflexivity.
Qed.

Definition read_offsets (c : dh_chain) (m : memory) (k : nat) : matrix :=
  if Nat.eqb (dof c) 0 then Mat (dof c) 4 (fun _ _ => 0) else map_offsets m k (offset_rows c).
Definition kin_read (com : kin_common) (m : memory) (s : summary) (n : R) (c : cov_result) : kin_result :=
  KR (term_convergence s) (initial_cost s / n) (final_cost s / n)
     (createTransform (read3 m 2) (read3 m 3)) (createTransform (read3 m 4) (read3 m 5))
     (createTransform (read3 m 6) (read3 m 7))
     (read_offsets (kc_camera_chain com) m 0) (read_offsets (kc_target_chain com) m 1) c.
Definition kin_rest u (solve : kin_solver) cov com (obs : list kin_residual) (p : problem) : res kin_result :=
  do prior1 <- chain_prior p (kc_camera_chain com) 0 (kc_camera_chain_offset_stdev com);
  do prior2 <- chain_prior p (kc_target_chain com) 1 (kc_target_chain_offset_stdev com);
  let residuals := (obs ++ prior1 ++ prior2)%list in
  do _ <- printOptimizationLabels p kin_names (kin_labels com) (kin_masks com);
  match mapM (fun f : kin_residual => f (kin_memory0 com)) residuals with
  | Ok values =>
      let '(m, summary) := solve residuals p (kin_memory0 com) in
      do c <- computeCovariance_names u (mk_cov_problem cov (map (fun k => (k, kin_size com k)) kin_keys))
                (kin_labels com) (kin_masks com);
      Ok (kin_read com m summary (INR (length (concat values))) c)
  | _ => UB
  end.

Lemma kin_labels_eq com :
  constructParameterLabels (constructParameters 0 1 2 3 4 5 6 7)
      (chain_labels (kc_camera_chain com) "camera_chain_placeholder")
      (chain_labels (kc_target_chain com) "target_chain_placeholder")
      (labels3 (kc_label_camera_mount_to_camera com) "_x" "_y" "_z")
      (labels3 (kc_label_camera_mount_to_camera com) "_rx" "_ry" "_rz")
      (labels3 (kc_label_target_mount_to_target com) "_x" "_y" "_z")
      (labels3 (kc_label_target_mount_to_target com) "_rx" "_ry" "_rz")
      (labels3 (kc_label_camera_base_to_target com) "_x" "_y" "_z")
      (labels3 (kc_label_camera_base_to_target com) "_rx" "_ry" "_rz") = Ok (kin_labels com).
Proof.
  rewrite construct_labels_ok by (first [ apply nodup_keys | apply chain_labels_four ]). reflexivity.
Qed.
Lemma kin_masks_eq com : length (kc_mask com) = 8%nat ->
  constructParameterMasks (constructParameters 0 1 2 3 4 5 6 7) (kc_mask com) = Ok (kin_masks com).
Proof.
  intros H. unfold kin_masks. destruct (eight _ H) as (a & b & c & d & e & f & g & h & ->).
  rewrite construct_masks_ok by apply nodup_keys. reflexivity.
Qed.

Lemma kin_optimize_eq u solve cov com blocks : lists_blocks cov -> length (kc_mask com) = 8%nat ->
  blocks kin_params <> [] ->
  kin_optimize u solve cov com blocks =
  do p <- addSubsetParameterization (kin_prepared cov com) (kin_masks com);
  kin_rest u solve cov com (blocks kin_params) p.
Proof.
  intros H H8 Hb. unfold kin_optimize. rewrite kin_labels_eq. cbn [bind].
  rewrite kin_masks_eq by exact H8. cbn [bind].
  rewrite construct_names_ok by apply nodup_keys. cbn [bind].
  change (combine [0; 1; 2; 3; 4; 5; 6; 7] block_names) with kin_names.
  fold kin_params.
  replace (match blocks kin_params with [] => [] | _ :: _ => map (fun k => (k, kin_size com k)) kin_keys end)
    with (map (fun k => (k, kin_size com k)) kin_keys) by (destruct (blocks kin_params); [ congruence | reflexivity ]).
  rewrite kin_blocks_keys. fold (kin_start cov com).
  pose proof (kin_prepare cov com H) as P.
  destruct (if Nat.eqb (dof (kc_camera_chain com)) 0 then _ else _) as [p1| |]; [ cbn [bind] in P |- * | discriminate | discriminate ].
  rewrite P. cbn [bind]. reflexivity.
Qed.
Lemma kin_no_blocks u solve cov com blocks : lists_blocks cov -> length (kc_mask com) = 8%nat ->
  blocks kin_params = [] -> kin_optimize u solve cov com blocks = UB.
Proof.
  intros H H8 Hb. unfold kin_optimize. rewrite kin_labels_eq. cbn [bind].
  rewrite kin_masks_eq by exact H8. cbn [bind].
  rewrite construct_names_ok by apply nodup_keys. cbn [bind].
  fold kin_params. rewrite Hb. cbn [keys map].
  assert (E : co_order cov [] = []) by (apply Permutation_nil, H). rewrite E. cbn [map].
  destruct (Nat.eqb (dof (kc_camera_chain com)) 0) eqn:E0; [ reflexivity | cbn [bind] ].
  destruct (Nat.eqb (dof (kc_target_chain com)) 0) eqn:E1; [ reflexivity | cbn [bind] ].
  replace (addSubsetParameterization _ _) with (Ok (Problem [] (fun _ => fresh_block))).
  - cbn [bind]. unfold chain_prior. rewrite E0. reflexivity.
  - unfold addSubsetParameterization. destruct (kin_masks com); reflexivity.
Qed.

(** ** Printing the optimized labels *)
Lemma subset_keeps_constant p masks p' b : addSubsetParameterization p masks = Ok p' ->
  bs_constant (p_state p b) = true -> bs_constant (p_state p' b) = true.
Proof.
  unfold addSubsetParameterization. destruct masks as [|m0 ms]; [ intros [= <-]; auto | ].
  set (masks := m0 :: ms). generalize (p_blocks p). intros l. revert p. induction l as [|[c n] r IH]; intros p; cbn [foldM].
  - intros [= <-]. auto.
  - destruct (subset_step masks p (c, n)) as [p1| |] eqn:E; [ | discriminate | discriminate ]. cbn [bind].
    intros E' Hc. apply (IH p1 E'). clear - E Hc. unfold subset_step in E.
    destruct (find_key c masks) as [m|]; [ | injection E as <-; exact Hc ].
    destruct (Nat.ltb 0 (length m)); [ | injection E as <-; exact Hc ].
    destruct (_ <=? _)%Z; [ discriminate | ].
    destruct (Nat.leb n _).
    + unfold SetParameterBlockConstant in E. destruct (find_key c (p_blocks p)); [ | discriminate ].
      injection E as <-. cbn. destruct (Nat.eqb b c); [ reflexivity | exact Hc ].
    + unfold SetSubsetParameterization in E. destruct (forallb _ _); [ | discriminate ].
      destruct (bs_subset (p_state p c)); [ discriminate | ]. injection E as <-. cbn.
      destruct (Nat.eqb_spec b c); [ subst; exact Hc | exact Hc ].
Qed.
Lemma in_mask_iff mask i : in_mask mask i = true <-> In (Z.of_nat i) mask.
Proof.
  unfold in_mask. rewrite existsb_exists. split.
  - intros (z & Hz & E). apply Z.eqb_eq in E. subst. exact Hz.
  - intros H. exists (Z.of_nat i). split; [ exact H | apply Z.eqb_refl ].
Qed.
Lemma sub_label_loop (label : list string) mask l out : (forall j, In j l -> (j < length label)%nat) ->
  foldM (fun sub j => if in_mask mask j then Ok sub else do x <- at_ label j; Ok (sub ++ [x])%list) l out =
  Ok (out ++ map (fun j => nth j label EmptyString) (filter (fun j => negb (in_mask mask j)) l))%list.
Proof.
  revert out. induction l as [|j r IH]; intros out H; cbn [foldM filter map]; [ rewrite app_nil_r; reflexivity | ].
  assert (H' : forall k, In k r -> (k < length label)%nat) by (intros k Hk; apply H; right; exact Hk).
  destruct (in_mask mask j); cbn [negb bind].
  - apply IH, H'.
  - rewrite (at_ok label j EmptyString) by (apply H; left; reflexivity). cbn [bind].
    rewrite IH by exact H'. cbn [map]. rewrite <- app_assoc. reflexivity.
Qed.

Lemma mapM_Forall2 {A B} (f : A -> res B) (P : A -> B -> Prop) l :
  (forall a, In a l -> exists b, f a = Ok b /\ P a b) -> exists bs, mapM f l = Ok bs /\ Forall2 P l bs.
Proof.
  induction l as [|a r IH]; intros H; cbn; [ eauto | ].
  destruct (H a (or_introl eq_refl)) as (b & -> & Hb). cbn.
  destruct IH as (bs & -> & F); [ intros x Hx; apply H; right; exact Hx | ]. cbn. eauto.
Qed.

Lemma prints_exactly_free p names labels masks p' :
  NoDup (keys (p_blocks p)) -> no_subsets p ->
  (forall b n, In (b, n) (p_blocks p) ->
     (exists nm, find_key b names = Some nm) /\
     (exists l, find_key b labels = Some l /\ length l = n) /\
     (exists m, find_key b masks = Some m /\ forall z, In z m -> (0 <= z < Z.of_nat n)%Z)) ->
  addSubsetParameterization p masks = Ok p' ->
  exists lines, printOptimizationLabels p' names labels masks = Ok lines /\
    Forall2 (prints_free p' names labels) (p_blocks p) lines.
Proof.
  intros ND NS Hall E.
  destruct (subset_exact p masks ND NS) as (p2 & E2 & B & F).
  { intros b n Hb m z Hm Hz. destruct (Hall b n Hb) as (_ & _ & m' & Hm' & Hz'). apply Hz'. congruence. }
  rewrite E in E2. injection E2 as <-.
  unfold printOptimizationLabels. rewrite B. apply mapM_Forall2. intros [b n] Hb.
  destruct (Hall b n Hb) as ((nm & Hnm) & (l & Hl & Ln) & (m & Hm & Rg)).
  assert (Fb : find_key b (p_blocks p') <> None).
  { rewrite B. intros X. apply (in_map fst) in Hb. apply find_key_Some_iff in Hb as (v & Hv). cbn in Hv. congruence. }
  unfold IsParameterBlockConstant. destruct (find_key b (p_blocks p')) as [sz|]; [ | congruence ]. cbn [bind].
  destruct (bs_constant (p_state p' b)) eqn:Cb.
  - cbn [bind]. rewrite Hnm. cbn [bind]. eexists. split; [ reflexivity | ]. split; [ exact Hnm | ].
    exists l, []. split; [ exact Hl | split; [ constructor | split; [ | reflexivity ] ] ].
    intros i. split; [ intros [] | intros [_ X]; exfalso; apply X; left; exact Cb ].
  - rewrite Hl, Hm. cbn [bind].
    assert (Fr : forall i, (i < n)%nat -> (frozen p' b i <-> In (Z.of_nat i) m)).
    { intros i Hi. rewrite (F b n i Hb Hi). split.
      - intros [[X|(m' & X & _)]|(m' & X & Hin)].
        + apply (subset_keeps_constant p masks p' b E) in X. congruence.
        + rewrite (NS b) in X; [ discriminate | ]. apply (in_map fst) in Hb. exact Hb.
        + congruence.
      - intros Hin. right. exists m. auto. }
    assert (Sub : match m with
         | [] => Ok l
         | _ => foldM (fun sub j => if in_mask m j then Ok sub else do x <- at_ l j; Ok (sub ++ [x])%list)
                  (seq 0 (length l)) []
         end = Ok (map (fun j => nth j l EmptyString) (filter (fun j => negb (in_mask m j)) (seq 0 n)))).
    { destruct m as [|z m].
      - f_equal. replace (filter _ _) with (seq 0 n).
        + rewrite <- Ln. pose proof (map_nth_seq (fun x : string => x) l EmptyString) as Q. rewrite map_id in Q. exact Q.
        + symmetry. clear. generalize 0%nat. induction n as [|n IH]; intros a; cbn; [ reflexivity | f_equal; apply IH ].
      - rewrite sub_label_loop by (intros j Hj; apply in_seq in Hj; lia). rewrite Ln. reflexivity. }
    rewrite Sub. cbn [bind]. rewrite Hnm. cbn [bind]. eexists. split; [ reflexivity | ]. split; [ exact Hnm | ].
    exists l, (filter (fun j => negb (in_mask m j)) (seq 0 n)).
    split; [ exact Hl | ]. split; [ apply StronglySorted_filter, StronglySorted_seq | ]. split; [ | reflexivity ].
    intros i. rewrite filter_In, in_seq, Bool.negb_true_iff. split.
    + intros [Hi X]. split; [ lia | ]. rewrite Fr by lia. rewrite <- in_mask_iff, X. discriminate.
    + intros [Hi X]. split; [ lia | ]. apply Bool.not_true_iff_false. rewrite in_mask_iff, <- Fr by exact Hi. exact X.
Qed.

(** ** Reading the result back *)
Lemma fk_same c q A B : same_matrix A B -> cols A = 4%nat -> getFK c q A = getFK c q B.
Proof.
  intros (E1 & E2 & E) H4. rewrite !getFK_unfold, <- E1.
  destruct (Nat.ltb (dof c) (length q)); [ reflexivity | ].
  destruct (Nat.ltb_spec (rows A) (length q)); [ reflexivity | ].
  apply foldM_ext. intros T i Hi. apply in_seq in Hi. unfold fk_step.
  rewrite !row4_ok by lia. unfold v4_of. rewrite !E by lia. reflexivity.
Qed.
Lemma read_offsets_same c m k : same_matrix (read_offsets c m k) (map_offsets m k (dof c)).
Proof.
  unfold read_offsets, offset_rows. destruct (Nat.eqb_spec (dof c) 0) as [E|N].
  - rewrite E. split; [ reflexivity | split; [ reflexivity | ] ]. intros i j Hi. cbn in Hi. lia.
  - split; [ reflexivity | split; [ reflexivity | reflexivity ] ].
Qed.
Lemma read_offsets_fk c q m k : getFK c q (map_offsets m k (dof c)) = getFK c q (read_offsets c m k).
Proof.
  symmetry. apply fk_same; [ apply read_offsets_same | ]. unfold read_offsets. destruct (Nat.eqb _ _); reflexivity.
Qed.
Lemma read_offsets_dims c m k : rows (read_offsets c m k) = dof c /\ cols (read_offsets c m k) = 4%nat.
Proof.
  unfold read_offsets, offset_rows. destruct (Nat.eqb_spec (dof c) 0) as [E|N]; [ rewrite E; auto | split; reflexivity ].
Qed.

Lemma kin_ok_values u solve cov com blocks r : lists_blocks cov -> length (kc_mask com) = 8%nat ->
  kin_optimize u solve cov com blocks = Ok r ->
  exists p' prior1 prior2 m s vs c,
    blocks kin_params <> [] /\
    addSubsetParameterization (kin_prepared cov com) (kin_masks com) = Ok p' /\
    chain_prior p' (kc_camera_chain com) 0 (kc_camera_chain_offset_stdev com) = Ok prior1 /\
    chain_prior p' (kc_target_chain com) 1 (kc_target_chain_offset_stdev com) = Ok prior2 /\
    solve (blocks kin_params ++ prior1 ++ prior2)%list p' (kin_memory0 com) = (m, s) /\
    computeCovariance_names u (mk_cov_problem cov (map (fun k => (k, kin_size com k)) kin_keys))
                (kin_labels com) (kin_masks com) = Ok c /\
    mapM (fun f : kin_residual => f (kin_memory0 com)) (blocks kin_params ++ prior1 ++ prior2)%list = Ok vs /\
    r = kin_read com m s (INR (length (concat vs))) c.
Proof.
  intros H H8 E.
  assert (D : blocks kin_params = [] \/ blocks kin_params <> []) by (destruct (blocks kin_params); [ left; reflexivity | right; discriminate ]).
  destruct D as [Z|Z].
  { rewrite kin_no_blocks in E by assumption. discriminate. }
  rewrite kin_optimize_eq in E by assumption.
  destruct (addSubsetParameterization _ _) as [p'| |]; [ cbn [bind] in E | discriminate | discriminate ].
  unfold kin_rest in E.
  destruct (chain_prior p' _ 0 _) as [pr1| |] eqn:E1; [ cbn [bind] in E | discriminate | discriminate ].
  destruct (chain_prior p' _ 1 _) as [pr2| |] eqn:E2; [ cbn [bind] in E | discriminate | discriminate ].
  destruct (printOptimizationLabels _ _ _ _) as [ln| |]; [ cbn [bind] in E | discriminate | discriminate ].
  destruct (mapM _ _) as [vals| |] eqn:Ev; [ | discriminate | discriminate ].
  destruct (solve _ _ _) as [m s] eqn:Es.
  destruct (computeCovariance_names _ _ _ _) as [c| |] eqn:Ec; [ cbn [bind] in E | discriminate | discriminate ].
  injection E as <-. exists p', pr1, pr2, m, s, vals, c. auto 12.
Qed.

Lemma kin_ok_inv u solve cov com blocks r : lists_blocks cov -> length (kc_mask com) = 8%nat ->
  kin_optimize u solve cov com blocks = Ok r ->
  exists p' prior1 prior2 m s n c,
    blocks kin_params <> [] /\
    addSubsetParameterization (kin_prepared cov com) (kin_masks com) = Ok p' /\
    chain_prior p' (kc_camera_chain com) 0 (kc_camera_chain_offset_stdev com) = Ok prior1 /\
    chain_prior p' (kc_target_chain com) 1 (kc_target_chain_offset_stdev com) = Ok prior2 /\
    solve (blocks kin_params ++ prior1 ++ prior2)%list p' (kin_memory0 com) = (m, s) /\
    computeCovariance_names u (mk_cov_problem cov (map (fun k => (k, kin_size com k)) kin_keys))
                (kin_labels com) (kin_masks com) = Ok c /\
    r = kin_read com m s n c.
Proof.
  intros H H8 E. destruct (kin_ok_values _ _ _ _ _ _ H H8 E) as (p' & q1 & q2 & m & s & vs & c & A & B & C & D & F & G & _ & I).
  exists p', q1, q2, m, s, (INR (length (concat vs))), c. auto 10.
Qed.

(** *** 2D-3D *)
Definition kin_blk2 (params : kin_problem2D3D) (ps : list nat) (oc : kin_observation vec2 * correspondence vec2) : kin_residual :=
  dualCost2D3D (in_image (snd oc)) (in_target (snd oc)) (k2_intr params)
    (kc_camera_chain (k2_common params)) (kc_target_chain (k2_common params))
    (ko_camera_chain_joints (fst oc)) (ko_target_chain_joints (fst oc)) ps.
Lemma kin2_blocks params ps :
  fold_left (fun problem observation =>
      fold_left (fun problem correspondence =>
        (problem ++ [dualCost2D3D (in_image correspondence) (in_target correspondence) (k2_intr params)
                       (kc_camera_chain (k2_common params)) (kc_target_chain (k2_common params))
                       (ko_camera_chain_joints observation) (ko_target_chain_joints observation)
                       ps])%list)
      (ko_correspondence_set observation) problem)
    (k2_observations params) [] = map (kin_blk2 params ps) (kin_pairs (k2_observations params)).
Proof.
  change (fold_left _ (k2_observations params) []) with
    (fold_left (fun s o => fold_left (fun s c => (fun s oc => (s ++ [kin_blk2 params ps oc])%list) s (o, c)) (ko_correspondence_set o) s)
       (k2_observations params) []).
  rewrite (fold_left_nested ko_correspondence_set (fun s oc => (s ++ [kin_blk2 params ps oc])%list)).
  apply (fold_left_push (kin_blk2 params ps) _ []).
Qed.
Lemma kin2_eq u solve cov params : kin_optimize2D3D u solve cov params =
  kin_optimize u solve cov (k2_common params) (fun ps => map (kin_blk2 params ps) (kin_pairs (k2_observations params))).
Proof.
  unfold kin_optimize2D3D. f_equal. apply functional_extensionality. intros ps. apply kin2_blocks.
Qed.
Lemma kin6_eq u solve cov params w : kin_optimizePose6D u solve cov params w =
  kin_optimize u solve cov (k6_common params)
    (fun ps => map (fun o => dualCostPose6D o (kc_camera_chain (k6_common params)) (kc_target_chain (k6_common params)) w ps)
                   (k6_observations params)).
Proof.
  unfold kin_optimizePose6D. f_equal. apply functional_extensionality. intros ps.
  apply (fold_left_push (fun o => dualCostPose6D o (kc_camera_chain (k6_common params)) (kc_target_chain (k6_common params)) w ps) _ []).
Qed.

