(** Proofs about one set of data for a kinematic calibration, described in two ways. *)
From Coq Require Import Reals ZArith List Permutation Lra Lia.
From Verif.Base Require Import Geom Outcome Matrix.
From Verif.Model Require Import Pose Covariance HandEye DhChain LocalParam Solver Kinematic.
From Verif.Spec Require Import Frames PinHole OracleSpec KinSpec UniqueSpec SameDataSpec KinUniqueSpec KinReport KinFitSpec KinChoicesSpec.
From Verif.Proofs Require Import GeomLemmas RotLemmas AngleAxisLemmas PoseProofs ListLemmas DhProofs KinematicProofs KinematicCall UniqueLemmas SimHandEyeProofs SameDataProofs KinFitProofs.
Import ListNotations.
Local Open Scope R_scope.

(** ** Frames *)
Definition camera_back (h : kin_choices) (X : iso) : iso := in_unit (/ kin_unit h) (iso_mul X (iso_inv (kin_camera h))).
Definition target_back (h : kin_choices) (Z : iso) : iso := in_unit (/ kin_unit h) (iso_mul Z (iso_inv (kin_target h))).
Definition bases_back (h : kin_choices) (K : iso) : iso :=
  in_unit (/ kin_unit h) (iso_mul (iso_inv (old_camera_base h)) (iso_mul K (old_target_base h))).
Lemma in_unit_back' s T : s <> 0 -> in_unit (/ s) (in_unit s T) = T.
Proof. intros H. apply iso_ext; [ reflexivity | ]. unfold in_unit, vscale. cbn. apply vec3_ext; cbn; field; exact H. Qed.
Lemma tail_cancel A B : rigid B -> iso_mul (iso_mul A B) (iso_inv B) = A.
Proof. intros H. rewrite iso_mul_assoc, iso_inv_r, iso_mul_id_r by exact H. reflexivity. Qed.
Lemma tail_cancel' A B : rigid B -> iso_mul (iso_mul A (iso_inv B)) B = A.
Proof. intros H. rewrite iso_mul_assoc, iso_inv_l, iso_mul_id_r by exact H. reflexivity. Qed.
Section Frames.
  Variable h : kin_choices.
  Hypothesis Hh : kin_sensible h.
  Let s := kin_unit h.
  Lemma unit_nonzero : kin_unit h <> 0.
  Proof. destruct Hh. lra. Qed.
  Lemma camera_there T : camera_back h (camera_anew h T) = T.
  Proof. destruct Hh as (_ & _ & _ & H & _). unfold camera_back, camera_anew. rewrite tail_cancel by exact H. apply in_unit_back', unit_nonzero. Qed.
  Lemma camera_here T : camera_anew h (camera_back h T) = T.
  Proof. destruct Hh as (_ & _ & _ & H & _). unfold camera_back, camera_anew. rewrite in_unit_back by apply unit_nonzero. apply tail_cancel', H. Qed.
  Lemma target_there T : target_back h (target_anew h T) = T.
  Proof. destruct Hh as (_ & _ & _ & _ & H). unfold target_back, target_anew. rewrite tail_cancel by exact H. apply in_unit_back', unit_nonzero. Qed.
  Lemma target_here T : target_anew h (target_back h T) = T.
  Proof. destruct Hh as (_ & _ & _ & _ & H). unfold target_back, target_anew. rewrite in_unit_back by apply unit_nonzero. apply tail_cancel', H. Qed.
  Lemma bases_there T : bases_back h (bases_anew h T) = T.
  Proof.
    destruct Hh as (_ & HA & HB & _). unfold bases_back, bases_anew. rewrite (tail_cancel' _ _ HB), inv_cancel' by exact HA.
    apply in_unit_back', unit_nonzero.
  Qed.
  Lemma bases_here T : bases_anew h (bases_back h T) = T.
  Proof.
    destruct Hh as (_ & HA & HB & _). unfold bases_back, bases_anew. rewrite in_unit_back by apply unit_nonzero.
    rewrite inv_cancel by exact HA. apply tail_cancel, HB.
  Qed.
  Lemma anew_rigid T : rigid T -> rigid (camera_anew h T) /\ rigid (target_anew h T) /\ rigid (bases_anew h T).
  Proof.
    intros H. destruct Hh as (_ & HA & HB & HC & HG). split; [ apply rigid_mul; [ exact H | exact HC ] | ].
    split; [ apply rigid_mul; [ exact H | exact HG ] | ]. apply rigid_mul; [ apply rigid_mul; [ exact HA | exact H ] | apply rigid_inv, HB ].
  Qed.
  Lemma back_rigid T : rigid T -> rigid (camera_back h T) /\ rigid (target_back h T) /\ rigid (bases_back h T).
  Proof.
    intros H. destruct Hh as (_ & HA & HB & HC & HG). split; [ apply in_unit_rigid, rigid_mul; [ exact H | apply rigid_inv, HC ] | ].
    split; [ apply in_unit_rigid, rigid_mul; [ exact H | apply rigid_inv, HG ] | ].
    apply in_unit_rigid, rigid_mul; [ apply rigid_inv, HA | apply rigid_mul; [ exact H | exact HB ] ].
  Qed.
  (** Where the target is in the camera frame *)
  Lemma placed_anew Fc Ft X Z K : rigid Fc -> rigid X ->
    kin_target_in_camera (iso_mul (old_camera_base h) (in_unit s Fc)) (camera_anew h X) (bases_anew h K)
      (iso_mul (old_target_base h) (in_unit s Ft)) (target_anew h Z) =
    iso_mul (iso_inv (kin_camera h)) (iso_mul (in_unit s (kin_target_in_camera Fc X K Ft Z)) (kin_target h)).
  Proof.
    intros HF HX. destruct Hh as (_ & HA & HB & HC & HG). unfold kin_target_in_camera, camera_anew, bases_anew, target_anew. fold s.
    rewrite (in_unit_mul s (iso_inv _)), in_unit_inv, !in_unit_mul.
    rewrite !iso_mul_assoc, inv_cancel' by exact HB. rewrite (iso_inv_mul (old_camera_base h)) by exact HA.
    rewrite !iso_mul_assoc, inv_cancel' by exact HA. rewrite <- (iso_mul_assoc (in_unit s Fc) (in_unit s X) (kin_camera h)).
    rewrite (iso_inv_mul (iso_mul (in_unit s Fc) (in_unit s X))) by (apply rigid_mul; [ exact HF | exact HX ]).
    rewrite !iso_mul_assoc. reflexivity.
  Qed.
End Frames.

(** ** Chains *)
Definition params_anew (s : R) (p : vec4) : vec4 := V4 (s * e0 p) (e1 p) (s * e2 p) (e3 p).
Lemma in_unit_trans s v : in_unit s (iso_trans v) = iso_trans (vscale s v).
Proof. reflexivity. Qed.
Lemma in_unit_rot s M : in_unit s (iso_rot M) = iso_rot M.
Proof. apply iso_ext; [ reflexivity | ]. unfold in_unit, iso_rot, vscale, vzero. cbn. apply vec3_ext; cbn; ring. Qed.
Lemma in_unit_id s : in_unit s iso_id = iso_id.
Proof. apply iso_ext; [ reflexivity | ]. unfold in_unit, iso_id, vscale, vzero. cbn. apply vec3_ext; cbn; ring. Qed.
Lemma link_anew s t t' q o : jtype t' = jtype t -> params t' = params_anew s (params t) ->
  createRelativeTransform t' (joint_anew s t q) (params_anew s o) = (do L <- createRelativeTransform t q o; Ok (in_unit s L)).
Proof.
  intros J P. unfold createRelativeTransform, joint_anew. rewrite J, P. destruct (jtype t); cbn [bind]; [ | | reflexivity ]; f_equal;
    unfold add4, params_anew; cbn [e0 e1 e2 e3]; rewrite !in_unit_mul, !in_unit_rot, !in_unit_trans, in_unit_id;
    repeat (apply f_equal2; try reflexivity); f_equal; unfold vscale; apply vec3_ext; cbn; ring.
Qed.
Lemma row_anew s o i : row4 (offsets_anew s o) i = (do r <- row4 o i; Ok (params_anew s r)).
Proof. unfold row4, offsets_anew. cbn [rows ent]. destruct (Nat.ltb i (rows o)); reflexivity. Qed.
Lemma Forall2_len {A B} (P : A -> B -> Prop) l r : Forall2 P l r -> length l = length r.
Proof. induction 1; cbn; congruence. Qed.
Lemma Forall2_nth {A B} (P : A -> B -> Prop) l l' : Forall2 P l l' -> forall i a, nth_error l i = Some a -> exists b, nth_error l' i = Some b /\ P a b.
Proof. induction 1 as [|x y l l' H F IH]; intros [|i] a E; cbn in *; try discriminate; [ injection E as <-; eauto | auto ]. Qed.
Lemma Forall2_nth_none {A B} (P : A -> B -> Prop) l l' i : Forall2 P l l' -> nth_error l i = None -> nth_error l' i = None.
Proof. intros F. rewrite !nth_error_None, (Forall2_len _ _ _ F). auto. Qed.
Lemma fk_anew A s c c' q q' o : chain_anew A s c c' -> joints_anew s c q q' ->
  getFK c' q' (offsets_anew s o) = (do F <- getFK c q o; Ok (iso_mul A (in_unit s F))).
Proof.
  intros (F & HB) (L & J). unfold getFK, dof. rewrite L, <- (Forall2_len _ _ _ F). cbn [offsets_anew rows].
  destruct (Nat.ltb _ _); [ reflexivity | ]. destruct (Nat.ltb _ _); [ reflexivity | ].
  rewrite HB. generalize (base_offset c) as T. clear HB.
  assert (B : forall i, In i (seq 0 (length q)) -> (i < length q)%nat) by (intros i I; apply in_seq in I; lia).
  revert B. generalize (seq 0 (length q)) as l. induction l as [|i l IH]; intros B T; [ reflexivity | ].
  cbn [foldM]. rewrite row_anew. destruct (row4 o i) as [r| |]; cbn [bind]; try reflexivity.
  unfold at_, idx. destruct (nth_error (transforms c) i) as [t|] eqn:Et.
  2:{ rewrite (Forall2_nth_none _ _ _ _ F Et). reflexivity. }
  destruct (Forall2_nth _ _ _ F i t Et) as (t' & Et' & Jt & Pt). rewrite Et'. cbn [bind].
  destruct (nth_error q i) as [v|] eqn:Ev.
  2:{ apply nth_error_None in Ev. specialize (B i (or_introl eq_refl)). lia. }
  rewrite (J i t v Et Ev). cbn [bind]. rewrite (link_anew s t t' v r Jt Pt).
  destruct (createRelativeTransform t v r) as [Lk| |]; cbn [bind]; try reflexivity.
  rewrite iso_mul_assoc, <- in_unit_mul. apply IH. intros j I. apply B. right. exact I.
Qed.

(** ** What may be found *)
Lemma full_turn a u : aa_matrix (a + 2 * PI) u = aa_matrix a u.
Proof.
  assert (C : cos (a + 2 * PI) = cos a) by (rewrite cos_plus, cos_2PI, sin_2PI; ring).
  assert (Si : sin (a + 2 * PI) = sin a) by (rewrite sin_plus, cos_2PI, sin_2PI; ring).
  unfold aa_matrix. rewrite C, Si. reflexivity.
Qed.
Lemma can_store T : rigid T -> exists w, createTransform (tr T) w = T.
Proof.
  intros HT. destruct (aa_of_mat_spec (lin T) HT) as (U & Ra & M). set (a := aa_angle _) in *. set (u := aa_axis _) in *.
  exists (vscale (a + 2 * PI) u). pose proof PI_RGT_0. pose proof PI2_1.
  destruct (normalized_scaled (a + 2 * PI) u) as [N1 N2]; [ lra | exact U | ].
  rewrite createTransform_eq, N1, N2. destruct (Rlt_dec _ _) as [_|L].
  - rewrite full_turn. apply iso_ext; [ exact M | reflexivity ].
  - exfalso. apply L. apply Rlt_trans with 1; [ | lra ]. unfold DBL_EPS. lra.
Qed.
Definition pick (v : vec3) (e : nat) : R := match e with 0 => vx v | 1 => vy v | _ => vz v end%nat.
Lemma pick_read m k i : (i < 3)%nat -> pick (read3 m k) i = m k i.
Proof. intros H. destruct i as [|[|[|i]]]; [ reflexivity.. | lia ]. Qed.
Lemma read_pick m k v : (forall i, m k i = pick v i) -> read3 m k = v.
Proof. intros H. unfold read3. rewrite !H. destruct v; reflexivity. Qed.
Lemma pick_ext v w : (forall i, (i < 3)%nat -> pick v i = pick w i) -> v = w.
Proof. intros H. pose proof (H 0%nat ltac:(lia)). pose proof (H 1%nat ltac:(lia)). pose proof (H 2%nat ltac:(lia)). apply vec3_ext; assumption. Qed.
Lemma pose_move com k f g g' t w : pose_anew com k f g g' -> (forall T, rigid T -> rigid (f T)) ->
  (forall i, (i < 3)%nat -> masked com k i -> pick t i = pick (tr g) i) ->
  (forall i, (i < 3)%nat -> masked com (k + 1) i -> pick w i = pick (guess_aa g) i) ->
  exists t' w', createTransform t' w' = f (createTransform t w) /\
    (forall i, (i < 3)%nat -> masked com k i -> pick t' i = pick (tr g') i) /\
    (forall i, (i < 3)%nat -> masked com (k + 1) i -> pick w' i = pick (guess_aa g') i).
Proof.
  intros [Fr|[(Tg & Tg' & E & Fx)|(Id & E)]] Rf Ht Hw.
  - destruct (can_store (f (createTransform t w))) as [w' E]; [ apply Rf, createTransform_rigid | ].
    eexists _, w'. split; [ exact E | ]. split; intros i Hi M; exfalso; destruct (Fr i Hi) as [N1 N2]; [ apply N1, M | apply N2, M ].
  - exists (tr g'), (guess_aa g'). split; [ | split; reflexivity ].
    rewrite guess_stored by exact Tg'. rewrite E. f_equal.
    rewrite (pick_ext t (tr g)) by (intros i Hi; apply Ht; [ exact Hi | apply Fx, Hi ]).
    rewrite (pick_ext w (guess_aa g)) by (intros i Hi; apply Hw; [ exact Hi | apply Fx, Hi ]). symmetry. apply guess_stored, Tg.
  - exists t, w. rewrite Id, E. auto.
Qed.
Lemma pose_back com com' k f b g g' : (forall k i, masked com' k i <-> masked com k i) -> (forall T, b (f T) = T) ->
  pose_anew com k f g g' -> pose_anew com' k b g' g.
Proof.
  intros M B [Fr|[(Tg & Tg' & E & Fx)|(Id & E)]].
  - left. intros i Hi. rewrite !M. apply Fr, Hi.
  - right. left. split; [ exact Tg' | ]. split; [ exact Tg | ]. split; [ rewrite E, B; reflexivity | ]. intros i Hi. rewrite !M. apply Fx, Hi.
  - right. right. split; [ | symmetry; exact E ]. intros T. rewrite <- (Id T) at 1. apply B.
Qed.

Definition moved (fc ft fb : iso -> iso) (s : R) (e : kin_estimate) : kin_estimate :=
  KE (fc (ke_camera_mount_to_camera e)) (ft (ke_target_mount_to_target e)) (fb (ke_camera_base_to_target_base e))
     (offsets_anew s (ke_camera_offsets e)) (offsets_anew s (ke_target_offsets e)).
Lemma offsets_anew_same s A B : same_matrix A B -> same_matrix (offsets_anew s A) (offsets_anew s B).
Proof.
  intros (R0 & C0 & E). split; [ exact R0 | split; [ exact C0 | ] ]. intros i j Hi Hj. cbn [offsets_anew ent rows cols] in *.
  rewrite E by assumption. reflexivity.
Qed.
Lemma moved_same fc ft fb s e e' : same_estimate e e' -> same_estimate (moved fc ft fb s e) (moved fc ft fb s e').
Proof.
  intros (A & B & C & D & E). unfold moved. split; [ cbn; congruence | split; [ cbn; congruence | split; [ cbn; congruence | ] ] ].
  split; apply offsets_anew_same; assumption.
Qed.
Lemma may_move com com' fc ft fb s e :
  dof (kc_camera_chain com') = dof (kc_camera_chain com) -> dof (kc_target_chain com') = dof (kc_target_chain com) ->
  (forall k i, masked com' k i <-> masked com k i) ->
  (forall T, rigid T -> rigid (fc T)) -> (forall T, rigid T -> rigid (ft T)) -> (forall T, rigid T -> rigid (fb T)) ->
  pose_anew com 2 fc (kc_camera_mount_to_camera_guess com) (kc_camera_mount_to_camera_guess com') ->
  pose_anew com 4 ft (kc_target_mount_to_target_guess com) (kc_target_mount_to_target_guess com') ->
  pose_anew com 6 fb (kc_camera_base_to_target_base_guess com) (kc_camera_base_to_target_base_guess com') ->
  may_find com e -> may_find com' (moved fc ft fb s e).
Proof.
  intros Dc Dt HM Rc Rt Rb Pc Pt Pb (m & M & SE).
  assert (Hk : forall k i, (2 <= k < 8)%nat -> (i < 3)%nat -> masked com k i -> m k i = kin_memory0 com k i).
  { intros k i K I H. apply M; [ lia | | left; exact H ]. unfold block_size. destruct k as [|[|k]]; lia. }
  destruct (pose_move com 2 fc _ _ (read3 m 2) (read3 m 3) Pc Rc) as (t2 & w2 & E2 & T2 & W2).
  { intros i Hi H. rewrite pick_read, Hk by (assumption || lia). reflexivity. }
  { intros i Hi H. rewrite pick_read, Hk by (assumption || lia). reflexivity. }
  destruct (pose_move com 4 ft _ _ (read3 m 4) (read3 m 5) Pt Rt) as (t4 & w4 & E4 & T4 & W4).
  { intros i Hi H. rewrite pick_read, Hk by (assumption || lia). reflexivity. }
  { intros i Hi H. rewrite pick_read, Hk by (assumption || lia). reflexivity. }
  destruct (pose_move com 6 fb _ _ (read3 m 6) (read3 m 7) Pb Rb) as (t6 & w6 & E6 & T6 & W6).
  { intros i Hi H. rewrite pick_read, Hk by (assumption || lia). reflexivity. }
  { intros i Hi H. rewrite pick_read, Hk by (assumption || lia). reflexivity. }
  set (m' := fun k i => match k with
    | 0 => if Nat.even (i / dof (kc_camera_chain com)) then (s * m 0%nat i)%R else m 0%nat i
    | 1 => if Nat.even (i / dof (kc_target_chain com)) then (s * m 1%nat i)%R else m 1%nat i
    | 2 => pick t2 i | 3 => pick w2 i | 4 => pick t4 i | 5 => pick w4 i | 6 => pick t6 i | _ => pick w6 i end%nat : R).
  assert (Bs : forall k, block_size com' k = block_size com k) by (intros k; unfold block_size; rewrite Dc, Dt; reflexivity).
  exists m'. split.
  - intros k i K I H. rewrite Bs in I.
    assert (H' : held com k i) by (unfold held in *; rewrite Dc, Dt, HM in H; exact H).
    destruct k as [|[|k]].
    + assert (Z : m 0%nat i = 0) by (apply (M 0%nat i K I H')). cbn. rewrite Z. destruct (Nat.even _); ring.
    + assert (Z : m 1%nat i = 0) by (apply (M 1%nat i K I H')). cbn. rewrite Z. destruct (Nat.even _); ring.
    + assert (I3 : (i < 3)%nat) by exact I. assert (Mk : masked com (S (S k)) i).
      { destruct H' as [H'|[[H' _]|[H' _]]]; [ exact H' | discriminate.. ]. }
      destruct k as [|[|[|[|[|[|k]]]]]]; [ apply T2 | apply W2 | apply T4 | apply W4 | apply T6 | apply W6 | lia ]; assumption.
  - apply same_estimate_trans with (moved fc ft fb s (stored_estimate com m)); [ apply moved_same, SE | ].
    assert (O : forall n k, (k = 0 \/ k = 1)%nat -> n = dof (if Nat.eqb k 0 then kc_camera_chain com else kc_target_chain com) ->
      same_matrix (offsets_anew s (Mat n 4 (fun i j => m k (j * n + i)%nat))) (Mat n 4 (fun i j => m' k (j * n + i)%nat))).
    { intros n k Hk' Hn. split; [ reflexivity | split; [ reflexivity | ] ]. intros i j Hi Hj. cbn [offsets_anew ent rows cols] in *.
      assert (Q : ((j * n + i) / n)%nat = j) by (rewrite Nat.div_add_l, Nat.div_small by lia; lia).
      destruct Hk' as [-> | ->]; cbn [Nat.eqb] in Hn; cbn; rewrite <- Hn, Q; reflexivity. }
    unfold moved, stored_estimate. cbn [ke_camera_mount_to_camera ke_target_mount_to_target ke_camera_base_to_target_base ke_camera_offsets ke_target_offsets].
    split; [ | split; [ | split; [ | split ] ] ]; cbn [ke_camera_mount_to_camera ke_target_mount_to_target ke_camera_base_to_target_base ke_camera_offsets ke_target_offsets].
    + rewrite (read_pick m' 2 t2), (read_pick m' 3 w2) by reflexivity. symmetry. exact E2.
    + rewrite (read_pick m' 4 t4), (read_pick m' 5 w4) by reflexivity. symmetry. exact E4.
    + rewrite (read_pick m' 6 t6), (read_pick m' 7 w6) by reflexivity. symmetry. exact E6.
    + rewrite Dc. apply (O _ 0%nat); [ left; reflexivity | reflexivity ].
    + rewrite Dt. apply (O _ 1%nat); [ right; reflexivity | reflexivity ].
Qed.
Lemma estimate_moved h e : estimate_anew h e = moved (camera_anew h) (target_anew h) (bases_anew h) (kin_unit h) e.
Proof. reflexivity. Qed.
Definition estimate_back (h : kin_choices) := moved (camera_back h) (target_back h) (bases_back h) (/ kin_unit h).
Lemma found_rigid com e : may_find com e -> rigid (ke_camera_mount_to_camera e) /\ cols (ke_camera_offsets e) = 4%nat /\ cols (ke_target_offsets e) = 4%nat /\
  rows (ke_camera_offsets e) = dof (kc_camera_chain com) /\ rows (ke_target_offsets e) = dof (kc_target_chain com).
Proof. intros (m & _ & A & _ & _ & (R0 & C0 & _) & (R1 & C1 & _)). rewrite A. split; [ apply createTransform_rigid | auto ]. Qed.
Lemma here_and_back h e : kin_sensible h -> same_estimate (estimate_anew h (estimate_back h e)) e.
Proof.
  intros Hh. pose proof (unit_nonzero h Hh) as Hs. unfold estimate_back, estimate_anew, moved.
  split; [ apply camera_here, Hh | split; [ apply target_here, Hh | split; [ apply bases_here, Hh | ] ] ].
  split; (split; [ reflexivity | split; [ reflexivity | ] ]); intros i j _ _; cbn [offsets_anew ent ke_camera_offsets ke_target_offsets];
    destruct (Nat.even j); try reflexivity; field; exact Hs.
Qed.
Lemma setup_dof h q com com' : setup_anew h q com com' ->
  dof (kc_camera_chain com') = dof (kc_camera_chain com) /\ dof (kc_target_chain com') = dof (kc_target_chain com).
Proof. intros (((F & _) & (F' & _) & _) & _). unfold dof. rewrite (Forall2_len _ _ _ F), (Forall2_len _ _ _ F'). auto. Qed.
Lemma find_anew h q com com' e : kin_sensible h -> setup_anew h q com com' -> may_find com e -> may_find com' (estimate_anew h e).
Proof.
  intros Hh S. destruct (setup_dof _ _ _ _ S) as [D D']. destruct S as ((_ & _ & _ & _ & M & Pc & Pt & Pb) & _).
  rewrite estimate_moved. apply may_move; try assumption; intros T HT; apply (anew_rigid h Hh T HT).
Qed.
Lemma find_back h q com com' e : kin_sensible h -> setup_anew h q com com' -> may_find com' e -> may_find com (estimate_back h e).
Proof.
  intros Hh S. destruct (setup_dof _ _ _ _ S) as [D D']. destruct S as ((_ & _ & _ & _ & M & Pc & Pt & Pb) & _).
  unfold estimate_back. apply may_move; try (symmetry; assumption); try (intros T HT; apply (back_rigid h Hh T HT)).
  - intros k i. symmetry. apply M.
  - exact (pose_back _ _ _ _ _ _ _ M (camera_there h Hh) Pc).
  - exact (pose_back _ _ _ _ _ _ _ M (target_there h Hh) Pt).
  - exact (pose_back _ _ _ _ _ _ _ M (bases_there h Hh) Pb).
Qed.

(** ** The prior *)
Lemma half_squares_each {A} (f g : A -> R) q l : (forall a, In a l -> g a = q * f a) ->
  half_squares (map g l) = q * q * half_squares (map f l).
Proof.
  induction l as [|a l IH]; intros H; [ unfold half_squares; cbn; ring | ]. cbn [map].
  rewrite (H a (or_introl eq_refl)). change (q * f a :: map g l) with ([q * f a] ++ map g l). change (f a :: map f l) with ([f a] ++ map f l).
  rewrite !half_squares_app, IH by (intros; apply H; right; assumption). unfold half_squares at 1 3. cbn. ring.
Qed.
Lemma half_squares_rows {A B} (f g : A -> B -> R) q l l' : (forall a b, In a l -> In b l' -> g a b = q * f a b) ->
  half_squares (flat_map (fun a => map (g a) l') l) = q * q * half_squares (flat_map (fun a => map (f a) l') l).
Proof.
  induction l as [|a l IH]; intros H; [ unfold half_squares; cbn; ring | ]. cbn [flat_map].
  rewrite !half_squares_app, IH by (intros; apply H; [ right; assumption | assumption ]).
  rewrite (half_squares_each (f a) (g a) q) by (intros b Ib; apply H; [ left; reflexivity | exact Ib ]). ring.
Qed.
Lemma offset_error_anew q s com k c sd sd' o : q <> 0 -> s <> 0 -> prior_anew q s com k c sd sd' -> rows o = dof c ->
  (forall i j, (i < dof c)%nat -> (j < 4)%nat -> held com k (j * dof c + i) -> ent o i j = 0) ->
  offset_error sd' (offsets_anew s o) = q * q * offset_error sd o.
Proof.
  intros Hq Hs P Hr Z. unfold offset_error. cbn [offsets_anew rows]. rewrite Hr.
  apply (half_squares_rows (fun j i => ent o i j / sd) (fun j i => ent (offsets_anew s o) i j / sd')).
  intros j i Ij Ii. apply in_seq in Ij, Ii. cbn [offsets_anew ent].
  assert (J : (j = 0 \/ j = 2)%nat /\ Nat.even j = true \/ (j = 1 \/ j = 3)%nat /\ Nat.even j = false).
  { destruct j as [|[|[|[|j]]]]; [ left | right | left | right | lia ]; split; auto. }
  assert (Zl : lengths_held com k c -> Nat.even j = true -> ent o i j = 0).
  { intros L E. apply Z; [ lia | lia | ]. apply L; [ lia | ]. destruct J as [[J _]|[_ J]]; [ exact J | congruence ]. }
  assert (Za : angles_held com k c -> Nat.even j = false -> ent o i j = 0).
  { intros L E. apply Z; [ lia | lia | ]. apply L; [ lia | ]. destruct J as [[_ J]|[J _]]; [ congruence | exact J ]. }
  unfold Rdiv. destruct P as [(E & [->|L])|[(E & L)|(L & L')]].
  - rewrite <- E, Rinv_mult.
    transitivity (ent o i j * / sd' * (q * / q)); [ rewrite Rinv_r by exact Hq; destruct (Nat.even j); ring | ring ].
  - rewrite <- E, Rinv_mult. destruct (Nat.even j); [ rewrite (Zl L eq_refl); ring | ].
    transitivity (ent o i j * / sd' * (q * / q)); [ rewrite Rinv_r by exact Hq; ring | ring ].
  - destruct (Nat.even j); [ | rewrite (Za L eq_refl); ring ].
    assert (E' : sd = / s * (q * sd')) by (rewrite E; rewrite <- Rmult_assoc, Rinv_l by exact Hs; ring).
    rewrite E', !Rinv_mult, Rinv_inv. transitivity (s * ent o i j * / sd' * (q * / q)); [ rewrite Rinv_r by exact Hq; ring | ring ].
  - destruct (Nat.even j); [ rewrite (Zl L eq_refl); ring | rewrite (Za L' eq_refl); ring ].
Qed.
Lemma found_held com e k c : may_find com e -> (k = 0%nat /\ c = kc_camera_chain com) \/ (k = 1%nat /\ c = kc_target_chain com) ->
  forall i j, (i < dof c)%nat -> (j < 4)%nat -> held com k (j * dof c + i) ->
  ent (match k with 0%nat => ke_camera_offsets e | _ => ke_target_offsets e end) i j = 0.
Proof.
  intros (m & M & _ & _ & _ & (R0 & C0 & E0) & (R1 & C1 & E1)) K i j Hi Hj H.
  cbn [stored_estimate ke_camera_offsets ke_target_offsets ent rows cols] in *.
  assert (B : forall n, (i < n)%nat -> (j * n + i < Nat.max 1 n * 4)%nat).
  { intros n Hn. assert (n <= Nat.max 1 n)%nat by lia. nia. }
  destruct K as [[-> ->]|[-> ->]].
  - rewrite E0 by congruence. rewrite M; [ reflexivity | lia | apply B, Hi | exact H ].
  - rewrite E1 by congruence. rewrite M; [ reflexivity | lia | apply B, Hi | exact H ].
Qed.

(** ** The whole error *)
Definition grown (q : R) (x x' : res (list R)) : Prop :=
  match x, x' with
  | Ok v, Ok v' => half_squares v' = q * q * half_squares v
  | Ok _, _ => False
  | _, Ok _ => False
  | _, _ => True
  end.
Lemma grown_values q xs xs' vs : Forall2 (grown q) xs xs' -> Forall2 (fun x v => x = Ok v) xs vs ->
  exists vs', Forall2 (fun x v => x = Ok v) xs' vs' /\ half_squares (concat vs') = q * q * half_squares (concat vs).
Proof.
  intros G. revert vs. induction G as [|x x' xs xs' g G IH]; intros vs F; inversion F as [|y v ys ws E F']; subst.
  - exists []. split; [ constructor | unfold half_squares; cbn; ring ].
  - destruct (IH ws F') as (ws' & F2 & E2). destruct x' as [v'| |]; cbn in g; try contradiction.
    exists (v' :: ws'). split; [ constructor; [ reflexivity | exact F2 ] | ]. cbn. rewrite !half_squares_app, E2, g. ring.
Qed.
Lemma values_perm xs xs' vs : Permutation xs xs' -> Forall2 (fun x (v : list R) => x = Ok v) xs vs ->
  exists vs', Forall2 (fun x v => x = Ok v) xs' vs' /\ half_squares (concat vs') = half_squares (concat vs).
Proof.
  intros P F. destruct (Permutation_Forall2 P F) as (vs' & Pv & F'). exists vs'. split; [ exact F' | ].
  rewrite <- (map_id vs), <- (map_id vs'), <- !flat_map_concat_map. symmetry. apply half_squares_perm, Pv.
Qed.
Lemma grown_back q xs xs' : q <> 0 -> Forall2 (grown q) xs xs' -> Forall2 (grown (/ q)) xs' xs.
Proof.
  intros Hq. induction 1 as [|x x' xs xs' g G IH]; constructor; [ | exact IH ].
  destruct x, x'; cbn in *; try contradiction; try exact I. rewrite g. field. exact Hq.
Qed.
Section Whole.
  Variables (h : kin_choices) (q : R) (com com' : kin_common) (errors errors' : kin_estimate -> list (res (list R))) (e : kin_estimate) (l : list (res (list R))).
  Hypothesis Hh : kin_sensible h.
  Hypothesis Hq : q <> 0.
  Hypothesis HS : setup_anew h q com com'.
  Hypothesis HF : may_find com e.
  Hypothesis HG : Forall2 (grown q) (errors e) l.
  Hypothesis HP : Permutation l (errors' (estimate_anew h e)).
  Lemma offsets_grown :
    offset_error (kc_camera_chain_offset_stdev com') (ke_camera_offsets (estimate_anew h e)) =
      q * q * offset_error (kc_camera_chain_offset_stdev com) (ke_camera_offsets e) /\
    offset_error (kc_target_chain_offset_stdev com') (ke_target_offsets (estimate_anew h e)) =
      q * q * offset_error (kc_target_chain_offset_stdev com) (ke_target_offsets e).
  Proof.
    destruct HS as (_ & P0 & P1). destruct (found_rigid com e HF) as (_ & _ & _ & R0 & R1).
    pose proof (unit_nonzero h Hh) as Hs. split.
    - refine (offset_error_anew q _ com 0 _ _ _ _ Hq Hs P0 R0 _). apply (found_held com e 0%nat); auto.
    - refine (offset_error_anew q _ com 1 _ _ _ _ Hq Hs P1 R1 _). apply (found_held com e 1%nat); auto.
  Qed.
  Lemma whole_anew c : whole_error com errors e c -> whole_error com' errors' (estimate_anew h e) (q * q * c).
  Proof.
    intros (vs & F & ->). destruct (grown_values _ _ _ _ HG F) as (vs' & F' & E').
    destruct (values_perm _ _ _ HP F') as (ws & Fw & Ew). exists ws. split; [ exact Fw | ].
    destruct offsets_grown as [-> ->]. rewrite Ew, E'. ring.
  Qed.
  Lemma whole_before c : whole_error com' errors' (estimate_anew h e) c -> exists c0, whole_error com errors e c0 /\ c = q * q * c0.
  Proof.
    intros (vs & F & ->). destruct (values_perm _ _ _ (Permutation_sym HP) F) as (ws & Fw & Ew).
    destruct (grown_values _ _ _ _ (grown_back _ _ _ Hq HG) Fw) as (vs' & F' & E').
    eexists. split; [ exists vs'; split; [ exact F' | reflexivity ] | ].
    destruct offsets_grown as [-> ->]. rewrite <- Ew, E'. field. exact Hq.
  Qed.
End Whole.

Lemma best_anew h q com com' errors errors' (D D' : kin_estimate -> Prop) e : kin_sensible h -> q <> 0 -> setup_anew h q com com' ->
  stable errors' ->
  (forall e, may_find com e -> D' (estimate_anew h e) -> D e) ->
  (forall e, may_find com e -> D e -> D' (estimate_anew h e)) ->
  (forall e e', same_estimate e e' -> may_find com' e -> D' e -> D' e') ->
  (forall e, may_find com e -> D e -> exists l, Forall2 (grown q) (errors e) l /\ Permutation l (errors' (estimate_anew h e))) ->
  best_within D com errors e -> best_within D' com' errors' (estimate_anew h e).
Proof.
  intros Hh Hq HS St Db Da Ds Hg (De & Fe & c & We & Be). split; [ apply Da; assumption | ]. split; [ apply (find_anew _ _ _ _ _ Hh HS Fe) | ].
  destruct (Hg e Fe De) as (l & G & P). exists (q * q * c). split; [ apply (whole_anew h q com com' errors errors' e l); assumption | ].
  intros e' c' De' Fe' We'. pose proof (find_back _ _ _ _ _ Hh HS Fe') as Fb. pose proof (here_and_back h e' Hh) as Sb.
  destruct (found_rigid _ _ Fe') as (_ & C0 & C1 & _).
  assert (Db' : D (estimate_back h e')).
  { apply Db; [ exact Fb | ]. apply (Ds e'); [ apply same_estimate_sym, Sb | exact Fe' | exact De' ]. }
  destruct (Hg _ Fb Db') as (l' & G' & P').
  apply (whole_same com' errors' _ _ c' St Sb C0 C1) in We'.
  destruct (whole_before h q com com' errors errors' _ l' Hh Hq HS Fb G' P' c' We') as (c0 & W0 & ->).
  pose proof (Be _ _ Db' Fb W0). pose proof (Rle_0_sqr q). unfold Rsqr in *. apply Rmult_le_compat_l; assumption.
Qed.

(** ** Images *)
Lemma resize_any m d k p : projectPoint_eig (resized_camera m d k) p = resized m d (projectPoint_eig k p).
Proof.
  unfold projectPoint_eig, resized, resized_camera. cbv zeta. destruct (Rlt_dec _ _); apply vec2_ext; unfold mvec; cbn; ring.
Qed.
Section Images.
  Variables (h : kin_choices) (m : R) (d : vec2) (p p' : kin_problem2D3D) (q : R).
  Hypothesis Hh : kin_sensible h.
  Hypothesis HC : kin_camera h = iso_id.
  Hypothesis HS : setup_anew h q (k2_common p) (k2_common p').
  Hypothesis HI : images_anew h m d p p'.
  Lemma placed_image a b e P : image_anew h m d (k2_common p) a b -> may_find (k2_common p) e ->
    places (kc_camera_chain (k2_common p)) (kc_target_chain (k2_common p)) e (observed_at (fst a)) P ->
    exists P', places (kc_camera_chain (k2_common p')) (kc_target_chain (k2_common p')) (estimate_anew h e) (observed_at (fst b)) P' /\
      iso_app P' (in_target (snd b)) = vscale (kin_unit h) (iso_app P (in_target (snd a))).
  Proof.
    intros (Jc & Jt & X & _) Fe (Fc & Ft & Ec & Et & EP). destruct HS as ((Cc & Ct & Rc & Rt & _) & _). destruct (found_rigid _ _ Fe) as (RX & _).
    eexists. split.
    - exists (iso_mul (old_camera_base h) (in_unit (kin_unit h) Fc)), (iso_mul (old_target_base h) (in_unit (kin_unit h) Ft)).
      cbn [observed_at fst snd estimate_anew ke_camera_offsets ke_target_offsets] in *.
      rewrite (fk_anew _ _ _ _ _ _ _ Cc Jc), (fk_anew _ _ _ _ _ _ _ Ct Jt), Ec, Et. split; [ reflexivity | split; [ reflexivity | reflexivity ] ].
    - cbn [estimate_anew ke_camera_mount_to_camera ke_target_mount_to_target ke_camera_base_to_target_base].
      rewrite placed_anew; [ | exact Hh | exact (fk_rigid _ _ _ _ Rc Ec) | exact RX ].
      rewrite HC, X, <- EP. replace (iso_inv iso_id) with iso_id by (symmetry; rewrite <- (iso_mul_id_l (iso_inv iso_id)); apply iso_inv_r, rigid_id).
      rewrite iso_mul_id_l. apply pose_seen. apply Hh.
  Qed.
  Lemma placed_back a b e P' : image_anew h m d (k2_common p) a b -> may_find (k2_common p) e ->
    places (kc_camera_chain (k2_common p')) (kc_target_chain (k2_common p')) (estimate_anew h e) (observed_at (fst b)) P' ->
    exists P, places (kc_camera_chain (k2_common p)) (kc_target_chain (k2_common p)) e (observed_at (fst a)) P.
  Proof.
    intros (Jc & Jt & _) Fe (Fc & Ft & Ec & Et & _). destruct HS as ((Cc & Ct & _) & _).
    cbn [observed_at fst snd estimate_anew ke_camera_offsets ke_target_offsets] in *.
    rewrite (fk_anew _ _ _ _ _ _ _ Cc Jc) in Ec. rewrite (fk_anew _ _ _ _ _ _ _ Ct Jt) in Et.
    destruct (getFK (kc_camera_chain (k2_common p)) _ _) as [F1| |] eqn:E1; cbn [bind] in Ec; try discriminate.
    destruct (getFK (kc_target_chain (k2_common p)) _ _) as [F2| |] eqn:E2; cbn [bind] in Et; try discriminate.
    eexists. exists F1, F2. split; [ exact E1 | split; [ exact E2 | reflexivity ] ].
  Qed.
  Lemma image_grown a b e : image_anew h m d (k2_common p) a b -> may_find (k2_common p) e ->
    (kin_unit h = 1 \/ forall P, places (kc_camera_chain (k2_common p)) (kc_target_chain (k2_common p)) e (observed_at (fst a)) P ->
       1 / 10 ^ 10 < vz (iso_app P (in_target (snd a))) /\ 1 / 10 ^ 10 < kin_unit h * vz (iso_app P (in_target (snd a)))) ->
    grown m (reproject (k2_intr p) (k2_common p) e a) (reproject (k2_intr p') (k2_common p') (estimate_anew h e) b).
  Proof.
    intros Im Fe V. pose proof Im as (Jc & Jt & _ & Ei). pose proof HS as ((Cc & Ct & _) & _). destruct HI as [Ek _].
    unfold reproject. cbn [estimate_anew ke_camera_offsets ke_target_offsets].
    rewrite (fk_anew _ _ _ _ _ _ _ Cc Jc), (fk_anew _ _ _ _ _ _ _ Ct Jt).
    destruct (getFK (kc_camera_chain (k2_common p)) _ _) as [F1| |] eqn:E1; cbn [bind]; try exact I.
    destruct (getFK (kc_target_chain (k2_common p)) _ _) as [F2| |] eqn:E2; cbn [bind]; try exact I.
    set (P := kin_target_in_camera F1 (ke_camera_mount_to_camera e) (ke_camera_base_to_target_base e) F2 (ke_target_mount_to_target e)).
    assert (HP : places (kc_camera_chain (k2_common p)) (kc_target_chain (k2_common p)) e (observed_at (fst a)) P).
    { exists F1, F2. auto. }
    destruct (placed_image a b e P Im Fe HP) as (P' & (G1 & G2 & Ec & Et & EP') & X).
    cbn [observed_at fst snd estimate_anew ke_camera_offsets ke_target_offsets] in Ec, Et.
    rewrite (fk_anew _ _ _ _ _ _ _ Cc Jc), E1 in Ec. rewrite (fk_anew _ _ _ _ _ _ _ Ct Jt), E2 in Et.
    cbn [bind] in Ec, Et. injection Ec as Ec. injection Et as Et.
    rewrite Ec, Et. change (kin_target_in_camera G1 _ _ G2 _) with
      (kin_target_in_camera G1 (ke_camera_mount_to_camera (estimate_anew h e)) (ke_camera_base_to_target_base (estimate_anew h e)) G2 (ke_target_mount_to_target (estimate_anew h e))).
    rewrite <- EP', X, Ek, Ei. cbn [grown].
    assert (Q : projectPoint_eig (resized_camera m d (k2_intr p)) (vscale (kin_unit h) (iso_app P (in_target (snd a)))) =
      resized m d (projectPoint_eig (k2_intr p) (iso_app P (in_target (snd a))))).
    { destruct V as [V|V].
      - rewrite V. replace (vscale 1 (iso_app P (in_target (snd a)))) with (iso_app P (in_target (snd a))) by (unfold vscale; apply vec3_ext; cbn; ring).
        apply resize_any.
      - destruct (V P HP) as [V1 V2]. destruct Hh as (Hs & _). rewrite !eig_pinhole by assumption. apply pinhole_scaled; [ exact Hs | ].
        apply Rlt_trans with (1 / 10 ^ 10); [ lra | exact V1 ]. }
    rewrite Q, !half2. unfold resized. cbn [px py]. field.
  Qed.
  Lemma images_grown e : may_find (k2_common p) e ->
    (kin_unit h = 1 \/ exists c, 1 / 10 ^ 10 <= c /\ 1 / 10 ^ 10 <= kin_unit h * c /\ in_sight c p e) ->
    exists l, Forall2 (grown m) (image_errors p e) l /\ Permutation l (image_errors p' (estimate_anew h e)).
  Proof.
    intros Fe V. destruct HI as (_ & l & Pl & F).
    exists (map (reproject (k2_intr p') (k2_common p') (estimate_anew h e)) l). split; [ | apply Permutation_map, Pl ].
    unfold image_errors.
    assert (Hin : forall a, In a (kin_pairs (k2_observations p)) ->
      kin_unit h = 1 \/ forall P, places (kc_camera_chain (k2_common p)) (kc_target_chain (k2_common p)) e (observed_at (fst a)) P ->
       1 / 10 ^ 10 < vz (iso_app P (in_target (snd a))) /\ 1 / 10 ^ 10 < kin_unit h * vz (iso_app P (in_target (snd a)))).
    { intros a Ia. destruct V as [V|(c & C1 & C2 & V)]; [ left; exact V | right ]. intros P HP. specialize (V a P Ia HP).
      destruct Hh as (Hs & _). split; [ lra | ]. apply Rle_lt_trans with (kin_unit h * c); [ exact C2 | apply Rmult_lt_compat_l; assumption ]. }
    revert Hin. clear Pl. induction F as [|a b la lb Hab F IH]; intros Hin; cbn; [ constructor | ].
    constructor; [ apply image_grown; [ exact Hab | exact Fe | apply Hin; left; reflexivity ] | apply IH; intros; apply Hin; right; assumption ].
  Qed.
  Lemma sight_anew c e : may_find (k2_common p) e -> in_sight c p e <-> in_sight (kin_unit h * c) p' (estimate_anew h e).
  Proof.
    intros Fe. destruct HI as (_ & l & Pl & F). destruct Hh as (Hs & _). split; intros V.
    - intros b P' Ib HP'. apply (Permutation_in _ (Permutation_sym Pl)), In_nth_error in Ib as [n Hn].
      assert (exists a, nth_error (kin_pairs (k2_observations p)) n = Some a /\ image_anew h m d (k2_common p) a b) as (a & Ha & Hab).
      { clear - F Hn. revert n Hn. induction F as [|x y la lb P F IH]; intros [|n] Hn; cbn in *; try discriminate; eauto. injection Hn as <-. eauto. }
      destruct (placed_back a b e P' Hab Fe HP') as (P & HP). destruct (placed_image a b e P Hab Fe HP) as (P2 & HP2 & X).
      assert (E : P2 = P').
      { destruct HP2 as (A1 & B1 & EA1 & EB1 & ->). destruct HP' as (A2 & B2 & EA2 & EB2 & ->).
        rewrite EA1 in EA2. rewrite EB1 in EB2. injection EA2 as ->. injection EB2 as ->. reflexivity. }
      rewrite <- E, X. cbn [vscale vz]. apply Rmult_lt_compat_l; [ exact Hs | ]. exact (V a P (nth_error_In _ _ Ha) HP).
    - intros a P Ia HP. apply In_nth_error in Ia as [n Hn]. destruct (Forall2_nth _ _ _ F n a Hn) as (b & Hb & Hab).
      destruct (placed_image a b e P Hab Fe HP) as (P' & HP' & X). specialize (V b P' (Permutation_in _ Pl (nth_error_In _ _ Hb)) HP').
      rewrite X in V. cbn [vscale vz] in V. apply (Rmult_lt_reg_l (kin_unit h)); assumption.
  Qed.
End Images.
Lemma sight_stable c p e e' : same_estimate e e' -> may_find (k2_common p) e -> in_sight c p e -> in_sight c p e'.
Proof.
  intros SE Fe V oc P I (Fc & Ft & Ec & Et & ->). destruct (found_rigid _ _ Fe) as (_ & C0 & C1 & _).
  destruct SE as (A & B & C & D & E).
  apply V with (oc := oc); [ exact I | ]. exists Fc, Ft.
  rewrite (fk_same _ _ (ke_camera_offsets e) (ke_camera_offsets e')), (fk_same _ _ (ke_target_offsets e) (ke_target_offsets e')) by assumption.
  rewrite A, B, C. auto.
Qed.
Lemma best_any com errors e : best_estimate com errors e <-> best_within (fun _ => True) com errors e.
Proof.
  split.
  - intros (F & c & W & B). split; [ exact I | split; [ exact F | ] ]. exists c. split; [ exact W | ]. intros e' c' _. apply B.
  - intros (_ & F & c & W & B). split; [ exact F | ]. exists c. split; [ exact W | ]. intros e' c'. apply B. exact I.
Qed.
Lemma best_images_anew h m d p p' e : kin_sensible h -> kin_unit h = 1 -> kin_camera h = iso_id -> m <> 0 ->
  setup_anew h m (k2_common p) (k2_common p') -> images_anew h m d p p' ->
  best_estimate (k2_common p) (image_errors p) e -> best_estimate (k2_common p') (image_errors p') (estimate_anew h e).
Proof.
  intros Hh Hu HC Hm HS HI. rewrite !best_any.
  apply (best_anew h m (k2_common p) (k2_common p') (image_errors p) (image_errors p')); auto; [ apply image_stable | ].
  intros e0 F0 _. exact (images_grown h m d p p' m Hh HC HS HI e0 F0 (or_introl Hu)).
Qed.
Lemma best_sight_anew h m d c p p' e : kin_sensible h -> kin_camera h = iso_id -> m <> 0 ->
  1 / 10 ^ 10 <= c -> 1 / 10 ^ 10 <= kin_unit h * c ->
  setup_anew h m (k2_common p) (k2_common p') -> images_anew h m d p p' ->
  best_within (in_sight c p) (k2_common p) (image_errors p) e ->
  best_within (in_sight (kin_unit h * c) p') (k2_common p') (image_errors p') (estimate_anew h e).
Proof.
  intros Hh HC Hm C1 C2 HS HI.
  apply (best_anew h m (k2_common p) (k2_common p') (image_errors p) (image_errors p')); auto; [ apply image_stable | | | | ].
  - intros e0 F0. apply (sight_anew h m d p p' m Hh HC HS HI c e0 F0).
  - intros e0 F0. apply (sight_anew h m d p p' m Hh HC HS HI c e0 F0).
  - intros e0 e1 SE F0. apply sight_stable; assumption.
  - intros e0 F0 V. apply (images_grown h m d p p' m Hh HC HS HI e0 F0). right. exists c. auto.
Qed.

(** ** Measured poses *)
Lemma squares_turned M v : is_rot M -> half_squares [vx (mvec (mT M) v); vy (mvec (mT M) v); vz (mvec (mT M) v)] = half_squares [vx v; vy v; vz v].
Proof.
  intros H. rewrite !half3. apply f_equal.
  assert (E : forall w, vx w * vx w + vy w * vy w + vz w * vz w = norm w * norm w) by (intros w; rewrite norm_sq; unfold dot; ring).
  rewrite !E, rot_norm; [ reflexivity | ]. apply is_rot_mT, H.
Qed.
Lemma angle_turned Q G A B a : is_rot Q -> angle_between A B a -> angle_between (mmul Q (mmul A G)) (mmul Q (mmul B G)) a.
Proof.
  intros HQ (Ha & u & Hu & E). split; [ exact Ha | ]. exists (mvec Q u). split; [ rewrite rot_dot by exact HQ; exact Hu | ].
  rewrite <- conj_aa by exact HQ. rewrite E, !mmul_assoc. do 2 f_equal.
  rewrite <- (mmul_assoc (mT Q) Q). destruct HQ as [HQ _]. rewrite HQ, mmul_I_l. reflexivity.
Qed.
Section Poses.
  Variables (h : kin_choices) (p p' : kin_problemPose6D) (q : R) (w w' : R).
  Hypothesis Hh : kin_sensible h.
  Hypothesis HC : tr (kin_camera h) = vzero.
  Hypothesis Hw : w' = kin_unit h * w.
  Hypothesis HS : setup_anew h q (k6_common p) (k6_common p').
  Hypothesis HI : poses_anew h p p'.
  Lemma error_anew T P : rigid P ->
    iso_mul (iso_mul (iso_inv (kin_camera h)) (iso_mul (in_unit (kin_unit h) T) (kin_target h)))
      (iso_inv (iso_mul (iso_inv (kin_camera h)) (iso_mul (in_unit (kin_unit h) P) (kin_target h)))) =
    iso_mul (iso_inv (kin_camera h)) (iso_mul (in_unit (kin_unit h) (iso_mul T (iso_inv P))) (kin_camera h)).
  Proof.
    intros HP. destruct Hh as (_ & _ & _ & RC & RG). rewrite (iso_inv_mul (iso_inv (kin_camera h))) by apply rigid_inv, RC.
    rewrite (iso_inv_mul (in_unit _ P)) by exact HP. rewrite in_unit_mul, in_unit_inv, !iso_mul_assoc.
    rewrite (inv_cancel (kin_target h)) by exact RG. rewrite iso_inv_inv by exact RC. reflexivity.
  Qed.
  Lemma error_place E : tr (iso_mul (iso_inv (kin_camera h)) (iso_mul (in_unit (kin_unit h) E) (kin_camera h))) =
    mvec (mT (lin (kin_camera h))) (vscale (kin_unit h) (tr E)).
  Proof.
    unfold iso_mul, iso_inv, in_unit. cbn [lin tr]. rewrite HC. unfold mvec, vadd, vneg, vzero, vscale. cbn. apply vec3_ext; cbn; ring.
  Qed.
  Lemma pose_grown a b e : measured_anew h (k6_common p) a b -> may_find (k6_common p) e -> rigid (ke_target_mount_to_target e) ->
    rigid (ke_camera_base_to_target_base e) ->
    grown (kin_unit h) (KinReport.pose_error w (k6_common p) e a) (KinReport.pose_error w' (k6_common p') (estimate_anew h e) b).
  Proof.
    intros (Jc & Jt & RT & ET) Fe RZ RK. pose proof HS as ((Cc & Ct & Rc & Rt & _) & _). destruct (found_rigid _ _ Fe) as (RX & _).
    unfold KinReport.pose_error. cbn [estimate_anew ke_camera_offsets ke_target_offsets ke_camera_mount_to_camera ke_target_mount_to_target ke_camera_base_to_target_base].
    rewrite (fk_anew _ _ _ _ _ _ _ Cc Jc), (fk_anew _ _ _ _ _ _ _ Ct Jt).
    destruct (getFK (kc_camera_chain (k6_common p)) _ _) as [F1| |] eqn:E1; cbn [bind]; try exact I.
    destruct (getFK (kc_target_chain (k6_common p)) _ _) as [F2| |] eqn:E2; cbn [bind]; try exact I.
    pose proof (fk_rigid _ _ _ _ Rc E1) as RF1. pose proof (fk_rigid _ _ _ _ Rt E2) as RF2.
    rewrite placed_anew by assumption. set (P := kin_target_in_camera F1 _ _ F2 _).
    assert (RP : rigid P).
    { apply rigid_mul; [ apply rigid_inv, rigid_mul; assumption | apply rigid_mul; [ exact RK | apply rigid_mul; assumption ] ]. }
    set (T := km_camera_to_target a) in *. rewrite ET, error_anew by exact RP. cbv zeta.
    rewrite error_place. set (E := iso_mul T (iso_inv P)). destruct Hh as (Hs & _ & _ & RC & RG).
    assert (A : angular_distance (quat_of_mat (lin (iso_mul (iso_inv (kin_camera h)) (iso_mul (in_unit (kin_unit h) T) (kin_target h)))))
        (quat_of_mat (lin (iso_mul (iso_inv (kin_camera h)) (iso_mul (in_unit (kin_unit h) P) (kin_target h))))) =
      angular_distance (quat_of_mat (lin T)) (quat_of_mat (lin P))).
    { cbn [iso_mul iso_inv in_unit lin].
      assert (RQ : is_rot (mT (lin (kin_camera h)))) by apply is_rot_mT, RC.
      eapply angle_between_unique; [ | apply angular_distance_angle | apply angle_turned; [ exact RQ | apply angular_distance_angle; assumption ] ];
        repeat (apply is_rot_mmul; [ assumption | ]); try assumption. }
    rewrite A, Hw. cbn [grown]. generalize (angular_distance (quat_of_mat (lin T)) (quat_of_mat (lin P))). intros g.
    assert (Sp : forall x y z t, half_squares [x; y; z; t] = half_squares [x; y; z] + / 2 * (t * t)) by (intros; unfold half_squares; cbn; ring).
    rewrite !Sp, squares_turned by exact RC. rewrite !half3. unfold vscale. cbn [vx vy vz]. ring.
  Qed.
  Lemma found_all com e : may_find com e -> rigid (ke_target_mount_to_target e) /\ rigid (ke_camera_base_to_target_base e).
  Proof. intros (m & _ & _ & A & B & _). rewrite A, B. split; apply createTransform_rigid. Qed.
  Lemma poses_grown e : may_find (k6_common p) e ->
    exists l, Forall2 (grown (kin_unit h)) (pose_errors w p e) l /\ Permutation l (pose_errors w' p' (estimate_anew h e)).
  Proof.
    intros Fe. destruct HI as (l & Pl & F). destruct (found_all _ _ Fe) as [RZ RK].
    exists (map (KinReport.pose_error w' (k6_common p') (estimate_anew h e)) l). split; [ | apply Permutation_map, Pl ].
    unfold pose_errors. clear Pl. induction F as [|a b la lb Hab F IH]; cbn; [ constructor | ].
    constructor; [ apply pose_grown; assumption | exact IH ].
  Qed.
End Poses.
Lemma best_poses_anew h p p' w w' e : kin_sensible h -> tr (kin_camera h) = vzero -> w' = kin_unit h * w ->
  setup_anew h (kin_unit h) (k6_common p) (k6_common p') -> poses_anew h p p' ->
  best_estimate (k6_common p) (pose_errors w p) e -> best_estimate (k6_common p') (pose_errors w' p') (estimate_anew h e).
Proof.
  intros Hh HC Hw HS HI. rewrite !best_any.
  apply (best_anew h (kin_unit h) (k6_common p) (k6_common p') (pose_errors w p) (pose_errors w' p')); auto; [ apply unit_nonzero, Hh | apply pose_stable | ].
  intros e0 F0 _. exact (poses_grown h p p' (kin_unit h) w w' Hh HC Hw HS HI e0 F0).
Qed.

(** ** What is reported *)
Lemma counted_anew h q com com' n a b : setup_anew h q com com' -> counted com n a -> counted com' n b -> a = b.
Proof.
  intros S. destruct (setup_dof _ _ _ _ S) as [D D']. destruct S as ((_ & _ & _ & _ & M & _) & _).
  assert (Bs : forall k, block_size com' k = block_size com k) by (intros k; unfold block_size; rewrite D, D'; reflexivity).
  assert (Hd : forall k i, held com' k i <-> held com k i) by (intros k i; unfold held; rewrite D, D', M; reflexivity).
  assert (Fr : forall k, any_free com' k <-> any_free com k).
  { intros k. unfold any_free. split; intros (i & Hi & F); exists i; [ rewrite Bs, Hd in * | rewrite Bs, Hd ]; auto. }
  intros (x & y & -> & X1 & X2 & Y1 & Y2) (x' & y' & -> & X1' & X2' & Y1' & Y2'). rewrite D, !Fr in *. rewrite D' in *.
  destruct (block_free_dec com 0 ltac:(lia)) as [F0|F0], (block_free_dec com 1 ltac:(lia)) as [F1|F1];
    rewrite ?(X1 F0), ?(X2 F0), ?(X1' F0), ?(X2' F0), ?(Y1 F1), ?(Y2 F1), ?(Y1' F1), ?(Y2' F1); reflexivity.
Qed.
Lemma best_cost D com errors e c e' c' : best_within D com errors e -> best_within D com errors e' ->
  whole_error com errors e c -> whole_error com errors e' c' -> c = c'.
Proof.
  intros (De & Fe & x & Wx & Bx) (De' & Fe' & y & Wy & By) W W'.
  rewrite (whole_fun _ _ _ _ _ W Wx), (whole_fun _ _ _ _ _ W' Wy). pose proof (Bx _ _ De' Fe' Wy). pose proof (By _ _ De Fe Wx). lra.
Qed.
Lemma report_anew h q com com' errors errors' n r r' : kin_sensible h -> q <> 0 -> setup_anew h q com com' ->
  reports com errors n r -> reports com' errors' n r' ->
  (exists l, Forall2 (grown q) (errors (result_estimate r)) l /\ Permutation l (errors' (estimate_anew h (result_estimate r)))) ->
  forall D', best_within D' com' errors' (result_estimate r') -> best_within D' com' errors' (estimate_anew h (result_estimate r)) ->
  kr_final_cost_per_obs r' = q * q * kr_final_cost_per_obs r.
Proof.
  intros Hh Hq HS (F & t & c & Ct & Wc & ->) (F' & t' & c' & Ct' & Wc' & ->) (l & G & P) D' B' B.
  rewrite <- (counted_anew _ _ _ _ _ _ _ HS Ct Ct').
  pose proof (whole_anew h q com com' errors errors' _ l Hh Hq HS F G P c Wc) as W.
  rewrite (best_cost _ _ _ _ _ _ _ B' B Wc' W). unfold Rdiv. ring.
Qed.
Lemma images_length h m d p p' : images_anew h m d p p' -> length (kin_pairs (k2_observations p')) = length (kin_pairs (k2_observations p)).
Proof. intros (_ & l & Pl & F). rewrite <- (Permutation_length Pl). symmetry. apply (Forall2_len _ _ _ F). Qed.
Lemma poses_length h p p' : poses_anew h p p' -> length (k6_observations p') = length (k6_observations p).
Proof. intros (l & Pl & F). rewrite <- (Permutation_length Pl). symmetry. apply (Forall2_len _ _ _ F). Qed.
Lemma images_reported h m d p p' u solve cov r u' solve' cov' r' :
  kin_sensible h -> kin_unit h = 1 -> kin_camera h = iso_id -> m <> 0 ->
  setup_anew h m (k2_common p) (k2_common p') -> images_anew h m d p p' ->
  honest_kin solve -> keeps_frozen solve -> lists_blocks cov -> masks_fit (k2_common p) -> kin_optimize2D3D u solve cov p = Ok r ->
  honest_kin solve' -> keeps_frozen solve' -> lists_blocks cov' -> masks_fit (k2_common p') -> kin_optimize2D3D u' solve' cov' p' = Ok r' ->
  best_estimate (k2_common p) (image_errors p) (result_estimate r) -> best_estimate (k2_common p') (image_errors p') (result_estimate r') ->
  kr_final_cost_per_obs r' = m * m * kr_final_cost_per_obs r.
Proof.
  intros Hh Hu HC Hm HS HI Ho Hf Hl HM E Ho' Hf' Hl' HM' E' B B'.
  pose proof (images_report _ _ _ _ _ Ho Hf Hl HM E) as Rp. pose proof (images_report _ _ _ _ _ Ho' Hf' Hl' HM' E') as Rp'.
  rewrite (images_length _ _ _ _ _ HI) in Rp'.
  apply (report_anew h m _ _ _ _ _ r r' Hh Hm HS Rp Rp') with (D' := fun _ => True).
  - exact (images_grown h m d p p' m Hh HC HS HI _ (proj1 Rp) (or_introl Hu)).
  - apply best_any, B'.
  - apply best_any. apply (best_images_anew h m d p p' _ Hh Hu HC Hm HS HI B).
Qed.
Lemma sight_reported h m d c p p' u solve cov r u' solve' cov' r' :
  kin_sensible h -> kin_camera h = iso_id -> m <> 0 -> 1 / 10 ^ 10 <= c -> 1 / 10 ^ 10 <= kin_unit h * c ->
  setup_anew h m (k2_common p) (k2_common p') -> images_anew h m d p p' ->
  honest_kin solve -> keeps_frozen solve -> lists_blocks cov -> masks_fit (k2_common p) -> kin_optimize2D3D u solve cov p = Ok r ->
  honest_kin solve' -> keeps_frozen solve' -> lists_blocks cov' -> masks_fit (k2_common p') -> kin_optimize2D3D u' solve' cov' p' = Ok r' ->
  best_within (in_sight c p) (k2_common p) (image_errors p) (result_estimate r) ->
  best_within (in_sight (kin_unit h * c) p') (k2_common p') (image_errors p') (result_estimate r') ->
  kr_final_cost_per_obs r' = m * m * kr_final_cost_per_obs r.
Proof.
  intros Hh HC Hm C1 C2 HS HI Ho Hf Hl HM E Ho' Hf' Hl' HM' E' B B'.
  pose proof (images_report _ _ _ _ _ Ho Hf Hl HM E) as Rp. pose proof (images_report _ _ _ _ _ Ho' Hf' Hl' HM' E') as Rp'.
  rewrite (images_length _ _ _ _ _ HI) in Rp'.
  apply (report_anew h m _ _ _ _ _ r r' Hh Hm HS Rp Rp') with (D' := in_sight (kin_unit h * c) p'); [ | exact B' | ].
  - apply (images_grown h m d p p' m Hh HC HS HI _ (proj1 Rp)). right. exists c. split; [ exact C1 | split; [ exact C2 | apply B ] ].
  - apply (best_sight_anew h m d c p p' _ Hh HC Hm C1 C2 HS HI B).
Qed.
Lemma poses_reported h p p' w w' u solve cov r u' solve' cov' r' :
  kin_sensible h -> tr (kin_camera h) = vzero -> w' = kin_unit h * w ->
  setup_anew h (kin_unit h) (k6_common p) (k6_common p') -> poses_anew h p p' ->
  honest_kin solve -> keeps_frozen solve -> lists_blocks cov -> masks_fit (k6_common p) -> kin_optimizePose6D u solve cov p w = Ok r ->
  honest_kin solve' -> keeps_frozen solve' -> lists_blocks cov' -> masks_fit (k6_common p') -> kin_optimizePose6D u' solve' cov' p' w' = Ok r' ->
  best_estimate (k6_common p) (pose_errors w p) (result_estimate r) -> best_estimate (k6_common p') (pose_errors w' p') (result_estimate r') ->
  kr_final_cost_per_obs r' = kin_unit h * kin_unit h * kr_final_cost_per_obs r.
Proof.
  intros Hh HC Hw HS HI Ho Hf Hl HM E Ho' Hf' Hl' HM' E' B B'.
  pose proof (poses_report _ _ _ _ _ _ Ho Hf Hl HM E) as Rp. pose proof (poses_report _ _ _ _ _ _ Ho' Hf' Hl' HM' E') as Rp'.
  rewrite (poses_length _ _ _ HI) in Rp'.
  apply (report_anew h (kin_unit h) _ _ _ _ _ r r' Hh (unit_nonzero h Hh) HS Rp Rp') with (D' := fun _ => True).
  - exact (poses_grown h p p' (kin_unit h) w w' Hh HC Hw HS HI _ (proj1 Rp)).
  - apply best_any, B'.
  - apply best_any. apply (best_poses_anew h p p' w w' _ Hh HC Hw HS HI B).
Qed.
