(** C85: kinematic calibrations without error. *)
From Coq Require Import Reals Lra ZArith Arith Lia List.
From Verif.Base Require Import Geom Outcome Matrix.
From Verif.Model Require Import Pose Covariance Solver HandEye DhChain LocalParam Kinematic.
From Verif.Spec Require Import PinHole PnpSpec FreezeSpec KinSpec KinReport OracleSpec KinExampleSpec UniqueSpec RedundancySpec KinUniqueSpec.
From Verif.Proofs Require Import GeomLemmas RotLemmas PoseProofs ListLemmas DhProofs PnpProofs KinematicProofs KinematicCall UniqueLemmas UniqueProofs RedundancyProofs.
Import ListNotations.
Local Open Scope R_scope.

(** ** The equation *)
Lemma inv_mul A B : rigid A -> rigid B -> iso_inv (iso_mul A B) = iso_mul (iso_inv B) (iso_inv A).
Proof.
  intros HA HB. apply (cancel_r (iso_mul A B)); [ apply rigid_mul; assumption | ].
  rewrite iso_inv_l by (apply rigid_mul; assumption).
  rewrite iso_mul_assoc, <- (iso_mul_assoc (iso_inv A)), iso_inv_l, iso_mul_id_l, iso_inv_l by assumption. reflexivity.
Qed.
Lemma inv_inv A : rigid A -> iso_inv (iso_inv A) = A.
Proof.
  intros HA. apply (cancel_l (iso_inv A)); [ apply rigid_inv, HA | ]. rewrite iso_inv_r, iso_inv_l by (try apply rigid_inv; exact HA). reflexivity.
Qed.
Section Equation.
  Variables (C T B C0 T0 B0 : iso).
  Hypotheses (HC : rigid C) (HT : rigid T) (HB : rigid B) (HC0 : rigid C0) (HT0 : rigid T0) (HB0 : rigid B0).
  Lemma target_side Fc Fts : rigid Fc -> (forall Ft, In Ft Fts -> rigid Ft) -> two_axes (motions_of Fts) ->
    (forall Ft, In Ft Fts -> kin_target_in_camera Fc C B Ft T = kin_target_in_camera Fc C0 B0 Ft T0) ->
    T = T0 /\ iso_mul (iso_inv (iso_mul Fc C)) B = iso_mul (iso_inv (iso_mul Fc C0)) B0.
  Proof.
    intros HF HFt TA E.
    assert (R1 : rigid (iso_mul (iso_inv (iso_mul Fc C)) B)) by (apply rigid_mul; [ apply rigid_inv, rigid_mul; assumption | assumption ]).
    assert (R2 : rigid (iso_mul (iso_inv (iso_mul Fc C0)) B0)) by (apply rigid_mul; [ apply rigid_inv, rigid_mul; assumption | assumption ]).
    destruct (hand_eye_unique (iso_inv (iso_mul (iso_inv (iso_mul Fc C)) B)) T (iso_inv (iso_mul (iso_inv (iso_mul Fc C0)) B0)) T0 Fts) as [EX ET];
      [ apply rigid_inv, R1 | exact HT | apply rigid_inv, R2 | exact HT0 | exact HFt | exact TA | | ].
    - intros Ft HI. rewrite !inv_inv by assumption. rewrite !iso_mul_assoc. apply E, HI.
    - split; [ exact ET | ]. rewrite <- (inv_inv _ R1), <- (inv_inv _ R2), EX. reflexivity.
  Qed.
  Lemma camera_side Ft Fcs : rigid Ft -> (forall Fc, In Fc Fcs -> rigid Fc) -> two_axes (motions_of (map iso_inv Fcs)) ->
    (forall Fc, In Fc Fcs -> kin_target_in_camera Fc C B Ft T = kin_target_in_camera Fc C0 B0 Ft T0) ->
    C = C0 /\ iso_mul B (iso_mul Ft T) = iso_mul B0 (iso_mul Ft T0).
  Proof.
    intros HF HFc TA E.
    destruct (hand_eye_unique C (iso_mul B (iso_mul Ft T)) C0 (iso_mul B0 (iso_mul Ft T0)) (map iso_inv Fcs)) as [EX ET]; auto.
    - repeat apply rigid_mul; assumption.
    - repeat apply rigid_mul; assumption.
    - intros W IW. apply in_map_iff in IW as (Fc & <- & I). apply rigid_inv, HFc, I.
    - intros W IW. apply in_map_iff in IW as (Fc & <- & I). pose proof (HFc Fc I). specialize (E Fc I). unfold kin_target_in_camera in E.
      rewrite !inv_mul, !iso_mul_assoc in E by assumption. exact E.
  Qed.
  Lemma both_sides Ft : rigid Ft -> T = T0 -> iso_mul B (iso_mul Ft T) = iso_mul B0 (iso_mul Ft T0) -> B = B0.
  Proof. intros HF -> E. apply (cancel_r (iso_mul Ft T0)); [ apply rigid_mul; assumption | exact E ]. Qed.
End Equation.

(** ** The cost *)
Definition zeros (l : list R) : Prop := forall x, In x l -> x = 0.
Definition exact_values (x : res (list R)) : Prop := exists l, x = Ok l /\ zeros l.
Lemma mapM_pairs {A B} (f : A -> res B) l bs : mapM f l = Ok bs -> Forall2 (fun a b => f a = Ok b) l bs.
Proof.
  revert bs. induction l as [|a l IH]; cbn; intros bs H; [ injection H as <-; constructor | ].
  destruct (f a) as [b| |] eqn:E; cbn in H; try discriminate. destruct (mapM f l) as [bs'| |]; cbn in H; try discriminate.
  injection H as <-. constructor; auto.
Qed.
Lemma cost_zero_iff residuals m c : cost_is residuals m c -> c = 0 <-> forall f, In f residuals -> exact_values (f m).
Proof.
  intros (vs & Ev & ->). apply mapM_pairs in Ev. split.
  - intros Z f Hf. pose proof (half_squares_zero _ Z) as H0. clear Z.
    induction Ev as [ | g l gs ls Hg Hgs IH ]; [ destruct Hf | ]. destruct Hf as [ <- | Hf ].
    + exists l. split; [ exact Hg | ]. intros x Hx. apply H0. cbn. apply in_or_app. left. exact Hx.
    + apply IH; [ exact Hf | ]. intros x Hx. apply H0. cbn. apply in_or_app. right. exact Hx.
  - intros H. apply half_squares_all_zero. induction Ev as [ | g l gs ls Hg Hgs IH ]; [ intros x [] | ].
    cbn. intros x Hx. apply in_app_or in Hx as [ Hx | Hx ].
    + destruct (H g (or_introl eq_refl)) as (l' & El & Zl). rewrite Hg in El. injection El as <-. apply Zl, Hx.
    + apply IH; [ | exact Hx ]. intros f Hf. apply H. right. exact Hf.
Qed.
Lemma prior_zero c k sd m : sd <> 0 -> zeros (offset_prior c k sd m) <-> forall e, (e < dof c * 4)%nat -> m k e = 0.
Proof.
  intros S. unfold zeros, offset_prior. split.
  - intros H e He. assert (Q : m k e / sd = 0) by (apply H, in_map_iff; exists e; split; [ reflexivity | apply in_seq; lia ]).
    apply (Rmult_eq_compat_r sd) in Q. unfold Rdiv in Q. rewrite Rmult_assoc, Rinv_l in Q by exact S. lra.
  - intros H x Hx. apply in_map_iff in Hx as (e & <- & He). apply in_seq in He. rewrite H by lia. unfold Rdiv. ring.
Qed.
Lemma one_exact (rs : list kin_residual) m v : map (fun f => f m) rs = [Ok v] -> (forall f, In f rs -> exact_values (f m)) <-> zeros v.
Proof.
  destruct rs as [ | f [ | g rs ] ]; [ discriminate | | discriminate ]. cbn. intros E. injection E as E. split.
  - intros H. destruct (H f (or_introl eq_refl)) as (l & El & Z). rewrite E in El. injection El as <-. exact Z.
  - intros Z g [ <- | [] ]. exists v. split; assumption.
Qed.
Section Cost.
  Variables (com : kin_common) (errors : kin_estimate -> list (res (list R))) (residuals : list kin_residual) (p : problem) (m : memory) (c : R).
  Hypotheses (RP : right_problem com errors residuals p) (CI : cost_is residuals m c).
  Hypothesis FZ : forall b i, (b < 2)%nat -> frozen p b i -> m b i = 0.
  Hypotheses (S0 : kc_camera_chain_offset_stdev com <> 0) (S1 : kc_target_chain_offset_stdev com <> 0).
  Lemma kin_zero_iff : c = 0 <->
    (forall e, (e < dof (kc_camera_chain com) * 4)%nat -> m 0%nat e = 0) /\ (forall e, (e < dof (kc_target_chain com) * 4)%nat -> m 1%nat e = 0) /\
    forall x, In x (errors (stored_estimate com m)) -> exact_values x.
  Proof.
    rewrite (cost_zero_iff _ _ _ CI). destruct RP as (_ & FR & obs & p1 & p2 & -> & Ho & H1 & H2).
    assert (B0 : forall e, (e < dof (kc_camera_chain com) * 4)%nat -> (e < block_size com 0)%nat) by (unfold block_size; intros; lia).
    assert (B1 : forall e, (e < dof (kc_target_chain com) * 4)%nat -> (e < block_size com 1)%nat) by (unfold block_size; intros; lia).
    assert (Q1 : (forall f, In f p1 -> exact_values (f m)) <-> forall e, (e < dof (kc_camera_chain com) * 4)%nat -> m 0%nat e = 0).
    { destruct H1 as [ [ -> HA ] | [ _ HA ] ].
      - split; [ | intros _ f [] ]. intros _ e He. apply FZ; [ lia | ]. apply FR; [ lia | apply B0, He | apply HA, B0, He ].
      - rewrite (one_exact _ _ _ (HA m)). apply prior_zero, S0. }
    assert (Q2 : (forall f, In f p2 -> exact_values (f m)) <-> forall e, (e < dof (kc_target_chain com) * 4)%nat -> m 1%nat e = 0).
    { destruct H2 as [ [ -> HA ] | [ _ HA ] ].
      - split; [ | intros _ f [] ]. intros _ e He. apply FZ; [ lia | ]. apply FR; [ lia | apply B1, He | apply HA, B1, He ].
      - rewrite (one_exact _ _ _ (HA m)). apply prior_zero, S1. }
    assert (Q3 : (forall f, In f obs -> exact_values (f m)) <-> forall x, In x (errors (stored_estimate com m)) -> exact_values x).
    { rewrite <- Ho. split.
      - intros H x Hx. apply in_map_iff in Hx as (f & <- & Hf). apply H, Hf.
      - intros H f Hf. apply H. apply in_map_iff. exists f. split; [ reflexivity | exact Hf ]. }
    rewrite <- Q1, <- Q2, <- Q3. split.
    - intros H. split; [ | split ]; intros f Hf; apply H; apply in_or_app; [ right; apply in_or_app; left | right; apply in_or_app; right | left ]; exact Hf.
    - intros (A & B & D) f Hf. apply in_app_or in Hf as [ Hf | Hf ]; [ apply D, Hf | ]. apply in_app_or in Hf as [ Hf | Hf ]; [ apply A | apply B ]; exact Hf.
  Qed.
  Lemma offsets_none (n : nat) (off : nat -> R) : (forall e, (e < n * 4)%nat -> off e = 0) <->
    same_matrix (Mat n 4 (fun i j => off (j * n + i)%nat)) (no_offsets n).
  Proof.
    unfold same_matrix, no_offsets. cbn [rows cols ent]. split.
    - intros H. split; [ reflexivity | split; [ reflexivity | ] ]. intros i j Hi Hj. apply H. nia.
    - intros (_ & _ & H) e He. assert (n <> 0)%nat by lia. rewrite (Nat.div_mod e n) by assumption. rewrite (Nat.mul_comm n).
      apply H; [ apply Nat.mod_upper_bound; assumption | apply Nat.div_lt_upper_bound; lia ].
  Qed.
End Cost.
(** The same for the result *)
Lemma same_matrix_sym A B : same_matrix A B -> same_matrix B A.
Proof. intros (R1 & C1 & E). split; [ auto | split; [ auto | ] ]. rewrite <- R1, <- C1. intros. symmetry. apply E; assumption. Qed.
Lemma same_matrix_trans A B D : same_matrix A B -> same_matrix B D -> same_matrix A D.
Proof.
  intros (R1 & C1 & E1) (R2 & C2 & E2). split; [ congruence | split; [ congruence | ] ]. intros i j Hi Hj. rewrite E1 by assumption.
  apply E2; [ rewrite <- R1 | rewrite <- C1 ]; assumption.
Qed.
Lemma places_plain cam tgt e q P : same_matrix (ke_camera_offsets e) (no_offsets (dof cam)) -> same_matrix (ke_target_offsets e) (no_offsets (dof tgt)) ->
  places cam tgt e q P <-> places cam tgt (as_designed cam tgt (ke_camera_mount_to_camera e) (ke_target_mount_to_target e) (ke_camera_base_to_target_base e)) q P.
Proof.
  intros (R1 & C1 & E1) (R2 & C2 & E2). unfold places, as_designed. cbn [ke_camera_offsets ke_target_offsets ke_camera_mount_to_camera ke_target_mount_to_target ke_camera_base_to_target_base].
  rewrite (fk_agree cam (fst q) (ke_camera_offsets e) (no_offsets (dof cam))); [ | exact R1 | intros; apply E1; [ assumption | rewrite C1; assumption ] ].
  rewrite (fk_agree tgt (snd q) (ke_target_offsets e) (no_offsets (dof tgt))); [ reflexivity | exact R2 | intros; apply E2; [ assumption | rewrite C2; assumption ] ].
Qed.
Lemma places_same cam tgt e e' q P : same_estimate e e' -> cols (ke_camera_offsets e') = 4%nat -> cols (ke_target_offsets e') = 4%nat ->
  places cam tgt e q P <-> places cam tgt e' q P.
Proof.
  intros (E1 & E2 & E3 & (R4 & C4 & E4) & (R5 & C5 & E5)) C1 C2. unfold places. rewrite E1, E2, E3.
  rewrite (fk_agree cam (fst q) (ke_camera_offsets e) (ke_camera_offsets e')); [ | exact R4 | intros; apply E4; [ assumption | rewrite C4, C1; assumption ] ].
  rewrite (fk_agree tgt (snd q) (ke_target_offsets e) (ke_target_offsets e')); [ reflexivity | exact R5 | intros; apply E5; [ assumption | rewrite C5, C2; assumption ] ].
Qed.
Lemma places_rigid cam tgt e q P : rigid (base_offset cam) -> rigid (base_offset tgt) -> rigid_estimate e -> places cam tgt e q P -> rigid P.
Proof.
  intros Hc Ht (H1 & H2 & H3) (Fc & Ft & E1 & E2 & ->). unfold kin_target_in_camera.
  pose proof (fk_rigid _ _ _ _ Hc E1). pose proof (fk_rigid _ _ _ _ Ht E2).
  repeat first [ assumption | apply rigid_mul | apply rigid_inv ].
Qed.
Lemma result_rigid com r m : same_estimate (result_estimate r) (stored_estimate com m) -> rigid_estimate (result_estimate r).
Proof. intros (E1 & E2 & E3 & _). unfold rigid_estimate. rewrite E1, E2, E3. repeat split; apply createTransform_rigid. Qed.
Lemma stored_rigid com m : rigid_estimate (stored_estimate com m).
Proof. repeat split; apply createTransform_rigid. Qed.

(** ** What is determined *)
Section Determined.
  Variables (cam tgt : dh_chain) (joints : list (list R * list R)).
  Hypotheses (Hc : rigid (base_offset cam)) (Ht : rigid (base_offset tgt)).
  Variables (e : kin_estimate) (C0 T0 B0 : iso).
  Notation C := (ke_camera_mount_to_camera e). Notation T := (ke_target_mount_to_target e). Notation B := (ke_camera_base_to_target_base e).
  Hypotheses (HC0 : rigid C0) (HT0 : rigid T0) (HB0 : rigid B0) (HR : rigid_estimate e).
  Definition agree : Prop := forall qc qt Fc Ft, In (qc, qt) joints -> tips cam tgt qc qt Fc Ft ->
    kin_target_in_camera Fc C B Ft T = kin_target_in_camera Fc C0 B0 Ft T0.
  Lemma tips_rigid qc qt Fc Ft : tips cam tgt qc qt Fc Ft -> rigid Fc /\ rigid Ft.
  Proof. intros [E1 E2]. split; [ exact (fk_rigid _ _ _ _ Hc E1) | exact (fk_rigid _ _ _ _ Ht E2) ]. Qed.
  Lemma some_motion {A} (l : list A) (f : A -> iso) : two_axes (motions_of (map f l)) -> exists a, In a l.
  Proof.
    intros H. destruct (two_axes_nonempty _ H) as (M & HM). apply in_motions_of in HM as (W & _ & HW & _).
    apply in_map_iff in HW as (a & _ & Ha). eauto.
  Qed.
  Lemma target_determined : agree -> forall Fc Fts, two_axes (motions_of Fts) ->
    (forall Ft, In Ft Fts -> exists qc qt, In (qc, qt) joints /\ tips cam tgt qc qt Fc Ft) ->
    rigid Fc /\ T = T0 /\ base_in_camera Fc e = iso_mul (iso_inv (iso_mul Fc C0)) B0.
  Proof.
    intros A Fc Fts TA H. destruct HR as (H1 & H2 & H3).
    assert (RF : rigid Fc).
    { destruct (some_motion Fts (fun W => W)) as (Ft & I); [ rewrite map_id; exact TA | ].
      destruct (H Ft I) as (qc & qt & _ & HT). exact (proj1 (tips_rigid _ _ _ _ HT)). }
    split; [ exact RF | ]. apply (target_side C T B C0 T0 B0 H1 H2 H3 HC0 HT0 HB0 Fc Fts RF).
    - intros Ft I. destruct (H Ft I) as (qc & qt & _ & HT). exact (proj2 (tips_rigid _ _ _ _ HT)).
    - exact TA.
    - intros Ft I. destruct (H Ft I) as (qc & qt & J & HT). exact (A _ _ _ _ J HT).
  Qed.
  Lemma all_determined : agree -> target_moves cam tgt joints -> camera_moves cam tgt joints -> C = C0 /\ T = T0 /\ B = B0.
  Proof.
    intros A (Fc & Fts & TA1 & M1) (Ft & Fcs & TA2 & M2).
    destruct (target_determined A Fc Fts TA1 M1) as (_ & ET & _). destruct HR as (H1 & H2 & H3).
    assert (RF : rigid Ft).
    { destruct (some_motion Fcs iso_inv TA2) as (F & I). destruct (M2 F I) as (qc & qt & _ & HT). exact (proj2 (tips_rigid _ _ _ _ HT)). }
    destruct (camera_side C T B C0 T0 B0 H1 H2 H3 HC0 HT0 HB0 Ft Fcs RF) as [EC EB].
    - intros F I. destruct (M2 F I) as (qc & qt & _ & HT). exact (proj1 (tips_rigid _ _ _ _ HT)).
    - exact TA2.
    - intros F I. destruct (M2 F I) as (qc & qt & J & HT). exact (A _ _ _ _ J HT).
    - split; [ exact EC | split; [ exact ET | ] ]. exact (both_sides T B T0 B0 H2 HT0 Ft RF ET EB).
  Qed.
  Lemma fixed_determined Fc : agree -> target_moves cam tgt joints -> camera_stays cam tgt joints Fc ->
    T = T0 /\ base_in_camera Fc e = iso_mul (iso_inv (iso_mul Fc C0)) B0.
  Proof.
    intros A (F' & Fts & TA & M) St. destruct (target_determined A F' Fts TA M) as (_ & ET & EB). split; [ exact ET | ].
    replace Fc with F'; [ exact EB | ]. destruct (some_motion Fts (fun W => W)) as (Ft & I); [ rewrite map_id; exact TA | ].
    destruct (M Ft I) as (qc & qt & J & [H1 _]). destruct (St qc qt J) as (Ft' & [H2 _]). rewrite H1 in H2. injection H2. auto.
  Qed.
  (** and back *)
  Lemma fixed_agree Fc : rigid Fc -> camera_stays cam tgt joints Fc -> T = T0 ->
    base_in_camera Fc e = iso_mul (iso_inv (iso_mul Fc C0)) B0 -> agree.
  Proof.
    intros RF St ET EB qc qt F' Ft J [H1 H2]. destruct (St qc qt J) as (Ft' & [H3 _]). rewrite H1 in H3. injection H3 as ->.
    unfold kin_target_in_camera. unfold base_in_camera in EB. rewrite <- !(iso_mul_assoc (iso_inv _)), EB, ET. reflexivity.
  Qed.
End Determined.

(** ** Results *)
Lemma result_zero com errors residuals p m0 m s r vs :
  right_problem com errors residuals p -> cost_is residuals m (final_cost s) -> m0 = kin_memory0 com ->
  (forall b i, frozen p b i -> m b i = m0 b i) ->
  kc_camera_chain_offset_stdev com <> 0 -> kc_target_chain_offset_stdev com <> 0 ->
  same_estimate (result_estimate r) (stored_estimate com m) ->
  mapM (fun f : kin_residual => f m0) residuals = Ok vs ->
  kr_final_cost_per_obs r = final_cost s / INR (length (concat vs)) ->
  (exists e, In e (errors (stored_estimate com m0)) /\ e <> Ok []) ->
  kr_final_cost_per_obs r = 0 <->
    plain_result com r /\ forall x, In x (errors (stored_estimate com m)) -> exact_values x.
Proof.
  intros RP CI -> FR S0 S1 SE Ev Ef (e0 & He0 & Ne0). rewrite Ef. rewrite per_obs_zero.
  2:{ destruct RP as (_ & _ & obs & p1 & p2 & -> & Ho & _). rewrite <- Ho in He0. apply in_map_iff in He0 as (f & Ef0 & Hf).
      apply mapM_pairs in Ev. assert (Hf' : In f (obs ++ p1 ++ p2)) by (apply in_or_app; left; exact Hf). clear Ef Hf Ho CI FR.
      induction Ev as [ | g l gs ls Hg Hgs IH ]; [ destruct Hf' | ]. cbn [concat]. rewrite app_length. destruct Hf' as [ <- | Hf' ].
      - destruct l; [ | cbn; lia ]. exfalso. apply Ne0. rewrite <- Ef0. exact Hg.
      - specialize (IH Hf'). lia. }
  assert (Z : forall b i, (b < 2)%nat -> frozen p b i -> m b i = 0).
  { intros b i Hb Hf. rewrite (FR b i Hf). unfold kin_memory0. destruct b as [ | [ | b ] ]; [ reflexivity | reflexivity | lia ]. }
  rewrite (kin_zero_iff com errors residuals p m _ RP CI Z S0 S1).
  rewrite (offsets_none (dof (kc_camera_chain com)) (m 0%nat)), (offsets_none (dof (kc_target_chain com)) (m 1%nat)).
  destruct SE as (_ & _ & _ & M0 & M1). unfold plain_result. split.
  - intros (A & B & D). split; [ split; [ exact (same_matrix_trans _ _ _ M0 A) | exact (same_matrix_trans _ _ _ M1 B) ] | exact D ].
  - intros ((A & B) & D). split; [ exact (same_matrix_trans _ _ _ (same_matrix_sym _ _ M0) A) | ].
    split; [ exact (same_matrix_trans _ _ _ (same_matrix_sym _ _ M1) B) | exact D ].
Qed.
Lemma pose_exact w com e o : w <> 0 -> rigid (base_offset (kc_camera_chain com)) -> rigid (base_offset (kc_target_chain com)) ->
  rigid_estimate e -> rigid (km_camera_to_target o) ->
  exact_values (pose_error w com e o) <-> predicts (kc_camera_chain com) (kc_target_chain com) e o (km_camera_to_target o).
Proof.
  intros Hw Hc Ht HR HM. unfold pose_error, predicts, exact_values.
  destruct (getFK (kc_camera_chain com) _ _) as [ Fc | | ] eqn:E1; cbn [bind].
  2,3: split; [ intros (l & X & _); discriminate | intros (? & ? & X & _); discriminate ].
  destruct (getFK (kc_target_chain com) _ _) as [ Ft | | ] eqn:E2; cbn [bind].
  2,3: split; [ intros (l & X & _); discriminate | intros (? & ? & _ & X & _); discriminate ].
  set (P := kin_target_in_camera Fc (ke_camera_mount_to_camera e) (ke_camera_base_to_target_base e) Ft (ke_target_mount_to_target e)).
  assert (RP : rigid P) by (apply (places_rigid (kc_camera_chain com) (kc_target_chain com) e (measured_at o)); [ exact Hc | exact Ht | exact HR | exists Fc, Ft; auto ]).
  cbv zeta. split.
  - intros (l & El & Z). injection El as <-. exists Fc, Ft. split; [ reflexivity | split; [ reflexivity | ] ].
    assert (L : lin (km_camera_to_target o) = lin P).
    { apply angular_distance_zero; [ exact HM | exact RP | ].
      assert (Q : w * angular_distance (quat_of_mat (lin (km_camera_to_target o))) (quat_of_mat (lin P)) = 0) by (apply Z; cbn; auto 6).
      apply Rmult_integral in Q as [ Q | Q ]; [ contradiction | exact Q ]. }
    assert (I : iso_mul (km_camera_to_target o) (iso_inv P) = iso_id).
    { assert (LI : lin (iso_mul (km_camera_to_target o) (iso_inv P)) = I3).
      { transitivity (lin (iso_mul P (iso_inv P))); [ unfold iso_mul; cbn [lin]; rewrite L; reflexivity | rewrite iso_inv_r by exact RP; reflexivity ]. }
      set (D := iso_mul (km_camera_to_target o) (iso_inv P)) in *.
      assert (Z1 : vx (tr D) = 0) by (apply Z; left; reflexivity).
      assert (Z2 : vy (tr D) = 0) by (apply Z; right; left; reflexivity).
      assert (Z3 : vz (tr D) = 0) by (apply Z; right; right; left; reflexivity).
      clearbody D. clear - LI Z1 Z2 Z3. destruct D as [l [x y z]]. cbn [lin tr vx vy vz] in *. subst. reflexivity. }
    apply (cancel_r (iso_inv P)); [ apply rigid_inv, RP | ]. rewrite I, iso_inv_r by exact RP. reflexivity.
  - intros (Fc' & Ft' & X1 & X2 & EM). injection X1 as <-. injection X2 as <-. fold P in EM. eexists. split; [ reflexivity | ].
    rewrite EM, iso_inv_r by exact RP. intros x Hx. rewrite (proj2 (angular_distance_zero _ _ RP RP) eq_refl) in Hx.
    cbn in Hx. destruct Hx as [ <- | [ <- | [ <- | [ <- | [] ] ] ] ]; ring.
Qed.

(** ** From the places of the target to the estimate *)
Section Estimate.
  Variables (com : kin_common) (r : kin_result) (C0 T0 B0 : iso).
  Notation cam := (kc_camera_chain com). Notation tgt := (kc_target_chain com).
  Notation e0 := (as_designed cam tgt C0 T0 B0). Notation e := (result_estimate r).
  Hypotheses (Hc : rigid (base_offset cam)) (Ht : rigid (base_offset tgt)) (HC0 : rigid C0) (HT0 : rigid T0) (HB0 : rigid B0) (HR : rigid_estimate e).
  Definition same_at (joints : list (list R * list R)) : Prop := forall q, In q joints -> exists P, places cam tgt e0 q P /\ places cam tgt e q P.
  Lemma agree_of joints : plain_result com r -> same_at joints -> agree cam tgt joints e C0 T0 B0.
  Proof.
    intros [P1 P2] S qc qt Fc Ft I [E1 E2]. destruct (S _ I) as (P & (Fc1 & Ft1 & X1 & X2 & ->) & H2).
    apply (places_plain cam tgt e (qc, qt) _ P1 P2) in H2. destruct H2 as (Fc2 & Ft2 & Y1 & Y2 & EP). cbn in *.
    rewrite E1 in X1, Y1. rewrite E2 in X2, Y2. injection X1 as <-. injection X2 as <-. injection Y1 as <-. injection Y2 as <-. symmetry. exact EP.
  Qed.
  Lemma same_of joints q P : plain_result com r -> agree cam tgt joints e C0 T0 B0 -> In q joints -> places cam tgt e0 q P -> places cam tgt e q P.
  Proof.
    intros [P1 P2] A I (Fc & Ft & E1 & E2 & ->). destruct q as [qc qt]. apply (places_plain cam tgt e (qc, qt) _ P1 P2).
    exists Fc, Ft. split; [ exact E1 | split; [ exact E2 | ] ]. symmetry. apply (A qc qt Fc Ft I). split; assumption.
  Qed.
  Lemma estimate_all joints : plain_result com r -> same_at joints -> target_moves cam tgt joints -> camera_moves cam tgt joints -> same_estimate e e0.
  Proof.
    intros P S M1 M2. destruct (all_determined cam tgt joints Hc Ht e C0 T0 B0 HC0 HT0 HB0 HR (agree_of joints P S) M1 M2) as (E1 & E2 & E3).
    destruct P as [P1 P2]. split; [ exact E1 | split; [ exact E2 | split; [ exact E3 | split; assumption ] ] ].
  Qed.
  Lemma same_plain : same_estimate e e0 -> plain_result com r.
  Proof. intros (_ & _ & _ & A & B). split; assumption. Qed.
  Lemma same_places q P : same_estimate e e0 -> places cam tgt e0 q P -> places cam tgt e q P.
  Proof. intros S. apply (places_same cam tgt e e0 q P S); reflexivity. Qed.
  Lemma estimate_fixed joints chosen Fc : incl chosen joints -> plain_result com r -> same_at chosen -> target_moves cam tgt chosen -> camera_stays cam tgt joints Fc ->
    kr_target_mount_to_target r = T0 /\ base_in_camera Fc e = base_in_camera Fc e0.
  Proof.
    intros I P S M St. apply (fixed_determined cam tgt chosen Hc Ht e C0 T0 B0 HC0 HT0 HB0 HR Fc (agree_of chosen P S) M).
    intros qc qt J. apply St, I, J.
  Qed.
  Lemma stays_rigid joints Fc : joints <> [] -> camera_stays cam tgt joints Fc -> rigid Fc.
  Proof. destruct joints as [ | [qc qt] l ]; [ contradiction | ]. intros _ S. destruct (S qc qt (or_introl eq_refl)) as (Ft & [E1 _]). exact (fk_rigid _ _ _ _ Hc E1). Qed.
  Lemma fixed_places joints Fc q P : camera_stays cam tgt joints Fc -> plain_result com r -> kr_target_mount_to_target r = T0 ->
    base_in_camera Fc e = base_in_camera Fc e0 -> In q joints -> places cam tgt e0 q P -> places cam tgt e q P.
  Proof.
    intros St Pl ET EB I. apply (same_of joints q P Pl); [ | exact I ].
    apply (fixed_agree cam tgt joints e C0 T0 B0 Fc); [ apply (stays_rigid joints Fc); [ intros X; rewrite X in I; destruct I | exact St ] | exact St | exact ET | exact EB ].
  Qed.
End Estimate.

Lemma moves_nonempty com j : target_moves (kc_camera_chain com) (kc_target_chain com) j -> j <> [].
Proof.
  intros (Fc & Fts & TA & M) ->. destruct (some_motion Fts (fun W => W)) as (Ft & I); [ rewrite map_id; exact TA | ].
  destruct (M Ft I) as (? & ? & [] & _).
Qed.
(** ** Measured poses *)
Section Poses.
  Variables (u : nat -> nat -> R) (solve : kin_solver) (cov : cov_oracle) (params : kin_problemPose6D).
  Variables (w : R) (r : kin_result) (C0 T0 B0 : iso).
  Notation com := (k6_common params). Notation cam := (kc_camera_chain com). Notation tgt := (kc_target_chain com).
  Notation e0 := (as_designed cam tgt C0 T0 B0). Notation joints := (map measured_at (k6_observations params)).
  Hypotheses (HS : honest_kin solve) (HF : keeps_frozen solve) (HL : lists_blocks cov) (HM : masks_fit com).
  Hypotheses (Hc : rigid (base_offset cam)) (Ht : rigid (base_offset tgt)) (HC0 : rigid C0) (HT0 : rigid T0) (HB0 : rigid B0).
  Hypotheses (S0 : kc_camera_chain_offset_stdev com <> 0) (S1 : kc_target_chain_offset_stdev com <> 0) (Hw : w <> 0).
  Hypotheses (HE : kin_optimizePose6D u solve cov params w = Ok r).
  Hypotheses (HO : forall o, In o (k6_observations params) -> predicts cam tgt e0 o (km_camera_to_target o)).
  Lemma truth_rigid : rigid_estimate e0.
  Proof. split; [ exact HC0 | split; [ exact HT0 | exact HB0 ] ]. Qed.
  Lemma pose_zero : k6_observations params <> [] ->
    rigid_estimate (result_estimate r) /\
    (kr_final_cost_per_obs r = 0 <-> plain_result com r /\
     forall o, In o (k6_observations params) -> predicts cam tgt (result_estimate r) o (km_camera_to_target o)).
  Proof.
    intros NE. destruct (kin6_right cov params w HL HM) as (rs & p & RP & K).
    destruct (solve rs p (kin_memory0 com)) as [m s] eqn:Es. destruct (K u solve m s r Es HE) as (SE & _ & vs & Ev & _ & Ef).
    split; [ exact (result_rigid _ _ _ SE) | ].
    rewrite (result_zero com _ rs p (kin_memory0 com) m s r vs RP (HS _ _ _ _ _ Es (ex_intro _ vs Ev)) eq_refl (HF _ _ _ _ _ Es) S0 S1 SE Ev Ef).
    - apply and_iff_compat_l. split.
      + intros H o I. apply (places_same cam tgt _ _ (measured_at o) _ SE eq_refl eq_refl).
        apply (pose_exact w com); [ exact Hw | exact Hc | exact Ht | apply stored_rigid | | ].
        * exact (places_rigid cam tgt e0 (measured_at o) _ Hc Ht truth_rigid (HO o I)).
        * apply H, in_map, I.
      + intros H x Hx. apply in_map_iff in Hx as (o & <- & I).
        apply (pose_exact w com); [ exact Hw | exact Hc | exact Ht | apply stored_rigid | | ].
        * exact (places_rigid cam tgt e0 (measured_at o) _ Hc Ht truth_rigid (HO o I)).
        * apply (places_same cam tgt _ _ (measured_at o) _ SE eq_refl eq_refl). exact (H o I).
    - destruct (k6_observations params) as [ | o l ]; [ contradiction | ]. eexists. split; [ left; reflexivity | ].
      unfold pose_error. destruct (getFK cam _ _); cbn [bind]; try discriminate. destruct (getFK tgt _ _); cbn [bind]; discriminate.
  Qed.
  Lemma kin_pose_unique : target_moves cam tgt joints -> camera_moves cam tgt joints ->
    (kr_final_cost_per_obs r = 0 <-> same_estimate (result_estimate r) e0).
  Proof.
    intros M1 M2. destruct pose_zero as [RR ->]; [ intros X; apply (moves_nonempty com _ M1); rewrite X; reflexivity | ]. split.
    - intros [P H]. apply (estimate_all com r C0 T0 B0 Hc Ht HC0 HT0 HB0 RR joints P); [ | exact M1 | exact M2 ].
      intros q I. apply in_map_iff in I as (o & <- & I). exists (km_camera_to_target o). split; [ exact (HO o I) | exact (H o I) ].
    - intros S. split; [ exact (same_plain com r C0 T0 B0 S) | ]. intros o I. exact (same_places com r C0 T0 B0 (measured_at o) _ S (HO o I)).
  Qed.
  Lemma kin_pose_fixed Fc : target_moves cam tgt joints -> camera_stays cam tgt joints Fc ->
    (kr_final_cost_per_obs r = 0 <->
     plain_result com r /\ kr_target_mount_to_target r = T0 /\ base_in_camera Fc (result_estimate r) = base_in_camera Fc e0).
  Proof.
    intros M1 St. destruct pose_zero as [RR ->]; [ intros X; apply (moves_nonempty com _ M1); rewrite X; reflexivity | ]. split.
    - intros [P H]. split; [ exact P | ]. apply (estimate_fixed com r C0 T0 B0 Hc Ht HC0 HT0 HB0 RR joints joints Fc); [ intros x Hx; exact Hx | exact P | | exact M1 | exact St ].
      intros q I. apply in_map_iff in I as (o & <- & I). exists (km_camera_to_target o). split; [ exact (HO o I) | exact (H o I) ].
    - intros (P & ET & EB). split; [ exact P | ]. intros o I.
      exact (fixed_places com r C0 T0 B0 Hc joints Fc (measured_at o) _ St P ET EB (in_map measured_at _ _ I) (HO o I)).
  Qed.
End Poses.

(** ** Images *)
Lemma reproject_exact k com e o c : exact_values (reproject k com e (o, c)) <->
  exists P, places (kc_camera_chain com) (kc_target_chain com) e (observed_at o) P /\ projectPoint_eig k (iso_app P (in_target c)) = in_image c.
Proof.
  unfold reproject, exact_values, places. cbn [fst snd observed_at].
  destruct (getFK (kc_camera_chain com) _ _) as [ Fc | | ] eqn:E1; cbn [bind].
  2,3: split; [ intros (l & X & _); discriminate | intros (? & (? & ? & X & _) & _); discriminate ].
  destruct (getFK (kc_target_chain com) _ _) as [ Ft | | ] eqn:E2; cbn [bind].
  2,3: split; [ intros (l & X & _); discriminate | intros (? & (? & ? & _ & X & _) & _); discriminate ].
  set (P := kin_target_in_camera _ _ _ _ _). split.
  - intros (l & El & Z). injection El as <-. exists P. split; [ exists Fc, Ft; auto | ].
    set (q := projectPoint_eig _ _) in *.
    assert (Z1 : px q - px (in_image c) = 0) by (apply Z; left; reflexivity).
    assert (Z2 : py q - py (in_image c) = 0) by (apply Z; right; left; reflexivity).
    clearbody q. destruct q, (in_image c). cbn in *. f_equal; lra.
  - intros (P' & (Fc' & Ft' & X1 & X2 & EP) & EQ). injection X1 as <-. injection X2 as <-. fold P in EP. subst P'. eexists. split; [ reflexivity | ].
    rewrite EQ. intros x [ <- | [ <- | [] ] ]; ring.
Qed.
Section Images.
  Variables (u : nat -> nat -> R) (solve : kin_solver) (cov : cov_oracle) (params : kin_problem2D3D) (r : kin_result) (C0 T0 B0 : iso).
  Notation com := (k2_common params). Notation cam := (kc_camera_chain com). Notation tgt := (kc_target_chain com). Notation k := (k2_intr params).
  Notation e0 := (as_designed cam tgt C0 T0 B0). Notation joints := (map observed_at (k2_observations params)).
  Hypotheses (HS : honest_kin solve) (HF : keeps_frozen solve) (HL : lists_blocks cov) (HM : masks_fit com).
  Hypotheses (Hc : rigid (base_offset cam)) (Ht : rigid (base_offset tgt)) (HC0 : rigid C0) (HT0 : rigid T0) (HB0 : rigid B0).
  Hypotheses (S0 : kc_camera_chain_offset_stdev com <> 0) (S1 : kc_target_chain_offset_stdev com <> 0).
  Hypotheses (HE : kin_optimize2D3D u solve cov params = Ok r).
  Hypotheses (HO : forall o, In o (k2_observations params) -> exists P, places cam tgt e0 (observed_at o) P /\ perfect_image k P (ko_correspondence_set o)).
  Hypotheses (HP : forall o P, In o (k2_observations params) -> places cam tgt (result_estimate r) (observed_at o) P -> all_in_front P (ko_correspondence_set o)).
  Variable chosen : list (kin_observation vec2).
  Hypotheses (HI : incl chosen (k2_observations params)).
  Hypotheses (HU : forall o P, In o chosen -> places cam tgt e0 (observed_at o) P -> usable k P (ko_correspondence_set o)).
  Lemma pair_in o c : In o (k2_observations params) -> In c (ko_correspondence_set o) -> In (o, c) (kin_pairs (k2_observations params)).
  Proof. intros I J. apply in_flat_map. exists o. split; [ exact I | apply in_map, J ]. Qed.
  Lemma pair_of o c : In (o, c) (kin_pairs (k2_observations params)) -> In o (k2_observations params) /\ In c (ko_correspondence_set o).
  Proof. intros I. apply in_flat_map in I as (o' & I & J). apply in_map_iff in J as (c' & E & J). injection E as -> ->. split; assumption. Qed.
  Lemma places_fun e q P P' : places cam tgt e q P -> places cam tgt e q P' -> P = P'.
  Proof. intros (F1 & G1 & A1 & B1 & ->) (F2 & G2 & A2 & B2 & ->). rewrite A1 in A2. rewrite B1 in B2. injection A2 as <-. injection B2 as <-. reflexivity. Qed.
  Lemma image_zero : chosen <> [] ->
    rigid_estimate (result_estimate r) /\
    (kr_final_cost_per_obs r = 0 -> plain_result com r /\ same_at com r C0 T0 B0 (map observed_at chosen)) /\
    (plain_result com r -> (forall o P, In o (k2_observations params) -> places cam tgt e0 (observed_at o) P -> places cam tgt (result_estimate r) (observed_at o) P) ->
     kr_final_cost_per_obs r = 0).
  Proof.
    intros NE. destruct (kin2_right cov params HL HM) as (rs & p & RP & K).
    destruct (solve rs p (kin_memory0 com)) as [m s] eqn:Es. destruct (K u solve m s r Es HE) as (SE & _ & vs & Ev & _ & Ef).
    pose proof (result_rigid _ _ _ SE) as RR. split; [ exact RR | ].
    rewrite (result_zero com _ rs p (kin_memory0 com) m s r vs RP (HS _ _ _ _ _ Es (ex_intro _ vs Ev)) eq_refl (HF _ _ _ _ _ Es) S0 S1 SE Ev Ef).
    - assert (ST : forall o c, exact_values (reproject k com (stored_estimate com m) (o, c)) <->
        exists P, places cam tgt (result_estimate r) (observed_at o) P /\ projectPoint_eig k (iso_app P (in_target c)) = in_image c).
      { intros o c. rewrite reproject_exact. split; intros (P & A & B); exists P; (split; [ | exact B ]); apply (places_same cam tgt _ _ (observed_at o) _ SE eq_refl eq_refl); exact A. }
      split.
      + intros [P H]. split; [ exact P | ]. intros q I. apply in_map_iff in I as (o & <- & I). pose proof (HI o I) as IO.
        destruct (HO o IO) as (P0 & HP0 & PI). exists P0. split; [ exact HP0 | ]. destruct (HU o P0 I HP0) as (Fx & Fy & FF & NEd).
        assert (H' : forall c, In c (ko_correspondence_set o) -> exists P, places cam tgt (result_estimate r) (observed_at o) P /\ projectPoint_eig k (iso_app P (in_target c)) = in_image c).
        { intros c J. apply ST, H. apply (in_map (reproject k com (stored_estimate com m))). apply pair_in; assumption. }
        assert (X : exists c, In c (ko_correspondence_set o)).
        { destruct FF as (a & _ & _ & _ & Ia & _). apply in_map_iff in Ia as (c & _ & J). eauto. }
        destruct X as (c0 & J0). destruct (H' c0 J0) as (P1 & HP1 & _). replace P0 with P1; [ exact HP1 | ].
        apply (image_pose k P1 P0 (ko_correspondence_set o)); auto.
        * exact (places_rigid cam tgt _ (observed_at o) _ Hc Ht RR HP1).
        * refine (places_rigid cam tgt e0 (observed_at o) _ Hc Ht _ HP0). split; [ exact HC0 | split; [ exact HT0 | exact HB0 ] ].
        * intros c J. destruct (PI c J) as [F0 E0]. pose proof (HP o P1 IO HP1 c J) as F1. destruct (H' c J) as (P2 & HP2 & E2).
          rewrite (places_fun _ _ _ _ HP2 HP1) in E2. split; [ exact (front_pos _ F1) | split; [ exact (front_pos _ F0) | ] ].
          rewrite <- E0, <- E2. symmetry. apply eig_pinhole. exact F1.
      + intros P H. split; [ exact P | ]. intros x Hx. apply in_map_iff in Hx as ((o & c) & <- & I). apply pair_of in I as [IO J].
        apply ST. destruct (HO o IO) as (P0 & HP0 & PI). exists P0. split; [ apply H; assumption | ]. destruct (PI c J) as [F0 ->]. apply eig_pinhole, F0.
    - destruct chosen as [ | o l ] eqn:Ech; [ contradiction | ].
      assert (IO : In o (k2_observations params)) by (apply HI; left; reflexivity).
      destruct (HO o IO) as (P0 & HP0 & _). destruct (HU o P0 (or_introl eq_refl) HP0) as (_ & _ & (a & _ & _ & _ & Ia & _) & _).
      apply in_map_iff in Ia as (c & _ & J). exists (reproject k com (stored_estimate com (kin_memory0 com)) (o, c)). split.
      + apply (in_map (reproject k com (stored_estimate com (kin_memory0 com)))). apply pair_in; assumption.
      + unfold reproject. destruct (getFK cam _ _); cbn [bind]; try discriminate. destruct (getFK tgt _ _); cbn [bind]; discriminate.
  Qed.
  Notation picked := (map observed_at chosen).
  Lemma kin_image_unique : target_moves cam tgt picked -> camera_moves cam tgt picked ->
    (kr_final_cost_per_obs r = 0 <-> same_estimate (result_estimate r) e0).
  Proof.
    intros M1 M2. destruct image_zero as (RR & Z1 & Z2); [ intros X; apply (moves_nonempty com _ M1); rewrite X; reflexivity | ]. split.
    - intros Z. destruct (Z1 Z) as [P S]. exact (estimate_all com r C0 T0 B0 Hc Ht HC0 HT0 HB0 RR picked P S M1 M2).
    - intros S. apply Z2; [ exact (same_plain com r C0 T0 B0 S) | ]. intros o P _. exact (same_places com r C0 T0 B0 (observed_at o) P S).
  Qed.
  Lemma kin_image_fixed Fc : target_moves cam tgt picked -> camera_stays cam tgt joints Fc ->
    (kr_final_cost_per_obs r = 0 <->
     plain_result com r /\ kr_target_mount_to_target r = T0 /\ base_in_camera Fc (result_estimate r) = base_in_camera Fc e0).
  Proof.
    intros M1 St. destruct image_zero as (RR & Z1 & Z2); [ intros X; apply (moves_nonempty com _ M1); rewrite X; reflexivity | ]. split.
    - intros Z. destruct (Z1 Z) as [P S]. split; [ exact P | ].
      apply (estimate_fixed com r C0 T0 B0 Hc Ht HC0 HT0 HB0 RR joints picked Fc); [ | exact P | exact S | exact M1 | exact St ].
      intros q I. apply in_map_iff in I as (o & <- & I). apply in_map, HI, I.
    - intros (P & ET & EB). apply Z2; [ exact P | ]. intros o P0 I HP0.
      exact (fixed_places com r C0 T0 B0 Hc joints Fc (observed_at o) P0 St P ET EB (in_map observed_at _ _ I) HP0).
  Qed.
End Images.
