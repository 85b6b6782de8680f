(** Which motions of the wrist determine static cameras and the target on the wrist. *)
From Coq Require Import Reals Lra Psatz Arith Lia List.
From Verif.Base Require Import Geom Outcome Matrix.
From Verif.Model Require Import Pose Covariance Solver HandEye BlockSolver MultiCamera.
From Verif.Spec Require Import PinHole Frames HomographySpec PnpSpec MultiSpec UniqueSpec DeterminedSpec.
From Verif.Proofs Require Import GeomLemmas RotLemmas AngleAxisLemmas PoseProofs ListLemmas CovarianceProofs HandEyeProofs PnpProofs
  MultiCameraProofs UniqueLemmas UniqueProofs UniqueMulti DeterminedProofs.
Import ListNotations.
Local Open Scope R_scope.

Lemma static_poses u solve cov p r C0 Z0 :
  let n := List.length (sp_base_to_camera_guess p) in
  let k c := nth c (sp_intr p) intr0 in
  let wrist c i := nth i (nth c (sp_wrist_poses p) []) iso_id in
  let images c := List.length (nth c (sp_wrist_poses p) []) in
  let image c i := nth i (nth c (sp_image_observations p) []) [] in
  let seen C Z c i := iso_mul (iso_inv (C c)) (iso_mul (wrist c i) Z) in
  let found c := nth c (sr_base_to_camera r) iso_id in
  honest_blocks solve -> optimizeStatic u solve cov p = Ok r -> static_sizes p -> plain_wrists p ->
  (forall c, (c < n)%nat -> rigid (C0 c)) -> rigid Z0 ->
  (forall T, In T (sr_base_to_camera r) -> rigid T) -> rigid (sr_wrist_to_target r) ->
  (forall c i, (c < n)%nat -> (i < images c)%nat ->
     perfect_image (k c) (seen C0 Z0 c i) (image c i) /\
     all_in_front (seen found (sr_wrist_to_target r) c i) (image c i)) ->
  (forall c i, (c < n)%nat -> (i < images c)%nat -> usable (k c) (seen C0 Z0 c i) (image c i)) ->
  (exists c i, (c < n)%nat /\ (i < images c)%nat) ->
  (sr_final_cost_per_obs r = 0 <->
   forall c i, (c < n)%nat -> (i < images c)%nat -> seen found (sr_wrist_to_target r) c i = seen C0 Z0 c i).
Proof.
  intros n k wrist images image seen found Ho E Sz PW RC0 RZ0 RC RZ D Us (c0 & i0 & Hc0 & Hi0).
  destruct (static_right p Sz PW) as (blocks & Ev & Res).
  destruct (Res u solve cov r E) as (m & s & Es & _ & Hz & Hl & Hcam & _ & Hf). fold n in Ev, Hz, Hl.
  assert (FD : forall c, (c < n)%nat -> found c = iso_inv (poseCalToEigen (read_pose m c)) /\ rigid (found c)).
  { intros c Hc. unfold found. rewrite <- Hl in Hc. split; [ | apply RC, nth_In, Hc ].
    apply Hcam. apply nth_error_nth'. exact Hc. }
  assert (RM : forall c, (c < n)%nat -> rigid (poseCalToEigen (read_pose m c))).
  { intros c Hc. apply rigid_of_inv. destruct (FD c Hc) as [<- R]. exact R. }
  specialize (Ev m RM).
  assert (Ev' : map (fun b => rb_eval b m) blocks = map (static_error p found (sr_wrist_to_target r)) (static_views p)).
  { rewrite Ev. apply map_ext_in. intros [[c i] x] Hv. apply in_static_views in Hv as (Hc & _). unfold static_error.
    rewrite Hz. destruct (FD c Hc) as [-> _]. reflexivity. }
  assert (RW : forall c i, (i < images c)%nat -> rigid (wrist c i)).
  { intros c i Hi. apply plain_rigid, (PW c), nth_In, Hi. }
  rewrite Hf, per_obs_zero.
  2:{ destruct (usable_nonempty _ _ _ (Us c0 i0 Hc0 Hi0)) as [x Hx].
      assert (L : List.length (static_views p) <> 0%nat) by exact (nonempty_in _ _ (proj2 (in_static_views p c0 i0 x) (conj Hc0 (conj Hi0 Hx)))). lia. }
  rewrite (blocks_zero _ _ _ _ _ _ _ Ho Es Ev'). split.
  - intros Z c i Hc Hi. destruct (D c i Hc Hi) as [PI AF]. destruct (FD c Hc) as [_ RF].
    apply (usable_same (k c) _ _ (image c i)); auto.
    + apply rigid_mul; [ apply rigid_inv, RF | apply rigid_mul; auto ].
    + apply rigid_mul; [ apply rigid_inv; auto | apply rigid_mul; auto ].
    + intros x Hx. apply (Z (c, i, x)). apply in_static_views. auto.
  - intros EQ [[c i] x] Hv. apply in_static_views in Hv as (Hc & Hi & Hx). destruct (D c i Hc Hi) as [PI _].
    unfold static_error. fold (wrist c i) (image c i) (k c). fold (seen found (sr_wrist_to_target r) c i).
    rewrite (EQ c i Hc Hi). apply (perfect_zero _ _ _ _ PI Hx).
Qed.

Section Views.
  Variables (n : nat) (images : nat -> nat) (wrist : nat -> nat -> iso).
  Hypothesis RW : forall c i, (c < n)%nat -> (i < images c)%nat -> rigid (wrist c i).
  Let seen (C : nat -> iso) (Z : iso) c i := iso_mul (iso_inv (C c)) (iso_mul (wrist c i) Z).

  Lemma in_wrist_motions A : In A (wrist_motions n images wrist) <->
    exists c i j, (c < n)%nat /\ (i < images c)%nat /\ (j < images c)%nat /\ A = iso_mul (iso_inv (wrist c i)) (wrist c j).
  Proof.
    unfold wrist_motions. rewrite in_flat_map. split.
    - intros (c & Hc & H). apply in_flat_map in H as (i & Hi & H). apply in_map_iff in H as (j & <- & Hj).
      apply in_seq in Hc. apply in_seq in Hi. apply in_seq in Hj. exists c, i, j. repeat split; lia.
    - intros (c & i & j & Hc & Hi & Hj & ->). exists c. split; [ apply in_seq; lia | ]. apply in_flat_map. exists i. split; [ apply in_seq; lia | ].
      apply in_map_iff. exists j. split; [ reflexivity | apply in_seq; lia ].
  Qed.
  Lemma wrist_motions_rigid A : In A (wrist_motions n images wrist) -> rigid A.
  Proof. intros H. apply in_wrist_motions in H as (c & i & j & Hc & Hi & Hj & ->). apply rigid_mul; [ apply rigid_inv | ]; auto. Qed.

  Lemma static_views_alternative C Z C0 Z0 : (forall c, (c < n)%nat -> rigid (C c)) -> rigid Z ->
    (forall c, (c < n)%nat -> rigid (C0 c)) -> rigid Z0 ->
    (forall c i, (c < n)%nat -> (i < images c)%nat -> seen C Z c i = seen C0 Z0 c i) <->
    static_alternative n images wrist C0 Z0 C Z.
  Proof.
    intros RC RZ RC0 RZ0. split.
    - intros E. set (H := iso_mul Z (iso_inv Z0)).
      assert (RH : rigid H) by (apply rigid_mul; [ exact RZ | apply rigid_inv, RZ0 ]).
      assert (EZ : Z = iso_mul H Z0) by (unfold H; rewrite iso_mul_assoc, iso_inv_l, iso_mul_id_r by exact RZ0; reflexivity).
      exists H. split; [ exact RH | split; [ exact EZ | ] ]. intros c i Hc Hi.
      pose proof (E c i Hc Hi) as Q. unfold seen in Q. pose proof (RW c i Hc Hi) as R1. pose proof (RC c Hc) as R2. pose proof (RC0 c Hc) as R3.
      (* C^-1 W H Z0 = C0^-1 W Z0, so W H = C C0^-1 W *)
      assert (Q2 : iso_mul (iso_inv (C c)) (iso_mul (wrist c i) H) = iso_mul (iso_inv (C0 c)) (wrist c i)).
      { apply (cancel_r Z0 _ _ RZ0). rewrite !iso_mul_assoc, <- EZ. exact Q. }
      apply (f_equal (fun T => iso_mul (C c) (iso_mul T (iso_mul (iso_inv (wrist c i)) (C0 c))))) in Q2.
      rewrite !iso_mul_assoc in Q2. rewrite <- (iso_mul_assoc (wrist c i) (iso_inv _)), iso_inv_r, iso_mul_id_l, iso_inv_l, iso_mul_id_r in Q2 by assumption.
      rewrite <- Q2. rewrite <- (iso_mul_assoc (C c)), iso_inv_r, iso_mul_id_l by exact R2. reflexivity.
    - intros (H & RH & -> & F) c i Hc Hi. unfold seen. pose proof (RW c i Hc Hi) as R1. pose proof (RC0 c Hc) as R3. rewrite (F c i Hc Hi).
      assert (RI : rigid (iso_inv (wrist c i))) by (apply rigid_inv, R1).
      rewrite (iso_inv_mul (wrist c i)) by exact R1. rewrite (iso_inv_mul H) by exact RH. rewrite (iso_inv_mul (iso_inv (wrist c i))) by exact RI.
      rewrite (iso_inv_inv (wrist c i)) by exact R1. rewrite !iso_mul_assoc.
      rewrite <- (iso_mul_assoc (iso_inv (wrist c i)) (wrist c i)), (iso_inv_l (wrist c i)), iso_mul_id_l by exact R1.
      rewrite <- (iso_mul_assoc (iso_inv H) H), (iso_inv_l H), iso_mul_id_l by exact RH. reflexivity.
  Qed.
  Lemma static_alternative_only C0 Z0 : (forall c, (c < n)%nat -> rigid (C0 c)) -> rigid Z0 ->
    (forall c, (c < n)%nat -> (0 < images c)%nat) -> (exists c, (c < n)%nat) ->
    tell_all (wrist_motions n images wrist) ->
    forall C Z, static_alternative n images wrist C0 Z0 C Z <-> (forall c, (c < n)%nat -> C c = C0 c) /\ Z = Z0.
  Proof.
    intros RC0 RZ0 NI (c1 & Hc1) TA C Z. split.
    - intros (H & RH & EZ & F).
      assert (HI : H = iso_id).
      { apply (proj1 (tell_all_iff _ wrist_motions_rigid) TA H RH). intros A HA. apply in_wrist_motions in HA as (c & i & j & Hc & Hi & Hj & ->).
        pose proof (F c i Hc Hi) as E1. pose proof (F c j Hc Hj) as E2. rewrite E2 in E1.
        pose proof (RW c i Hc Hi) as R1. pose proof (RW c j Hc Hj) as R2. pose proof (RC0 c Hc) as R3.
        (* Wj H Wj^-1 = Wi H Wi^-1 *)
        assert (E3 : iso_mul (wrist c j) (iso_mul H (iso_inv (wrist c j))) = iso_mul (wrist c i) (iso_mul H (iso_inv (wrist c i)))).
        { apply (cancel_r (C0 c) _ _ R3). rewrite !iso_mul_assoc. exact E1. }
        apply (f_equal (fun T => iso_mul (iso_inv (wrist c i)) (iso_mul T (wrist c j)))) in E3. rewrite !iso_mul_assoc in E3.
        rewrite iso_inv_l, iso_mul_id_r in E3 by exact R2.
        rewrite <- (iso_mul_assoc (iso_inv (wrist c i)) (wrist c i)), iso_inv_l, iso_mul_id_l in E3 by exact R1.
        rewrite iso_mul_assoc. symmetry. exact E3. }
      rewrite HI, iso_mul_id_l in EZ. split; [ | exact EZ ]. intros c Hc. rewrite (F c 0%nat Hc (NI c Hc)), HI, iso_mul_id_l.
      rewrite <- iso_mul_assoc, iso_inv_r, iso_mul_id_l by (apply RW; auto). reflexivity.
    - intros [EC ->]. exists iso_id. split; [ exact rigid_id | split; [ rewrite iso_mul_id_l; reflexivity | ] ].
      intros c i Hc Hi. rewrite iso_mul_id_l, <- iso_mul_assoc, iso_inv_r, iso_mul_id_l by (apply RW; auto). apply EC, Hc.
  Qed.
  Lemma static_another C0 Z0 : (forall c, (c < n)%nat -> rigid (C0 c)) -> rigid Z0 ->
    leave_a_direction (wrist_motions n images wrist) \/ keep_a_line (wrist_motions n images wrist) ->
    exists C Z, (forall c, (c < n)%nat -> rigid (C c)) /\ rigid Z /\ Z <> Z0 /\
      forall c i, (c < n)%nat -> (i < images c)%nat ->
        iso_mul (iso_inv (C c)) (iso_mul (wrist c i) Z) = iso_mul (iso_inv (C0 c)) (iso_mul (wrist c i) Z0).
  Proof.
    intros RC0 RZ0 L. destruct (not_told _ wrist_motions_rigid L) as (H & RH & CM & N).
    set (C c := if Nat.ltb 0 (images c) then iso_mul (wrist c 0%nat) (iso_mul H (iso_mul (iso_inv (wrist c 0%nat)) (C0 c))) else C0 c).
    assert (RC : forall c, (c < n)%nat -> rigid (C c)).
    { intros c Hc. unfold C. destruct (Nat.ltb_spec 0 (images c)) as [ P | P ]; [ | auto ].
      repeat apply rigid_mul; auto. apply rigid_inv; auto. }
    assert (RZ : rigid (iso_mul H Z0)) by (apply rigid_mul; assumption).
    exists C, (iso_mul H Z0). split; [ exact RC | split; [ exact RZ | split ] ].
    - intros Q. apply N. apply (cancel_r Z0 _ _ RZ0). rewrite iso_mul_id_l. exact Q.
    - apply (static_views_alternative C (iso_mul H Z0) C0 Z0 RC RZ RC0 RZ0). exists H. split; [ exact RH | split; [ reflexivity | ] ].
      intros c i Hc Hi. unfold C. destruct (Nat.ltb_spec 0 (images c)) as [ P | P ]; [ | lia ].
      pose proof (RW c i Hc Hi) as R1. pose proof (RW c 0%nat Hc P) as R2.
      assert (IA : In (iso_mul (iso_inv (wrist c i)) (wrist c 0%nat)) (wrist_motions n images wrist)).
      { apply in_wrist_motions. exists c, i, 0%nat. auto. }
      pose proof (CM _ IA) as Q.
      (* H Wi^-1 W0 = Wi^-1 W0 H *)
      apply (f_equal (fun T => iso_mul (wrist c i) (iso_mul T (iso_mul (iso_inv (wrist c 0%nat)) (C0 c))))) in Q. rewrite !iso_mul_assoc in Q.
      rewrite <- (iso_mul_assoc (wrist c 0%nat) (iso_inv (wrist c 0%nat))), iso_inv_r, iso_mul_id_l in Q by exact R2.
      rewrite <- (iso_mul_assoc (wrist c i) (iso_inv (wrist c i)) (iso_mul (wrist c 0%nat) _)), iso_inv_r, iso_mul_id_l in Q by exact R1.
      symmetry. exact Q.
  Qed.
End Views.

Lemma static_alternatives u solve cov p r C0 Z0 :
  let n := List.length (sp_base_to_camera_guess p) in
  let k c := nth c (sp_intr p) intr0 in
  let wrist c i := nth i (nth c (sp_wrist_poses p) []) iso_id in
  let images c := List.length (nth c (sp_wrist_poses p) []) in
  let image c i := nth i (nth c (sp_image_observations p) []) [] in
  let seen C Z c i := iso_mul (iso_inv (C c)) (iso_mul (wrist c i) Z) in
  let found c := nth c (sr_base_to_camera r) iso_id in
  honest_blocks solve -> optimizeStatic u solve cov p = Ok r -> static_sizes p -> plain_wrists p ->
  (forall c, (c < n)%nat -> rigid (C0 c)) -> rigid Z0 ->
  (forall T, In T (sr_base_to_camera r) -> rigid T) -> rigid (sr_wrist_to_target r) ->
  (forall c i, (c < n)%nat -> (i < images c)%nat ->
     perfect_image (k c) (seen C0 Z0 c i) (image c i) /\
     all_in_front (seen found (sr_wrist_to_target r) c i) (image c i)) ->
  (forall c i, (c < n)%nat -> (i < images c)%nat -> usable (k c) (seen C0 Z0 c i) (image c i)) ->
  (exists c i, (c < n)%nat /\ (i < images c)%nat) ->
  (sr_final_cost_per_obs r = 0 <->
   static_alternative n images wrist C0 Z0 found (sr_wrist_to_target r)).
Proof.
  intros n k wrist images image seen found Ho E Sz PW RC0 RZ0 RC RZ D Us NE.
  rewrite (static_poses u solve cov p r C0 Z0 Ho E Sz PW RC0 RZ0 RC RZ D Us NE).
  refine (static_views_alternative n images wrist _ found (sr_wrist_to_target r) C0 Z0 _ RZ RC0 RZ0).
  - intros c i Hc Hi. apply plain_rigid, (PW c), nth_In, Hi.
  - intros c Hc. apply RC, nth_In. destruct (static_right p Sz PW) as (blocks & _ & Res).
    destruct (Res u solve cov r E) as (m & s & _ & _ & _ & Hl & _). rewrite Hl. exact Hc.
Qed.
Lemma static_told u solve cov p r C0 Z0 :
  let n := List.length (sp_base_to_camera_guess p) in
  let k c := nth c (sp_intr p) intr0 in
  let wrist c i := nth i (nth c (sp_wrist_poses p) []) iso_id in
  let images c := List.length (nth c (sp_wrist_poses p) []) in
  let image c i := nth i (nth c (sp_image_observations p) []) [] in
  let seen C Z c i := iso_mul (iso_inv (C c)) (iso_mul (wrist c i) Z) in
  let found c := nth c (sr_base_to_camera r) iso_id in
  honest_blocks solve -> optimizeStatic u solve cov p = Ok r -> static_sizes p -> plain_wrists p ->
  (forall c, (c < n)%nat -> rigid (C0 c)) -> rigid Z0 ->
  (forall T, In T (sr_base_to_camera r) -> rigid T) -> rigid (sr_wrist_to_target r) ->
  (forall c i, (c < n)%nat -> (i < images c)%nat ->
     perfect_image (k c) (seen C0 Z0 c i) (image c i) /\
     all_in_front (seen found (sr_wrist_to_target r) c i) (image c i)) ->
  (forall c i, (c < n)%nat -> (i < images c)%nat -> usable (k c) (seen C0 Z0 c i) (image c i)) ->
  (0 < n)%nat -> (forall c, (c < n)%nat -> (0 < images c)%nat) ->
  tell_all (wrist_motions n images wrist) ->
  (sr_final_cost_per_obs r = 0 <->
   sr_base_to_camera r = map C0 (seq 0 n) /\ sr_wrist_to_target r = Z0).
Proof.
  intros n k wrist images image seen found Ho E Sz PW RC0 RZ0 RC RZ D Us Pn Pi TA.
  rewrite (static_alternatives u solve cov p r C0 Z0 Ho E Sz PW RC0 RZ0 RC RZ D Us) by (exists 0%nat, 0%nat; split; [ exact Pn | exact (Pi 0%nat Pn) ]).
  fold n wrist images found.
  assert (RW : forall c i, (c < n)%nat -> (i < images c)%nat -> rigid (wrist c i)).
  { intros c i Hc Hi. apply plain_rigid, (PW c), nth_In, Hi. }
  rewrite (static_alternative_only n images wrist RW C0 Z0 RC0 RZ0 Pi (ex_intro _ 0%nat Pn) TA).
  assert (Hl : List.length (sr_base_to_camera r) = n).
  { destruct (static_right p Sz PW) as (blocks & _ & Res). destruct (Res u solve cov r E) as (m & s & _ & _ & _ & Hl & _). exact Hl. }
  split; intros [EC EZ]; (split; [ | exact EZ ]).
  - apply (list_by_nth _ _ _ iso_id Hl). exact EC.
  - intros c Hc. unfold found. rewrite EC. apply nth_map_seq', Hc.
Qed.
