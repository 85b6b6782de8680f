(** compareToMeasurements of the kinematic calibration example. *)
From Coq Require Import Reals ZArith Lia Lra String List.
From Verif.Base Require Import Geom Outcome Matrix.
From Verif.Model Require Import DhChain Kinematic Accumulator KinematicExample.
From Verif.Spec Require Import DhSpec KinSpec KinReport KinExampleSpec StatSpec.
From Verif.Proofs Require Import GeomLemmas RotLemmas ListLemmas StatProofs DhProofs KinematicProofs.
Import ListNotations.
Local Open Scope R_scope.

Lemma reaches_fk c q o : (dof c <= rows o)%nat -> reaches c q -> exists F, getFK c q o = Ok F.
Proof. intros H [A B]. apply fk_ok_iff. split; [ exact A | split; [ lia | exact B ] ]. Qed.
Lemma baked_fk seeds c o : (dof c <= rows o)%nat -> exists c', bake_offsets seeds c o = Ok c' /\ forall q, getFK0 c' q = getFK c q o.
Proof. intros H. destruct (bake_ok seeds c o H) as (ts & E & _). eexists. split; [ exact E | ]. intros q. apply (bake_fk seeds _ _ _ _ E). Qed.

(** The distance does not depend on the frame. *)
Lemma diff_distance P M : rigid P -> norm (tr (iso_mul (iso_inv P) M)) = distance (tr P) (tr M).
Proof.
  intros H. unfold distance. rewrite <- (rigid_dist (iso_inv P) (tr P) (tr M)) by (apply rigid_inv, H).
  replace (iso_app (iso_inv P) (tr P)) with (tr (iso_mul (iso_inv P) P)) by reflexivity. rewrite (iso_inv_l P H).
  change (tr (iso_mul (iso_inv P) M)) with (iso_app (iso_inv P) (tr M)).
  unfold norm. f_equal. unfold dot, vsub. cbn [iso_id tr vzero vx vy vz]. ring.
Qed.
Lemma distance_zero a b : distance a b = 0 <-> a = b.
Proof.
  unfold distance. split.
  - intros H. apply norm_zero in H. pose proof (f_equal vx H). pose proof (f_equal vy H). pose proof (f_equal vz H).
    cbn in *. apply vec3_ext; lra.
  - intros ->. replace (vsub b b) with vzero by (apply vec3_ext; cbn; ring). apply norm_vzero.
Qed.
Lemma distance_nonneg a b : 0 <= distance a b.
Proof. apply norm_nonneg. Qed.

Section Compare.
  Variables (seeds1 seeds2 : nat -> nat) (cam tgt : dh_chain) (r : kin_result).
  Hypothesis Rc : rigid (base_offset cam).
  Hypothesis Rt : rigid (base_offset tgt).
  Hypothesis Re : rigid_estimate (result_estimate r).
  Hypothesis Dc : (dof cam <= rows (kr_camera_chain_dh_offsets r))%nat.
  Hypothesis Dt : (dof tgt <= rows (kr_target_chain_dh_offsets r))%nat.

  Definition predicted_at (o : kin_measurement) : res iso :=
    do Fc <- getFK cam (km_camera_chain_joints o) (kr_camera_chain_dh_offsets r);
    do Ft <- getFK tgt (km_target_chain_joints o) (kr_target_chain_dh_offsets r);
    Ok (kin_target_in_camera Fc (kr_camera_mount_to_camera r) (kr_camera_base_to_target_base r) Ft (kr_target_mount_to_target r)).
  Definition pair_at (o : kin_measurement) : res (R * R) :=
    do P <- predicted_at o;
    Ok (norm (tr (iso_mul (iso_inv P) (km_camera_to_target o))),
        angular_distance (quat_of_mat (lin P)) (quat_of_mat (lin (km_camera_to_target o)))).
  Definition push2 (a : accumulator * accumulator) (x : R * R) := (acc_push (fst a) (fst x), acc_push (snd a) (snd x)).
  Lemma foldM_push (step : accumulator * accumulator -> kin_measurement -> res (accumulator * accumulator)) ms :
    (forall a o, step a o = do x <- pair_at o; Ok (push2 a x)) ->
    forall a, foldM step ms a = do xs <- mapM pair_at ms; Ok (fold_left push2 xs a).
  Proof.
    intros H. induction ms as [ | o ms IH ]; intros a; [ reflexivity | ]. cbn [foldM mapM]. rewrite H.
    destruct (pair_at o) as [x | e | ]; cbn [bind]; [ | reflexivity | reflexivity ]. rewrite IH.
    destruct (mapM pair_at ms); reflexivity.
  Qed.
  Lemma push2_pairs xs a b : fold_left push2 xs (a, b) = (fold_left acc_push (map fst xs) a, fold_left acc_push (map snd xs) b).
  Proof. revert a b. induction xs as [ | [x y] xs IH ]; intros a b; cbn; [ reflexivity | apply IH ]. Qed.
  Lemma compare_eq ms : compareToMeasurements seeds1 seeds2 cam tgt r ms =
    do xs <- mapM pair_at ms;
    match xs with
    | [] => UB
    | _ => Ok (Stats (average (map fst xs)) (std_dev (map fst xs)) (average (map snd xs)) (std_dev (map snd xs)))
    end.
  Proof.
    unfold compareToMeasurements.
    destruct (baked_fk seeds1 cam _ Dc) as (c1 & -> & F1). cbn [bind].
    destruct (baked_fk seeds2 tgt _ Dt) as (c2 & -> & F2). cbn [bind].
    rewrite (foldM_push _ ms).
    - destruct (mapM pair_at ms) as [xs | e | ]; cbn [bind]; [ | reflexivity | reflexivity ].
      rewrite push2_pairs. fold (pushed (map fst xs)) (pushed (map snd xs)).
      destruct xs as [ | x xs ]; [ reflexivity | ].
      rewrite !pushed_mean by discriminate. cbn [bind]. rewrite !pushed_std by discriminate. reflexivity.
    - intros [a b] o. unfold pair_at, predicted_at. rewrite F1, F2.
      destruct (getFK cam _ _) as [Fc | e | ]; cbn [bind]; [ | reflexivity | reflexivity ].
      destruct (getFK tgt _ _) as [Ft | e | ]; cbn [bind]; [ | reflexivity | reflexivity ].
      unfold kin_target_in_camera, push2. cbn [fst snd]. rewrite iso_mul_assoc. reflexivity.
  Qed.
  Lemma predicted_spec o P : predicted_at o = Ok P <-> predicts cam tgt (result_estimate r) o P.
  Proof.
    unfold predicted_at, predicts. cbn [result_estimate ke_camera_offsets ke_target_offsets ke_camera_mount_to_camera ke_target_mount_to_target ke_camera_base_to_target_base].
    split.
    - destruct (getFK cam _ _) as [Fc | e | ]; cbn [bind]; [ | discriminate | discriminate ].
      destruct (getFK tgt _ _) as [Ft | e | ]; cbn [bind]; [ | discriminate | discriminate ].
      intros E. injection E as <-. exists Fc, Ft. auto.
    - intros (Fc & Ft & -> & -> & ->). reflexivity.
  Qed.
  Lemma predicted_rigid o P : predicted_at o = Ok P -> rigid P.
  Proof.
    intros H. apply predicted_spec in H as (Fc & Ft & E1 & E2 & ->). destruct Re as (R1 & R2 & R3).
    pose proof (fk_rigid _ _ _ _ Rc E1). pose proof (fk_rigid _ _ _ _ Rt E2). unfold kin_target_in_camera.
    repeat first [ apply rigid_mul | apply rigid_inv | assumption ].
  Qed.
  Lemma predicted_ok o : reaches cam (km_camera_chain_joints o) -> reaches tgt (km_target_chain_joints o) -> exists P, predicted_at o = Ok P.
  Proof.
    intros A B. unfold predicted_at. destruct (reaches_fk _ _ _ Dc A) as (Fc & ->), (reaches_fk _ _ _ Dt B) as (Ft & ->). cbn. eauto.
  Qed.
  Lemma predicts_unique o P P' : predicts cam tgt (result_estimate r) o P -> predicts cam tgt (result_estimate r) o P' -> P = P'.
  Proof. intros A B. apply predicted_spec in A, B. congruence. Qed.
  Lemma pair_errs o x : rigid (km_camera_to_target o) -> pair_at o = Ok x -> errs cam tgt (result_estimate r) o x.
  Proof.
    intros Ro H. unfold pair_at in H. destruct (predicted_at o) as [P | e | ] eqn:E; cbn [bind] in H; [ | discriminate | discriminate ].
    injection H as <-. exists P. split; [ apply predicted_spec, E | ]. cbn [fst snd].
    split; [ apply diff_distance, (predicted_rigid _ _ E) | ]. apply angular_distance_angle; [ apply (predicted_rigid _ _ E) | exact Ro ].
  Qed.
  Lemma pair_ok o : reaches cam (km_camera_chain_joints o) -> reaches tgt (km_target_chain_joints o) -> exists x, pair_at o = Ok x.
  Proof. intros A B. unfold pair_at. destruct (predicted_ok o A B) as (P & ->). cbn. eauto. Qed.
  Lemma errs_unique o x y : rigid (km_camera_to_target o) -> errs cam tgt (result_estimate r) o x -> errs cam tgt (result_estimate r) o y -> x = y.
  Proof.
    intros Ro (P & A & B & C) (P' & A' & B' & C'). rewrite (predicts_unique _ _ _ A' A) in *.
    destruct x, y. cbn [fst snd] in *. f_equal; [ congruence | ]. apply (angle_between_unique _ _ _ _ Ro C C').
  Qed.
  Lemma compare_ok ms : ms <> [] ->
    (forall o, In o ms -> rigid (km_camera_to_target o) /\ reaches cam (km_camera_chain_joints o) /\ reaches tgt (km_target_chain_joints o)) ->
    exists xs, Forall2 (errs cam tgt (result_estimate r)) ms xs /\
      compareToMeasurements seeds1 seeds2 cam tgt r ms =
      Ok (Stats (average (map fst xs)) (std_dev (map fst xs)) (average (map snd xs)) (std_dev (map snd xs))).
  Proof.
    intros N H. rewrite compare_eq.
    assert (M : exists xs, mapM pair_at ms = Ok xs /\ Forall2 (errs cam tgt (result_estimate r)) ms xs).
    { clear N. induction ms as [ | o ms IH ]; [ exists []; split; [ reflexivity | constructor ] | ].
      destruct (H o (or_introl eq_refl)) as (Ro & A & B). destruct (pair_ok o A B) as (x & E).
      destruct IH as (xs & E' & F); [ intros o' H'; apply H; right; exact H' | ].
      exists (x :: xs). cbn [mapM]. rewrite E, E'. split; [ reflexivity | constructor; [ apply pair_errs; assumption | exact F ] ]. }
    destruct M as (xs & -> & F). exists xs. split; [ exact F | ]. cbn [bind].
    destruct xs; [ inversion F; subst; congruence | reflexivity ].
  Qed.
  (** The statistics are those of the errors, whatever else is called errors. *)
  Lemma compare_value ms st : (forall o, In o ms -> rigid (km_camera_to_target o)) ->
    compareToMeasurements seeds1 seeds2 cam tgt r ms = Ok st ->
    exists xs, Forall2 (errs cam tgt (result_estimate r)) ms xs /\ ms <> [] /\
      st = Stats (average (map fst xs)) (std_dev (map fst xs)) (average (map snd xs)) (std_dev (map snd xs)).
  Proof.
    intros H. rewrite compare_eq. destruct (mapM pair_at ms) as [xs | e | ] eqn:E; cbn [bind]; [ | discriminate | discriminate ].
    intros S1. exists xs. assert (F : Forall2 (errs cam tgt (result_estimate r)) ms xs).
    { clear S1. revert xs E. induction ms as [ | o ms IH ]; intros xs E; cbn [mapM] in E; [ injection E as <-; constructor | ].
      destruct (pair_at o) as [x | | ] eqn:Ex; cbn [bind] in E; [ | discriminate | discriminate ].
      destruct (mapM pair_at ms) as [xs' | | ] eqn:Exs; cbn [bind] in E; [ | discriminate | discriminate ].
      injection E as <-. constructor; [ apply pair_errs; [ apply H; left; reflexivity | exact Ex ] | ].
      apply IH; [ intros o' H'; apply H; right; exact H' | reflexivity ]. }
    split; [ exact F | ]. destruct xs as [ | x xs ]; [ discriminate | ]. split; [ inversion F; discriminate | ]. injection S1 as <-. reflexivity.
  Qed.
  Lemma compare_fails ms : ms <> [] ->
    (exists o, In o ms /\ ~ (reaches cam (km_camera_chain_joints o) /\ reaches tgt (km_target_chain_joints o))) ->
    compareToMeasurements seeds1 seeds2 cam tgt r ms = Throw RuntimeError.
  Proof.
    intros N (o & Ho & Hr). rewrite compare_eq.
    assert (FK : forall c q o, (dof c <= rows o)%nat -> (reaches c q /\ exists F, getFK c q o = Ok F) \/ (~ reaches c q /\ getFK c q o = Throw RuntimeError)).
    { intros c q o' D. destruct (getFK c q o') as [F | e | ] eqn:E.
      - left. split; [ | eauto ]. destruct (proj1 (fk_ok_iff c q o')) as (A & B & C); [ eauto | ]. split; assumption.
      - right. assert (G : ~ exists F, getFK c q o' = Ok F) by (intros (F & G); congruence). split.
        + intros Rq. destruct (reaches_fk _ _ _ D Rq) as (F & G'). congruence.
        + rewrite <- E. destruct (fk_total c q o') as [(F & G') | G']; [ congruence | exact G' ].
      - exfalso. destruct (fk_total c q o') as [(F & G') | G']; congruence. }
    assert (P : forall o, (exists x, pair_at o = Ok x) \/ pair_at o = Throw RuntimeError).
    { intros o'. unfold pair_at, predicted_at. destruct (FK cam (km_camera_chain_joints o') _ Dc) as [[_ (Fc & ->)] | [_ ->]]; cbn [bind]; [ | auto ].
      destruct (FK tgt (km_target_chain_joints o') _ Dt) as [[_ (Ft & ->)] | [_ ->]]; cbn [bind]; eauto. }
    assert (Po : pair_at o = Throw RuntimeError).
    { unfold pair_at, predicted_at. destruct (FK cam (km_camera_chain_joints o) _ Dc) as [[A (Fc & ->)] | [_ ->]]; cbn [bind]; [ | reflexivity ].
      destruct (FK tgt (km_target_chain_joints o) _ Dt) as [[B (Ft & ->)] | [_ ->]]; cbn [bind]; [ tauto | reflexivity ]. }
    assert (M : mapM pair_at ms = Throw RuntimeError).
    { clear N. induction ms as [ | o' ms IH ]; [ destruct Ho | ]. cbn [mapM]. destruct Ho as [-> | Ho]; [ rewrite Po; reflexivity | ].
      destruct (P o') as [(x & ->) | ->]; cbn [bind]; [ | reflexivity ]. rewrite (IH Ho). reflexivity. }
    rewrite M. reflexivity.
  Qed.
  Lemma compare_empty : compareToMeasurements seeds1 seeds2 cam tgt r [] = UB.
  Proof. rewrite compare_eq. reflexivity. Qed.
  Lemma average_zero l : l <> [] -> (forall x, In x l -> 0 <= x) -> (average l = 0 <-> forall x, In x l -> x = 0).
  Proof.
    intros N H. assert (P : 0 < INR (List.length l)) by (apply lt_0_INR; destruct l; [ congruence | cbn; lia ]).
    assert (T : average l = 0 <-> total l = 0).
    { unfold average, Rdiv. split; [ intros E; apply Rmult_integral in E as [E | E]; [ exact E | ] | intros ->; ring ].
      apply Rinv_neq_0_compat in E; [ destruct E | lra ]. }
    rewrite T. clear T P N. assert (G : 0 <= total l /\ (total l = 0 <-> forall x, In x l -> x = 0)); [ | exact (proj2 G) ].
    induction l as [ | a l IH ]; [ cbn; split; [ lra | split; [ intros _ x [] | reflexivity ] ] | ].
    destruct IH as [I J]; [ intros x Hx; apply H; right; exact Hx | ]. pose proof (H a (or_introl eq_refl)).
    unfold total in *. cbn [fold_right]. split; [ lra | split ].
    - intros E x [<- | Hx]; [ lra | ]. apply J; [ lra | exact Hx ].
    - intros E. rewrite (E a (or_introl eq_refl)). rewrite (proj2 J); [ lra | ]. intros x Hx. apply E. right. exact Hx.
  Qed.
  Lemma compare_zero ms st : (forall o, In o ms -> rigid (km_camera_to_target o)) ->
    compareToMeasurements seeds1 seeds2 cam tgt r ms = Ok st ->
    (pos_mean st = 0 /\ rot_mean st = 0 <-> forall o, In o ms -> predicts cam tgt (result_estimate r) o (km_camera_to_target o)).
  Proof.
    intros H E. destruct (compare_value ms st H E) as (xs & F & N & ->). cbn [pos_mean rot_mean].
    assert (Nx : forall A (f : R * R -> A), map f xs <> []) by (intros A f; destruct xs; [ inversion F; subst; congruence | discriminate ]).
    assert (Rp : forall o P, predicts cam tgt (result_estimate r) o P -> rigid P) by (intros o P HP; apply (predicted_rigid o), predicted_spec, HP).
    assert (Z : forall o x, rigid (km_camera_to_target o) -> errs cam tgt (result_estimate r) o x ->
      0 <= fst x /\ 0 <= snd x /\ (fst x = 0 /\ snd x = 0 <-> predicts cam tgt (result_estimate r) o (km_camera_to_target o))).
    { intros o x Ro (P & A & B & C). split; [ rewrite B; apply distance_nonneg | ]. split; [ apply C | ]. split.
      - intros [Z1 Z2]. rewrite Z1 in B. symmetry in B. apply distance_zero in B. rewrite Z2 in C.
        destruct C as (_ & u & _ & C). rewrite aa_matrix_0, mmul_I_l in C.
        replace (km_camera_to_target o) with P; [ exact A | apply iso_ext; [ exact C | exact B ] ].
      - intros A'. rewrite <- (predicts_unique _ _ _ A A') in *. split; [ rewrite B; apply distance_zero; reflexivity | ].
        apply (angle_between_unique _ _ _ _ Ro C), angle_between_self. }
    assert (Z' : forall x, In x xs -> 0 <= fst x /\ 0 <= snd x).
    { clear E N Nx. induction F as [ | o x ms xs A B IH ]; intros y Hy; [ destruct Hy | ].
      destruct Hy as [<- | Hy]; [ destruct (Z o x) as (Q1 & Q2 & _); [ apply H; left; reflexivity | exact A | auto ] | ].
      apply IH; [ intros o' Ho'; apply H; right; exact Ho' | exact Hy ]. }
    rewrite (average_zero (map fst xs)), (average_zero (map snd xs));
      [ | apply Nx | intros x Hx; apply in_map_iff in Hx as (y & <- & Hy); apply Z', Hy
        | apply Nx | intros x Hx; apply in_map_iff in Hx as (y & <- & Hy); apply Z', Hy ].
    clear E N Nx Z'. induction F as [ | o x ms xs A B IH ].
    - split; [ intros _ o [] | intros _; split; intros x [] ].
    - destruct IH as [I1 I2]; [ intros o' Ho'; apply H; right; exact Ho' | ]. destruct (Z o x (H o (or_introl eq_refl)) A) as (_ & _ & Zo). split.
      + intros [Q1 Q2] o' [<- | Ho'].
        * apply Zo. split; [ apply Q1 | apply Q2 ]; left; reflexivity.
        * apply I1; [ split; intros y Hy; [ apply Q1 | apply Q2 ]; right; exact Hy | exact Ho' ].
      + intros Q0. destruct (proj2 Zo (Q0 o (or_introl eq_refl))) as [Z1 Z2]. destruct I2 as [J1 J2]; [ intros o' Ho'; apply Q0; right; exact Ho' | ].
        split; intros y [<- | Hy]; auto.
  Qed.
End Compare.
