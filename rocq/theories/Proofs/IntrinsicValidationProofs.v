(** Proofs about the virtual targets and the accuracy of camera intrinsics. *)
From Coq Require Import Reals Lra Lia Arith String List.
From Verif.Base Require Import Geom Outcome Matrix.
From Verif.Model Require Import Pose Covariance Solver HandEye Pnp Accumulator IntrinsicValidation.
From Verif.Spec Require Import Frames KinSpec StatSpec ValidationSpec.
From Verif.Proofs Require Import GeomLemmas ListLemmas KinematicProofs PnpProofs IntrinsicProofs HandEyeProofs StatProofs ProjectionProofs.
Import ListNotations.
Local Open Scope R_scope.

(** ** One fit *)
Lemma solve_pnp_cases run k g t cs :
  (exists r, fitted run k g cs r /\ good_fit t r /\ solve_pnp run k g t cs = Ok (pnp_camera_to_target r)) \/
  (exists r, fitted run k g cs r /\ ~ good_fit t r /\ solve_pnp run k g t cs = Throw RuntimeError) \/
  (exists e, optimizePnP (run_u run) (run_solve run) (run_cov run) (PnP2 k cs g "camera_to_target") = Throw e /\
             solve_pnp run k g t cs = Throw e) \/
  (optimizePnP (run_u run) (run_solve run) (run_cov run) (PnP2 k cs g "camera_to_target") = UB /\ solve_pnp run k g t cs = UB).
Proof.
  unfold solve_pnp, fitted, good_fit, default_pnp_label.
  destruct (optimizePnP _ _ _ _) as [r | e | ]; cbn [bind].
  - destruct (pnp_converged r) eqn:C; cbn [negb orb]; [ destruct (Rlt_dec t (pnp_final_cost_per_obs r)) as [L | L] | ].
    + right. left. exists r. repeat split. intros [_ H]. lra.
    + left. exists r. repeat split; [ exact C | lra ].
    + right. left. exists r. repeat split. intros [H _]. congruence.
  - right. right. left. exists e. split; reflexivity.
  - right. right. right. split; reflexivity.
Qed.
Lemma fitted_fun run k g cs r r' : fitted run k g cs r -> fitted run k g cs r' -> r = r'.
Proof. unfold fitted. congruence. Qed.

(** ** C27 *)
Definition half1 {A} (cs : list A) := firstn (List.length cs / 2) cs.
Definition half2 {A} (cs : list A) := skipn (List.length cs / 2) cs.
Lemma half_length1 {A} (cs : list A) : List.length (half1 cs) = (List.length cs / 2)%nat.
Proof. unfold half1. rewrite firstn_length. apply Nat.min_l. apply Nat.div_le_upper_bound; lia. Qed.
Lemma half_length2 {A} (cs : list A) : List.length (half2 cs) = (List.length cs - List.length cs / 2)%nat.
Proof. unfold half2. apply skipn_length. Qed.
Lemma halves {A} (cs : list A) : half1 cs ++ half2 cs = cs.
Proof. apply firstn_skipn. Qed.
Lemma fit_rigid run k g cs r : fitted run k g cs r -> rigid (pnp_camera_to_target r).
Proof.
  intros H. destruct (pnp_result2 (PnP2 k cs g "camera_to_target")) as (b & _ & X). exact (proj1 (X _ _ _ _ H)).
Qed.
Lemma vec_zero_translation S T : rigid S -> rigid T ->
  norm (tr (iso_mul (iso_inv S) T)) = 0 -> lin S = lin T -> S = T.
Proof.
  intros RS RT N L. apply norm_zero in N.
  assert (I : iso_mul (iso_inv S) T = iso_id).
  { apply iso_ext; [ cbn [lin iso_mul iso_inv iso_id]; rewrite <- L; exact (proj1 RS) | exact N ]. }
  rewrite <- (iso_mul_id_r S), <- I, <- iso_mul_assoc, iso_inv_r by exact RS. rewrite iso_mul_id_l. reflexivity.
Qed.
Lemma virtual_result_spec r1 r2 cs k g t v : measureVirtualTargetDiff r1 r2 cs k g t = Ok v ->
  exists set_1 set_2 p1 p2,
    set_1 ++ set_2 = cs /\ List.length set_1 = (List.length cs / 2)%nat /\
    fitted r1 k g set_1 p1 /\ good_fit t p1 /\ fitted r2 k g set_2 p2 /\ good_fit t p2 /\
    let T1 := pnp_camera_to_target p1 in let T2 := pnp_camera_to_target p2 in
    rigid T1 /\ rigid T2 /\
    vr_t1_to_t2 v = iso_mul (iso_inv T1) T2 /\
    vr_positional_error v = norm (tr (vr_t1_to_t2 v)) /\
    angle_between (lin T1) (lin T2) (vr_angular_error v) /\
    (vr_positional_error v = 0 /\ vr_angular_error v = 0 <-> T1 = T2).
Proof.
  unfold measureVirtualTargetDiff. cbv zeta. fold (half1 cs). fold (half2 cs). intros E.
  destruct (solve_pnp_cases r1 k g t (half1 cs)) as [(p1 & F1 & G1 & E1) | [(p1 & F1 & G1 & E1) | [(e & F1 & E1) | (F1 & E1)]]];
    rewrite E1 in E; cbn [bind] in E; try discriminate.
  destruct (solve_pnp_cases r2 k g t (half2 cs)) as [(p2 & F2 & G2 & E2) | [(p2 & F2 & G2 & E2) | [(e & F2 & E2) | (F2 & E2)]]];
    rewrite E2 in E; cbn [bind] in E; try discriminate.
  injection E as <-. exists (half1 cs), (half2 cs), p1, p2. cbn [vr_t1_to_t2 vr_positional_error vr_angular_error].
  split; [ apply halves | ]. split; [ apply half_length1 | ].
  split; [ exact F1 | ]. split; [ exact G1 | ]. split; [ exact F2 | ]. split; [ exact G2 | ]. cbv zeta.
  pose proof (fit_rigid _ _ _ _ _ F1) as R1. pose proof (fit_rigid _ _ _ _ _ F2) as R2.
  split; [ exact R1 | ]. split; [ exact R2 | ]. split; [ reflexivity | ]. split; [ reflexivity | ].
  split; [ apply angular_distance_angle; assumption | ].
  split.
  - intros [P A]. apply angular_distance_zero in A; [ | assumption | assumption ]. apply vec_zero_translation; assumption.
  - intros Eq. rewrite <- Eq. split; [ rewrite vadd_neg_r; apply norm_vzero | apply angular_distance_zero; try assumption; reflexivity ].
Qed.
Lemma virtual_succeeds r1 r2 cs k g t : forall set_1 set_2 p1 p2,
  set_1 ++ set_2 = cs -> List.length set_1 = (List.length cs / 2)%nat ->
  fitted r1 k g set_1 p1 -> good_fit t p1 -> fitted r2 k g set_2 p2 -> good_fit t p2 ->
  exists v, measureVirtualTargetDiff r1 r2 cs k g t = Ok v.
Proof.
  intros s1 s2 p1 p2 Ea L F1 G1 F2 G2.
  assert (E1 : half1 cs = s1) by (unfold half1; rewrite <- L, <- Ea, firstn_app, firstn_all, Nat.sub_diag; cbn; apply app_nil_r).
  assert (E2 : half2 cs = s2) by (unfold half2; rewrite <- L, <- Ea, skipn_app, skipn_all, Nat.sub_diag; reflexivity).
  unfold measureVirtualTargetDiff. cbv zeta. fold (half1 cs). fold (half2 cs). rewrite E1, E2.
  destruct (solve_pnp_cases r1 k g t s1) as [(p & F & G & ->) | [(p & F & G & _) | [(e & F & _) | (F & _)]]]; cbn [bind];
    try (rewrite (fitted_fun _ _ _ _ _ _ F F1) in G; contradiction); try (unfold fitted in F1; congruence).
  destruct (solve_pnp_cases r2 k g t s2) as [(p' & F' & G' & ->) | [(p' & F' & G' & _) | [(e & F' & _) | (F' & _)]]]; cbn [bind];
    try (rewrite (fitted_fun _ _ _ _ _ _ F' F2) in G'; contradiction); try (unfold fitted in F2; congruence).
  eexists. reflexivity.
Qed.
Lemma virtual_throws_first r1 r2 cs k g t : forall set_1 set_2 p1,
  set_1 ++ set_2 = cs -> List.length set_1 = (List.length cs / 2)%nat ->
  fitted r1 k g set_1 p1 -> ~ good_fit t p1 -> measureVirtualTargetDiff r1 r2 cs k g t = Throw RuntimeError.
Proof.
  intros s1 s2 p1 Ea L F1 G1.
  assert (E1 : half1 cs = s1) by (unfold half1; rewrite <- L, <- Ea, firstn_app, firstn_all, Nat.sub_diag; cbn; apply app_nil_r).
  unfold measureVirtualTargetDiff. cbv zeta. fold (half1 cs). rewrite E1.
  destruct (solve_pnp_cases r1 k g t s1) as [(p & F & G & ->) | [(p & F & G & ->) | [(e & F & _) | (F & _)]]]; cbn [bind];
    try reflexivity; try (unfold fitted in F1; congruence).
Qed.
Lemma virtual_throws_second r1 r2 cs k g t : forall set_1 set_2 p1 p2,
  set_1 ++ set_2 = cs -> List.length set_1 = (List.length cs / 2)%nat ->
  fitted r1 k g set_1 p1 -> good_fit t p1 -> fitted r2 k g set_2 p2 -> ~ good_fit t p2 ->
  measureVirtualTargetDiff r1 r2 cs k g t = Throw RuntimeError.
Proof.
  intros s1 s2 p1 p2 Ea L F1 G1 F2 G2.
  assert (E1 : half1 cs = s1) by (unfold half1; rewrite <- L, <- Ea, firstn_app, firstn_all, Nat.sub_diag; cbn; apply app_nil_r).
  assert (E2 : half2 cs = s2) by (unfold half2; rewrite <- L, <- Ea, skipn_app, skipn_all, Nat.sub_diag; reflexivity).
  unfold measureVirtualTargetDiff. cbv zeta. fold (half1 cs). fold (half2 cs). rewrite E1, E2.
  destruct (solve_pnp_cases r1 k g t s1) as [(p & F & G & ->) | [(p & F & G & _) | [(e & F & _) | (F & _)]]]; cbn [bind];
    try (rewrite (fitted_fun _ _ _ _ _ _ F F1) in G; contradiction); try (unfold fitted in F1; congruence).
  destruct (solve_pnp_cases r2 k g t s2) as [(p' & F' & G' & _) | [(p' & F' & G' & ->) | [(e & F' & _) | (F' & _)]]]; cbn [bind];
    try reflexivity; try (unfold fitted in F2; congruence).
Qed.
Lemma half1_empty {A} (cs : list A) : (List.length cs < 2)%nat -> half1 cs = [].
Proof. destruct cs as [ | a [ | b cs] ]; cbn; [ reflexivity | reflexivity | lia ]. Qed.
Lemma virtual_too_few r1 r2 cs k g t : (List.length cs < 2)%nat -> measureVirtualTargetDiff r1 r2 cs k g t = UB.
Proof.
  intros L. unfold measureVirtualTargetDiff. cbv zeta. fold (half1 cs). rewrite half1_empty by exact L.
  unfold solve_pnp at 1. rewrite pnp_empty2 by reflexivity. reflexivity.
Qed.
Lemma solve_pnp_defined run k g t cs : cs <> [] ->
  (exists T, solve_pnp run k g t cs = Ok T) \/ exists e, solve_pnp run k g t cs = Throw e.
Proof.
  intros N. destruct (solve_pnp_cases run k g t cs) as [(p & F & G & E) | [(p & F & G & E) | [(e & F & E) | (F & E)]]]; eauto.
  exfalso. destruct (pnp_outcomes (run_u run) (run_solve run) (run_cov run) (PnP2 k cs g "camera_to_target") N) as [[r X] | [e X]]; congruence.
Qed.
Lemma virtual_defined r1 r2 cs k g t : (2 <= List.length cs)%nat ->
  (exists v, measureVirtualTargetDiff r1 r2 cs k g t = Ok v) \/ exists e, measureVirtualTargetDiff r1 r2 cs k g t = Throw e.
Proof.
  intros L. unfold measureVirtualTargetDiff. cbv zeta. fold (half1 cs). fold (half2 cs).
  pose proof (Nat.div_le_mono 2 (List.length cs) 2 ltac:(lia) L) as D1. change (2 / 2)%nat with 1%nat in D1.
  pose proof (Nat.div_lt (List.length cs) 2 ltac:(lia) ltac:(lia)) as D2.
  assert (N1 : half1 cs <> []) by (intros E; pose proof (half_length1 cs) as H; rewrite E in H; cbn [List.length] in H; lia).
  assert (N2 : half2 cs <> []) by (intros E; pose proof (half_length2 cs) as H; rewrite E in H; cbn [List.length] in H; lia).
  destruct (solve_pnp_defined r1 k g t _ N1) as [[T1 ->] | [e ->]]; cbn [bind]; [ | right; eauto ].
  destruct (solve_pnp_defined r2 k g t _ N2) as [[T2 ->] | [e ->]]; cbn [bind]; [ | right; eauto ].
  left. eexists. reflexivity.
Qed.

(** ** C28 *)
Lemma check_ok os : os <> [] ->
  (equal_sizes os /\ check_sizes os = Ok tt) \/ (~ equal_sizes os /\ check_sizes os = Throw OptimizationException).
Proof.
  intros N. unfold check_sizes. destruct os as [ | o0 os0]; [ congruence | ]. set (os := o0 :: os0). clear N.
  set (step := fun (_ : unit) i => _).
  assert (P : (1 <= List.length os)%nat) by (cbn; lia). set (n := (List.length os - 1)%nat).
  assert (S : forall i, (i < n)%nat ->
    step tt i = if Nat.eqb (List.length (correspondence_set (nth i os o0))) (List.length (correspondence_set (nth (i + 1) os o0)))
                then Ok tt else Throw OptimizationException).
  { intros i Hi. unfold step. rewrite (idx_ok os i o0) by lia. rewrite (idx_ok os (i + 1) o0) by lia. reflexivity. }
  assert (G : forall m a, (a + m <= n)%nat ->
    ((forall i, (a <= i < a + m)%nat -> List.length (correspondence_set (nth i os o0)) = List.length (correspondence_set (nth (i + 1) os o0))) /\
      foldM step (seq a m) tt = Ok tt) \/
    ((exists i, (a <= i < a + m)%nat /\ List.length (correspondence_set (nth i os o0)) <> List.length (correspondence_set (nth (i + 1) os o0))) /\
      foldM step (seq a m) tt = Throw OptimizationException)).
  { induction m as [ | m IH]; intros a Ha; cbn [seq foldM]; [ left; split; [ lia | reflexivity ] | ].
    rewrite S by lia. destruct (Nat.eqb_spec (List.length (correspondence_set (nth a os o0))) (List.length (correspondence_set (nth (a + 1) os o0)))) as [E | E]; cbn [bind].
    - destruct (IH (Datatypes.S a) ltac:(lia)) as [[H ->] | [(i & Hi & H) ->]].
      + left. split; [ | reflexivity ]. intros i Hi. destruct (Nat.eq_dec i a) as [-> | Ne]; [ exact E | apply H; lia ].
      + right. split; [ | reflexivity ]. exists i. split; [ lia | exact H ].
    - right. split; [ | reflexivity ]. exists a. split; [ lia | exact E ]. }
  destruct (G n 0%nat ltac:(lia)) as [[H E] | [(i & Hi & H) E]].
  - left. split; [ | exact E ].
    assert (A : forall i, (i <= n)%nat -> List.length (correspondence_set (nth i os o0)) = List.length (correspondence_set o0)).
    { induction i as [ | i IH]; intros Hi; [ reflexivity | ]. rewrite <- IH by lia. rewrite (H i) by lia. rewrite Nat.add_1_r. reflexivity. }
    intros o o' Ho Ho'. destruct (In_nth _ _ o0 Ho) as (i & Hi & <-). destruct (In_nth _ _ o0 Ho') as (j & Hj & <-).
    rewrite !A by lia. reflexivity.
  - right. split; [ | exact E ]. intros Q. apply H. apply Q; apply nth_In; lia.
Qed.
Lemma accuracy_empty runs k C T B t : measureIntrinsicCalibrationAccuracy runs [] k C T B t = UB.
Proof. reflexivity. Qed.
Lemma accuracy_sizes runs os k C T B t : os <> [] -> ~ equal_sizes os ->
  measureIntrinsicCalibrationAccuracy runs os k C T B t = Throw OptimizationException.
Proof.
  intros N S. unfold measureIntrinsicCalibrationAccuracy. destruct (check_ok os N) as [[X _] | [_ ->]]; [ contradiction | reflexivity ].
Qed.
Section Accuracy.
Variables (runs : nat -> pnp_run * pnp_run) (k : intrinsics) (C T B : iso) (t : R).
Let measure (i : nat) (o : observation vec2) : res virtual_result :=
  measureVirtualTargetDiff (fst (runs i)) (snd (runs i)) (correspondence_set o) k
    (target_in_camera C (to_camera_mount o) (iso_mul B (to_target_mount o)) T) t.
Let step := fun (st : nat * accumulator * accumulator) (obs : observation vec2) =>
      let '(i, pos_acc, ang_acc) := st in
      let camera_base_to_camera := iso_mul (to_camera_mount obs) C in
      let camera_base_to_target := iso_mul (iso_mul B (to_target_mount obs)) T in
      let camera_to_target := iso_mul (iso_inv camera_base_to_camera) camera_base_to_target in
      do res <- measureVirtualTargetDiff (fst (runs i)) (snd (runs i)) (correspondence_set obs) k camera_to_target t;
      Ok (S i, acc_push pos_acc (vr_positional_error res), acc_push ang_acc (vr_angular_error res)).
Lemma step_eq i pa aa o : step (i, pa, aa) o =
  (do r <- measure i o; Ok (S i, acc_push pa (vr_positional_error r), acc_push aa (vr_angular_error r))).
Proof. reflexivity. Qed.
Lemma accuracy_loop os : forall i pa aa st, foldM step os (i, pa, aa) = Ok st ->
  exists rs, List.length rs = List.length os /\
    (forall j o r, nth_error os j = Some o -> nth_error rs j = Some r -> measure (i + j) o = Ok r) /\
    st = ((i + List.length os)%nat, fold_left acc_push (map vr_positional_error rs) pa, fold_left acc_push (map vr_angular_error rs) aa).
Proof.
  induction os as [ | o os IH]; intros i pa aa st E; cbn [foldM] in E.
  - injection E as <-. exists []. split; [ reflexivity | ]. split; [ intros [ | j]; discriminate | ]. cbn. rewrite Nat.add_0_r. reflexivity.
  - rewrite step_eq in E. destruct (measure i o) as [r | | ] eqn:Em; cbn [bind] in E; try discriminate.
    destruct (IH _ _ _ _ E) as (rs & L & H & ->). exists (r :: rs). split; [ cbn; lia | ]. split.
    + intros [ | j] o' r' Ho Hr; cbn in Ho, Hr.
      * injection Ho as <-. injection Hr as <-. rewrite Nat.add_0_r. exact Em.
      * rewrite <- Nat.add_succ_comm. exact (H j o' r' Ho Hr).
    + cbn [List.length map fold_left]. rewrite <- Nat.add_succ_comm. reflexivity.
Qed.
Lemma accuracy_spec os r : measureIntrinsicCalibrationAccuracy runs os k C T B t = Ok r ->
  os <> [] /\ equal_sizes os /\
  exists vs, List.length vs = List.length os /\
    (forall i o v, nth_error os i = Some o -> nth_error vs i = Some v -> measure i o = Ok v) /\
    ar_pos_error r = (average (map vr_positional_error vs), std_dev (map vr_positional_error vs)) /\
    ar_ang_error r = (average (map vr_angular_error vs), std_dev (map vr_angular_error vs)).
Proof.
  intros E.
  assert (N : os <> []) by (intros ->; discriminate). split; [ exact N | ].
  unfold measureIntrinsicCalibrationAccuracy in E. destruct (check_ok os N) as [[S Ec] | [_ Ec]]; rewrite Ec in E; cbn [bind] in E; [ | discriminate ].
  split; [ exact S | ]. fold step in E. destruct (foldM step os _) as [st | | ] eqn:El; cbn [bind] in E; try discriminate.
  destruct (accuracy_loop _ _ _ _ _ El) as (vs & L & H & ->). exists vs. split; [ exact L | ]. split; [ exact H | ].
  fold (pushed (map vr_positional_error vs)) in E. fold (pushed (map vr_angular_error vs)) in E.
  assert (Nv : vs <> []) by (destruct vs; [ destruct os; [ congruence | discriminate ] | discriminate ]).
  assert (Np : map vr_positional_error vs <> []) by (destruct vs; [ congruence | discriminate ]).
  assert (Na : map vr_angular_error vs <> []) by (destruct vs; [ congruence | discriminate ]).
  rewrite !pushed_mean in E by assumption. cbn [bind] in E. injection E as <-. cbn [ar_pos_error ar_ang_error].
  rewrite !pushed_std by assumption. split; reflexivity.
Qed.
Lemma accuracy_defined os : os <> [] -> (forall o, In o os -> (2 <= List.length (correspondence_set o))%nat) ->
  (exists r, measureIntrinsicCalibrationAccuracy runs os k C T B t = Ok r) \/
  (exists e, measureIntrinsicCalibrationAccuracy runs os k C T B t = Throw e).
Proof.
  intros N H. unfold measureIntrinsicCalibrationAccuracy. destruct (check_ok os N) as [[S ->] | [_ ->]]; cbn [bind]; [ | right; eauto ].
  fold step.
  assert (D : forall l st, (forall o, In o l -> (2 <= List.length (correspondence_set o))%nat) ->
    (exists st', foldM step l st = Ok st') \/ exists e, foldM step l st = Throw e).
  { induction l as [ | o l IH]; intros [[i pa] aa] Hl; cbn [foldM]; [ left; eauto | ]. rewrite step_eq. unfold measure.
    destruct (virtual_defined (fst (runs i)) (snd (runs i)) (correspondence_set o) k
      (target_in_camera C (to_camera_mount o) (iso_mul B (to_target_mount o)) T) t (Hl o (or_introl eq_refl))) as [[v ->] | [e ->]]; cbn [bind].
    - apply IH. intros; apply Hl; right; assumption.
    - right. eauto. }
  destruct (D os (0%nat, acc_empty, acc_empty) H) as [[st E] | [e ->]]; [ | right; exists e; reflexivity ].
  rewrite E. destruct (accuracy_loop _ _ _ _ _ E) as (vs & L & _ & ->). cbn [bind].
  fold (pushed (map vr_positional_error vs)). fold (pushed (map vr_angular_error vs)).
  assert (Nv : vs <> []) by (destruct vs; [ destruct os; [ congruence | discriminate ] | discriminate ]).
  rewrite !pushed_mean by (destruct vs; [ congruence | discriminate ]). cbn [bind]. left. eauto.
Qed.
Lemma accuracy_too_few os o : os <> [] -> equal_sizes os -> In o os -> (List.length (correspondence_set o) < 2)%nat ->
  measureIntrinsicCalibrationAccuracy runs os k C T B t = UB.
Proof.
  intros N S Ho L. unfold measureIntrinsicCalibrationAccuracy. destruct (check_ok os N) as [[_ ->] | [X _]]; [ | contradiction ]. cbn [bind].
  fold step. destruct os as [ | o1 os]; [ congruence | ]. cbn [foldM]. rewrite step_eq. unfold measure.
  rewrite virtual_too_few; [ reflexivity | ]. rewrite (S o1 o (or_introl eq_refl) Ho). exact L.
Qed.
Lemma accuracy_succeeds os : os <> [] -> equal_sizes os ->
  (forall i o, nth_error os i = Some o -> exists v, measure i o = Ok v) ->
  exists r, measureIntrinsicCalibrationAccuracy runs os k C T B t = Ok r.
Proof.
  intros N S H. unfold measureIntrinsicCalibrationAccuracy. destruct (check_ok os N) as [[_ ->] | [X _]]; [ | contradiction ]. cbn [bind].
  fold step.
  assert (D : forall l i pa aa, (forall j o, nth_error l j = Some o -> exists v, measure (i + j) o = Ok v) ->
    exists st', foldM step l (i, pa, aa) = Ok st').
  { induction l as [ | o l IH]; intros i pa aa Hl; cbn [foldM]; [ eauto | ]. rewrite step_eq.
    destruct (Hl 0%nat o eq_refl) as [v Hv]. rewrite Nat.add_0_r in Hv. rewrite Hv. cbn [bind]. apply IH.
    intros j o' Hj. destruct (Hl (Datatypes.S j) o' Hj) as [v' Hv']. exists v'. rewrite <- Nat.add_succ_comm in Hv'. exact Hv'. }
  destruct (D os 0%nat acc_empty acc_empty H) as [st E]. rewrite E.
  destruct (accuracy_loop _ _ _ _ _ E) as (vs & L & _ & ->). cbn [bind].
  fold (pushed (map vr_positional_error vs)). fold (pushed (map vr_angular_error vs)).
  assert (Nv : vs <> []) by (destruct vs; [ destruct os; [ congruence | discriminate ] | discriminate ]).
  rewrite !pushed_mean by (destruct vs; [ congruence | discriminate ]). cbn [bind]. eauto.
Qed.
End Accuracy.

(** ** A concrete case: the solver reports convergence with zero cost. *)
Definition ex_run : pnp_run := Run (fun _ _ => 0) (fun _ x => (x, Summary true 0 0)) ex_cov_oracle.
Definition ex_corrs : list (correspondence vec2) :=
  [Corr (V2 320 240) (V3 0 0 0); Corr (V2 420 240) (V3 (1/5) 0 0); Corr (V2 320 340) (V3 0 (1/5) 0)].
Lemma ex_fits k g cs : cs <> [] -> exists r, fitted ex_run k g cs r /\ good_fit 1 r.
Proof.
  intros N. destruct (pnp_succeeds2 (run_u ex_run) (run_solve ex_run) (run_cov ex_run) (PnP2 k cs g "camera_to_target")) as [r E];
    try reflexivity; [ apply ex_oracle_sym | exact N | ].
  exists r. split; [ exact E | ]. destruct (pnp_result2 (PnP2 k cs g "camera_to_target")) as (b & _ & X).
  destruct (X _ _ _ _ E) as (_ & x & s & Es & C & _ & _ & Fc & _). cbn [ex_run run_solve] in Es. injection Es as <- <-.
  split; [ exact C | ]. rewrite Fc. cbn [final_cost]. unfold Rdiv. rewrite Rmult_0_l. lra.
Qed.
Lemma ex_virtual k g : exists v, measureVirtualTargetDiff ex_run ex_run ex_corrs k g 1 = Ok v.
Proof.
  destruct (ex_fits k g [Corr (V2 320 240) (V3 0 0 0)] ltac:(discriminate)) as (p1 & F1 & G1).
  destruct (ex_fits k g [Corr (V2 420 240) (V3 (1/5) 0 0); Corr (V2 320 340) (V3 0 (1/5) 0)] ltac:(discriminate)) as (p2 & F2 & G2).
  refine (virtual_succeeds ex_run ex_run ex_corrs k g 1 _ _ p1 p2 _ _ F1 G1 F2 G2); reflexivity.
Qed.
Lemma ex_accuracy k C T B : exists r, measureIntrinsicCalibrationAccuracy (fun _ => (ex_run, ex_run))
  [Obs ex_corrs iso_id iso_id; Obs ex_corrs (iso_trans (V3 1 0 0)) iso_id] k C T B 1 = Ok r.
Proof.
  apply accuracy_succeeds.
  - discriminate.
  - intros o o' Ho Ho'. cbn in Ho, Ho'. repeat destruct Ho as [<- | Ho]; repeat destruct Ho' as [<- | Ho']; try contradiction; reflexivity.
  - intros [ | [ | i ] ] o Ho; cbn in Ho; try (destruct i; discriminate); injection Ho as <-; apply ex_virtual.
Qed.
