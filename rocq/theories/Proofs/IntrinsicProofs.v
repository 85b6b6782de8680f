(** C33, C34 and the intrinsic part of C20. *)
From Coq Require Import Reals Lra Psatz Arith Lia String List Permutation Sorted.
From Verif.Base Require Import Geom Outcome Matrix.
From Verif.Model Require Import Pose Covariance Solver HandEye BlockSolver Pnp Intrinsic.
From Verif.Spec Require Import CovarianceSpec PinHole Frames PnpSpec ReportSpec IntrinsicSpec.
From Verif.Proofs Require Import GeomLemmas PoseProofs ListLemmas CovarianceProofs HandEyeProofs PnpProofs MultiCameraProofs.
Import ListNotations.
Local Open Scope R_scope.

(** ** C34 *)
Lemma lens_eq a p : vz p <> 0 -> projectPoints2 a p = lens_project (camera_of a) (lens_of a) p.
Proof.
  intros H. unfold projectPoints2, lens_project, distort, camera_of, lens_of.
  destruct (Req_EM_T (vz p) 0) as [E|_]; [ contradiction | ].
  cbn [fx fy cx cy d_k1 d_k2 d_p1 d_p2 d_k3 px py]. f_equal; ring.
Qed.
Lemma lens_plane a p : vz p = 0 ->
  projectPoints2 a p = lens_project (camera_of a) (lens_of a) (V3 (vx p) (vy p) 1).
Proof.
  intros H. unfold projectPoints2, lens_project, distort, camera_of, lens_of.
  destruct (Req_EM_T (vz p) 0) as [_|N]; [ | contradiction ].
  cbn [fx fy cx cy d_k1 d_k2 d_p1 d_p2 d_k3 px py vx vy vz]. f_equal; field.
Qed.
Lemma lens_none k p : lens_project k no_distortion p = pinhole k p.
Proof. unfold lens_project, distort, pinhole, no_distortion. cbn. f_equal; ring. Qed.
Lemma lens_axis k d z : lens_project k d (V3 0 0 z) = V2 (cx k) (cy k).
Proof. unfold lens_project, distort. cbn [vx vy vz px py]. unfold Rdiv. f_equal; ring. Qed.

Lemma intrinsic_cost_eq x P a : vz (iso_app (poseCalToEigen P) (in_target x)) <> 0 ->
  intrinsic_cost (in_target x) (in_image x) P a = lens_error (camera_of a) (lens_of a) (poseCalToEigen P) x.
Proof.
  intros H. unfold intrinsic_cost, lens_error. rewrite transformPoint_pose, lens_eq by exact H. reflexivity.
Qed.
Lemma intrinsic_cost_undistorted x P a : lens_of a = no_distortion ->
  vz (iso_app (poseCalToEigen P) (in_target x)) <> 0 ->
  intrinsic_cost (in_target x) (in_image x) P a = pixel_error (camera_of a) (poseCalToEigen P) x.
Proof.
  intros Hl H. rewrite intrinsic_cost_eq by exact H. unfold lens_error, pixel_error. rewrite Hl, lens_none. reflexivity.
Qed.
(** The lens is determined by its projections: the five coefficients act independently. *)
Lemma lens_injective k d d' : fx k <> 0 -> fy k <> 0 ->
  (forall p, vz p <> 0 -> lens_project k d p = lens_project k d' p) -> d = d'.
Proof.
  intros Hx Hy H.
  assert (G : forall x y, distort d x y = distort d' x y).
  { intros x y. pose proof (H (V3 x y 1) R1_neq_R0) as E. unfold lens_project in E. cbn [vx vy vz] in E.
    unfold Rdiv in E. rewrite Rinv_1, !Rmult_1_r in E.
    pose proof (f_equal px E) as E1. pose proof (f_equal py E) as E2. cbv zeta in E1, E2. cbn [px py] in E1, E2. clear E.
    revert E1 E2. generalize (distort d x y), (distort d' x y). intros [a b] [a' b']. cbn [px py]. intros E1 E2.
    apply Rplus_eq_reg_r in E1, E2. apply Rmult_eq_reg_l in E1; [ | exact Hx ]. apply Rmult_eq_reg_l in E2; [ | exact Hy ].
    f_equal; assumption. }
  clear H. destruct d as [k1 k2 p1 p2 k3], d' as [k1' k2' p1' p2' k3'].
  pose proof (G 1 0) as A. pose proof (G (-1) 0) as B. pose proof (G 2 0) as C. pose proof (G 3 0) as D. clear G.
  unfold distort in *. cbn [d_k1 d_k2 d_p1 d_p2 d_k3] in *.
  injection A as A1 A2. injection B as B1 B2. injection C as C1 C2. injection D as D1 D2.
  assert (p1 = p1') by lra. assert (p2 = p2') by lra. f_equal; lra.
Qed.

(** ** Initial pose estimation *)
Lemma pnp_outcomes u solve cov p : pnp_correspondences p <> [] ->
  (exists r, optimizePnP u solve cov p = Ok r) \/ exists e, optimizePnP u solve cov p = Throw e.
Proof.
  intros H. rewrite optimizePnP_unfold. unfold pnp_finish.
  destruct (solve _ _) as [x s]. destruct (pnp_correspondences p) as [|c l]; [ congruence | ].
  cbn [map]. set (pb := mk_cov_problem cov _). set (names := insert_key _ _ _).
  destruct (covariance_outcomes u pb [key_translation; key_angle_axis] names []) as [[r ->]|[->| ->]]; cbn [bind]; eauto.
  intros b [<-|[<-|[]]]; discriminate.
Qed.

Lemma initial_guess : poseCalToEigen guessInitialPose = half_metre_ahead.
Proof.
  assert (E : iso_mul (iso_trans (V3 0 0 (1 / 2))) (iso_rot (aa_matrix PI unitX)) = half_metre_ahead).
  { unfold half_metre_ahead, iso_mul, iso_trans, iso_rot, iso_app, aa_matrix, unitX. rewrite sin_PI, cos_PI.
    unfold mmul, I3, vadd, mvec. cbn. f_equal; f_equal; field. }
  unfold guessInitialPose. rewrite E. apply plain_stored. split.
  - unfold rigid. split; [ unfold half_metre_ahead, mmul, mT, I3; cbn; f_equal; ring | unfold half_metre_ahead, det; cbn; ring ].
  - right. exists PI, unitX. pose proof PI_RGT_0. pose proof PI2_1. repeat split; try lra.
    + unfold dot, unitX; cbn; ring.
    + unfold half_metre_ahead, aa_matrix, unitX. rewrite sin_PI, cos_PI. cbn. f_equal; ring.
    + unfold DBL_EPS. nra.
Qed.

Section Initial.
Variables (u : nat -> nat -> R) (psolve : pnp_solvers) (pcov : pnp_covs) (p : intrinsic_problem).
Let N := List.length (ip_image_observations p).
Let step := fun (st : (nat -> pose6) * list nat) i =>
      let '(internal_poses, valid_idx) := st in
      do obs <- idx (ip_image_observations p) i;
      match solvePnP u (psolve i) (pcov i) (ip_intrinsics_guess p) obs guessInitialPose with
      | Ok pose => Ok (fun j => if Nat.eqb j i then pose else internal_poses j, (valid_idx ++ [i])%list)
      | Throw _ => Ok (internal_poses, valid_idx)
      | UB => UB
      end.

Lemma step_cases st i : (i < N)%nat ->
  (exists T, located u psolve pcov p i T /\
     step st i = Ok (fun j => if Nat.eqb j i then poseEigenToCal T else fst st j, (snd st ++ [i])%list)) \/
  (not_located u psolve pcov p i /\ step st i = Ok st) \/
  (nth_error (ip_image_observations p) i = Some [] /\ step st i = UB).
Proof.
  intros Hi. pose proof (nth_error_nth' (ip_image_observations p) [] Hi) as Hn.
  set (obs := nth i (ip_image_observations p) []) in *. destruct st as [ps valid].
  assert (Es : step (ps, valid) i = match solvePnP u (psolve i) (pcov i) (ip_intrinsics_guess p) obs guessInitialPose with
      | Ok pose => Ok (fun j => if Nat.eqb j i then pose else ps j, (valid ++ [i])%list)
      | Throw _ => Ok (ps, valid) | UB => UB end).
  { unfold step, idx. rewrite Hn. reflexivity. }
  rewrite Es. unfold solvePnP. rewrite initial_guess. fold (image_pnp p obs). cbn [fst snd].
  destruct obs as [|c l] eqn:Eo.
  { right; right. split; [ exact Hn | ]. rewrite pnp_empty2 by reflexivity. reflexivity. }
  rewrite <- Eo in *.
  destruct (pnp_outcomes u (psolve i) (pcov i) (image_pnp p obs)) as [[r E]|[e E]]; [ cbn; rewrite Eo; discriminate | | ].
  - rewrite E. cbn [bind]. destruct (pnp_converged r) eqn:Ec; cbn [negb].
    + left. exists (pnp_camera_to_target r). split; [ | reflexivity ]. exists obs, r. auto.
    + right; left. split; [ | reflexivity ]. exists obs. split; [ exact Hn | right; exists r; auto ].
  - rewrite E. cbn [bind]. right; left. split; [ | reflexivity ]. exists obs. split; [ exact Hn | left; eauto ].
Qed.

Lemma located_fun i T T' : located u psolve pcov p i T -> located u psolve pcov p i T' -> T = T'.
Proof. intros (o & r & H1 & H2 & H3 & H4) (o' & r' & H1' & H2' & H3' & H4'). congruence. Qed.
Lemma located_not i T : located u psolve pcov p i T -> not_located u psolve pcov p i -> False.
Proof. intros (o & r & H1 & H2 & H3 & H4) (o' & H1' & [[e H2']|(r' & H2' & H3')]); congruence. Qed.
Lemma located_bound i T : located u psolve pcov p i T -> (i < N)%nat.
Proof. intros (o & r & H1 & _). apply nth_error_Some. congruence. Qed.

(** What the loop over the images leaves. *)
Definition initial_spec (k : nat) (st : (nat -> pose6) * list nat) : Prop :=
  StronglySorted lt (snd st) /\
  (forall i, In i (snd st) <-> (i < k)%nat /\ exists T, located u psolve pcov p i T) /\
  (forall i T, (i < k)%nat -> located u psolve pcov p i T -> fst st i = poseEigenToCal T) /\
  (forall i, ((k <= i)%nat \/ forall T, ~ located u psolve pcov p i T) -> fst st i = zero_pose).

Lemma sorted_snoc l k : StronglySorted lt l -> (forall i, In i l -> (i < k)%nat) -> StronglySorted lt (l ++ [k]).
Proof.
  induction l as [|a r IH]; intros H Hl; [ repeat constructor | ]. inversion H as [|? ? H1 H2]; subst. cbn. constructor.
  - apply IH; [ exact H1 | intros; apply Hl; right; assumption ].
  - apply Forall_app. split; [ exact H2 | ]. repeat constructor. apply Hl. left. reflexivity.
Qed.

Lemma step_spec k st st' : (k < N)%nat -> initial_spec k st -> step st k = Ok st' -> initial_spec (S k) st'.
Proof.
  intros Hk (H1 & H2 & H3 & H4) E. destruct (step_cases st k Hk) as [(T & HT & E')|[[Hn E']|[_ E']]]; rewrite E' in E; [ | | discriminate ]; injection E as <-; unfold initial_spec; cbn [fst snd].
  - split; [ apply sorted_snoc; [ exact H1 | intros i Hi; apply H2 in Hi; lia ] | split; [ | split ] ].
    + intros i. rewrite in_app_iff, H2. split.
      * intros [[A B]|[<-|[]]]; [ split; [ lia | exact B ] | split; [ lia | eauto ] ].
      * intros [A B]. destruct (Nat.eq_dec i k) as [->|Ne]; [ right; left; reflexivity | left; split; [ lia | exact B ] ].
    + intros i T' Hi Hl. destruct (Nat.eqb_spec i k) as [->|Ne]; [ rewrite (located_fun k T T' HT Hl); reflexivity | ].
      apply H3; [ lia | exact Hl ].
    + intros i Hi. destruct (Nat.eqb_spec i k) as [->|Ne].
      * exfalso. destruct Hi as [Hi|Hi]; [ lia | exact (Hi T HT) ].
      * apply H4. destruct Hi as [Hi|Hi]; [ left; lia | right; exact Hi ].
  - assert (NL : forall T, ~ located u psolve pcov p k T) by (intros T HT; exact (located_not k T HT Hn)).
    split; [ exact H1 | split; [ | split ] ].
    + intros i. rewrite H2. split; [ intros [A B]; split; [ lia | exact B ] | ].
      intros [A [T B]]. split; [ | eauto ]. destruct (Nat.eq_dec i k) as [->|Ne]; [ destruct (NL T B) | lia ].
    + intros i T Hi Hl. apply H3; [ | exact Hl ]. destruct (Nat.eq_dec i k) as [->|Ne]; [ destruct (NL T Hl) | lia ].
    + intros i Hi. apply H4. destruct Hi as [Hi|Hi]; [ left; lia | right; exact Hi ].
Qed.

Lemma loop_spec k n st st' : (k + n <= N)%nat -> initial_spec k st -> foldM step (seq k n) st = Ok st' -> initial_spec (k + n) st'.
Proof.
  revert k st. induction n as [|n IH]; intros k st Hn Hs E; cbn [seq foldM] in E.
  - injection E as <-. rewrite Nat.add_0_r. exact Hs.
  - destruct (step st k) as [s1| |] eqn:E1; cbn [bind] in E; try discriminate.
    replace (k + S n)%nat with (S k + n)%nat by lia. apply (IH (S k) s1); [ lia | | exact E ].
    apply (step_spec k st); [ lia | exact Hs | exact E1 ].
Qed.
Lemma initial_zero : initial_spec 0 (fun _ => zero_pose, []).
Proof.
  split; [ constructor | split; [ | split ] ]; cbn; intros.
  - split; [ intros [] | lia ].
  - lia.
  - reflexivity.
Qed.

Lemma initial_poses_spec poses used : initial_poses u psolve pcov p = Ok (poses, used) ->
  StronglySorted lt used /\
  (forall i, In i used <-> exists T, located u psolve pcov p i T) /\
  (forall i T, located u psolve pcov p i T -> poses i = poseEigenToCal T) /\
  (forall i, ~ In i used -> poses i = zero_pose).
Proof.
  intros E. change (foldM step (seq 0 N) (fun _ => zero_pose, []) = Ok (poses, used)) in E.
  apply loop_spec in E; [ | lia | apply initial_zero ]. cbn [Nat.add] in E. destruct E as (H1 & H2 & H3 & H4). cbn [fst snd] in *.
  assert (Hu : forall i, In i used <-> exists T, located u psolve pcov p i T).
  { intros i. rewrite H2. split; [ tauto | ]. intros [T HT]. split; [ exact (located_bound i T HT) | eauto ]. }
  split; [ exact H1 | split; [ exact Hu | split ] ].
  - intros i T HT. apply H3; [ exact (located_bound i T HT) | exact HT ].
  - intros i Hi. apply H4. right. intros T HT. apply Hi, Hu. eauto.
Qed.

Lemma initial_poses_ok : (forall obs, In obs (ip_image_observations p) -> obs <> []) ->
  exists poses used, initial_poses u psolve pcov p = Ok (poses, used).
Proof.
  intros Hn. assert (G : exists s, foldM step (seq 0 N) (fun _ => zero_pose, []) = Ok s /\ True).
  { apply (foldM_seq_inv (fun _ _ => True)); [ exact I | ]. intros k s Hk _.
    destruct (step_cases s k) as [(T & _ & E)|[[_ E]|[He E]]]; [ lia | eexists; split; [ exact E | exact I ] .. | ].
    exfalso. exact (Hn [] (nth_error_In _ _ He) eq_refl). }
  destruct G as ([poses used] & E & _). exists poses, used. exact E.
Qed.
Lemma initial_poses_empty i : nth_error (ip_image_observations p) i = Some [] -> initial_poses u psolve pcov p = UB.
Proof.
  intros Hi. assert (Li : (i < N)%nat) by (apply nth_error_Some; congruence).
  change (foldM step (seq 0 N) (fun _ => zero_pose, []) = UB). apply (foldM_ub _ _ _ i); [ apply in_seq; lia | | ].
  - intros st. destruct (step_cases st i Li) as [(T & (o & r & H1 & H2 & _) & _)|[[(o & H1 & H2) _]|[_ E]]]; [ exfalso .. | exact E ].
    + rewrite Hi in H1. injection H1 as <-. rewrite pnp_empty2 in H2 by reflexivity. discriminate.
    + rewrite Hi in H1. injection H1 as <-. rewrite pnp_empty2 in H2 by reflexivity.
      destruct H2 as [[e H2]|(r & H2 & _)]; discriminate.
  - intros st j Hj. apply in_seq in Hj. destruct (step_cases st j) as [(T & _ & E)|[[_ E]|[_ E]]]; [ lia | right; eauto .. | left; exact E ].
Qed.
End Initial.

(** ** The optimization *)
Definition intrinsic_block (p : intrinsic_problem) (v : nat * correspondence vec2) : rblock :=
  RB [fst v; intrinsics_key p] (fun m =>
    intrinsic_cost (in_target (snd v)) (in_image (snd v)) (read_pose m (fst v)) (m (intrinsics_key p))).

Lemma intrinsic_blocks_ok p used : (forall i, In i used -> (i < List.length (ip_image_observations p))%nat) ->
  intrinsic_blocks p used = Ok (map (intrinsic_block p) (image_views p used)).
Proof.
  intros H. unfold intrinsic_blocks, image_views. rewrite map_flat_map.
  rewrite (foldM_concat _ (fun i => map (intrinsic_block p) (map (pair i) (nth i (ip_image_observations p) [])))).
  { reflexivity. }
  intros s i Hi. rewrite (idx_ok _ i []) by (apply H; exact Hi). cbn [bind]. f_equal.
  rewrite (fold_left_push _ _ s), map_map. reflexivity.
Qed.

Lemma in_image_views p used i x : In (i, x) (image_views p used) <-> In i used /\ In x (nth i (ip_image_observations p) []).
Proof.
  unfold image_views. rewrite in_flat_map. split.
  - intros (i' & Hi & H). apply in_map_iff in H as (x' & [= <- <-] & H). auto.
  - intros [H1 H2]. exists i. split; [ exact H1 | ]. apply in_map_iff. eauto.
Qed.

Lemma intrinsic_keys p used k : In k (flat_map rb_keys (map (intrinsic_block p) (image_views p used))) <->
  (exists x, In (k, x) (image_views p used)) \/ (k = intrinsics_key p /\ image_views p used <> []).
Proof.
  rewrite flat_map_map, in_flat_map. split.
  - intros ([i x] & Hv & [<-|[<-|[]]]); [ left; eauto | right ]. split; [ reflexivity | ].
    intros E. rewrite E in Hv. destruct Hv.
  - intros [(x & H)|[-> H]].
    + exists (k, x). split; [ exact H | left; reflexivity ].
    + destruct (image_views p used) as [|[i x] r]; [ congruence | ].
      exists (i, x). split; [ left; reflexivity | right; left; reflexivity ].
Qed.

(** Residuals, block by block. *)
Lemma intrinsic_residuals p used blocks : intrinsic_blocks p used = Ok blocks ->
  (forall i, In i used -> (i < List.length (ip_image_observations p))%nat) ->
  List.length blocks = List.length (image_views p used) /\
  forall m j b i x, nth_error blocks j = Some b -> nth_error (image_views p used) j = Some (i, x) ->
    let T := poseCalToEigen (read_pose m i) in let a := m (intrinsics_key p) in
    vz (iso_app T (in_target x)) <> 0 -> rb_eval b m = lens_error (camera_of a) (lens_of a) T x.
Proof.
  intros E Hu. rewrite intrinsic_blocks_ok in E by exact Hu. injection E as <-. split; [ apply map_length | ].
  intros m j b i x Hb Hv T a Hz. rewrite nth_error_map, Hv in Hb. injection Hb as <-. apply intrinsic_cost_eq, Hz.
Qed.

Lemma intrinsic_start_camera p poses : forall j,
  intrinsic_start p poses (intrinsics_key p) j =
  nth j [fx (ip_intrinsics_guess p); fy (ip_intrinsics_guess p); cx (ip_intrinsics_guess p); cy (ip_intrinsics_guess p)] 0.
Proof.
  intros j. unfold intrinsic_start. rewrite Nat.eqb_refl. do 4 (destruct j as [|j]; [ reflexivity | ]). cbn. destruct j; reflexivity.
Qed.
Lemma intrinsic_start_pose p poses i : (i < List.length (ip_image_observations p))%nat ->
  read_pose (intrinsic_start p poses) i = poses i.
Proof.
  intros Hi. apply read_pose_elem. intros j. unfold intrinsic_start, intrinsics_key.
  destruct (Nat.eqb_spec i (List.length (ip_image_observations p))); [ lia | reflexivity ].
Qed.

(** *** Labels *)
Lemma fold_insert_find {V} (L : nat -> V) c l acc : In c l ->
  find_key c (fold_left (fun labels c => insert_key c (L c) labels) l acc) = Some (L c).
Proof.
  revert acc. induction l as [|a r IH] using rev_ind; intros acc H; [ destruct H | ].
  rewrite fold_left_app. cbn [fold_left]. destruct (Nat.eq_dec c a) as [->|Ne]; [ apply find_insert_same | ].
  rewrite find_insert_other by exact Ne. apply IH. apply in_app_or in H as [H|[H|[]]]; [ exact H | congruence ].
Qed.
Lemma fold_insert_other {V} (L : nat -> V) c l acc : ~ In c l ->
  find_key c (fold_left (fun labels c => insert_key c (L c) labels) l acc) = find_key c acc.
Proof.
  revert acc. induction l as [|a r IH]; intros acc H; [ reflexivity | ]. cbn [fold_left].
  rewrite IH by (intros C; apply H; right; exact C). apply find_insert_other. intros ->. apply H. left. reflexivity.
Qed.
Lemma fold_insert_length {V} (L : nat -> V) l acc : NoDup l -> (forall c, In c l -> ~ In c (keys acc)) ->
  List.length (fold_left (fun labels c => insert_key c (L c) labels) l acc) = (List.length acc + List.length l)%nat.
Proof.
  revert acc. induction l as [|a r IH]; intros acc Hd Hk; cbn [fold_left List.length]; [ lia | ].
  inversion Hd as [|? ? H1 H2]; subst. rewrite IH.
  - rewrite insert_key_length. destruct (in_dec _ _ _) as [I|_]; [ destruct (Hk a (or_introl eq_refl) I) | lia ].
  - exact H2.
  - intros c Hc. rewrite keys_insert. intros [->|H]; [ contradiction | ]. apply (Hk c); [ right; exact Hc | exact H ].
Qed.

Definition pose_labels (p : intrinsic_problem) (i : nat) : list string :=
  map (fun l => String.append (ip_label_extr p) (String.append (to_string i) (String.append "_" l))) ip_labels_isometry3d.
Lemma labels_pose p i : (i < List.length (ip_image_observations p))%nat ->
  find_key i (intrinsic_param_labels p) = Some (pose_labels p i).
Proof. intros H. apply (fold_insert_find (pose_labels p)), in_seq. lia. Qed.
Lemma labels_camera p : find_key (intrinsics_key p) (intrinsic_param_labels p) = Some labels_intrinsic_params.
Proof.
  unfold intrinsic_param_labels. rewrite (fold_insert_other (pose_labels p)); [ apply find_insert_same | ].
  rewrite in_seq. unfold intrinsics_key. lia.
Qed.
Lemma labels_count p : List.length (intrinsic_param_blocks p) = List.length (intrinsic_param_labels p).
Proof.
  unfold intrinsic_param_labels, intrinsic_param_blocks. rewrite (fold_insert_length (pose_labels p)).
  - cbn [List.length]. rewrite seq_length. reflexivity.
  - apply seq_NoDup.
  - intros c Hc. apply in_seq in Hc. cbn. unfold intrinsics_key. lia.
Qed.
Lemma labels_all p b : In b (intrinsic_param_blocks p) ->
  exists l, find_key b (intrinsic_param_labels p) = Some l /\ List.length l = intrinsic_sizes p b.
Proof.
  intros [<-|H].
  - rewrite labels_camera. eexists; split; [ reflexivity | ]. unfold intrinsic_sizes. rewrite Nat.eqb_refl. reflexivity.
  - apply in_seq in H. rewrite labels_pose by lia. eexists; split; [ reflexivity | ].
    unfold intrinsic_sizes, intrinsics_key. destruct (Nat.eqb_spec b (List.length (ip_image_observations p))); [ lia | reflexivity ].
Qed.

(** *** Covariance of blocks outside the problem *)
Lemma tangent_loop_any labels offset masks st l : (forall i, In i l -> (i < List.length labels)%nat) ->
  exists st', foldM (tangent_step labels masks offset) l st = Ok st'.
Proof.
  revert st. induction l as [|i r IH]; intros st Hl; [ eexists; reflexivity | ]. cbn [foldM].
  assert (E : exists s, tangent_step labels masks offset st i = Ok s).
  { destruct st as [a b]. unfold tangent_step. destruct (in_mask masks i); [ eexists; reflexivity | ].
    rewrite (at_ok _ i EmptyString) by (apply Hl; left; reflexivity). eexists; reflexivity. }
  destruct E as [s ->]. cbn [bind]. apply IH. intros j Hj. apply Hl. right. exact Hj.
Qed.
Lemma covariance_missing u pb blocks names b : List.length blocks = List.length names ->
  (forall b, In b blocks -> exists l, find_key b names = Some l /\ (pb_size pb b = None \/ pb_size pb b = Some (List.length l))) ->
  In b blocks -> pb_size pb b = None -> computeCovariance u pb blocks names [] = UB.
Proof.
  intros E Hl Hb Hs. unfold computeCovariance. rewrite E, Nat.eqb_refl. cbn [negb].
  rewrite (foldM_ub _ _ _ b); [ reflexivity | exact Hb | | ].
  - intros [k t]. unfold block_step, blockSize. rewrite Hs. reflexivity.
  - intros [k t] c Hc. destruct (Hl c Hc) as (l & Hf & [Hn|Hn]); unfold block_step, blockSize; rewrite Hn; [ left; reflexivity | right ].
    cbn [bind]. rewrite Hf, Nat.eqb_refl. cbn [negb find_key].
    destruct (tangent_loop_any l k [] t (seq 0 (List.length l))) as [st' ->]; [ intros i Hi; apply in_seq in Hi; lia | ].
    cbn [bind]. eexists; reflexivity.
Qed.

Lemma sorted_same l l' : StronglySorted lt l -> StronglySorted lt l' -> (forall i, In i l <-> In i l') -> l = l'.
Proof.
  revert l'. induction l as [|a r IH]; intros [|a' r'] H H' E; [ reflexivity | | | ].
  - destruct (proj2 (E a') (or_introl eq_refl)).
  - destruct (proj1 (E a) (or_introl eq_refl)).
  - inversion H as [|? ? S1 F1]; inversion H' as [|? ? S2 F2]; subst. rewrite Forall_forall in F1, F2.
    assert (a = a').
    { pose proof (proj1 (E a) (or_introl eq_refl)) as A. pose proof (proj2 (E a') (or_introl eq_refl)) as B.
      destruct A as [A|A]; [ congruence | ]. destruct B as [B|B]; [ congruence | ].
      specialize (F1 a' B). specialize (F2 a A). lia. }
    subst a'. f_equal. apply IH; [ exact S1 | exact S2 | ]. intros i. split; intros I.
    + pose proof (proj1 (E i) (or_intror I)) as [<-|J]; [ specialize (F1 a I); lia | exact J ].
    + pose proof (proj2 (E i) (or_intror I)) as [<-|J]; [ specialize (F2 a I); lia | exact J ].
Qed.

Section Optimize.
Variables (u : nat -> nat -> R) (psolve : pnp_solvers) (pcov : pnp_covs) (solve : block_solver) (cov : cov_oracle)
          (p : intrinsic_problem).
Let N := List.length (ip_image_observations p).

Lemma used_bound poses used : initial_poses u psolve pcov p = Ok (poses, used) -> forall i, In i used -> (i < N)%nat.
Proof.
  intros E i Hi. apply initial_poses_spec in E as (_ & Hu & _). apply Hu in Hi as [T HT].
  exact (located_bound u psolve pcov p i T HT).
Qed.

Lemma sizes_find used b : find_key b (added_blocks (intrinsic_sizes p) (map (intrinsic_block p) (image_views p used))) =
  if in_dec Nat.eq_dec b (flat_map rb_keys (map (intrinsic_block p) (image_views p used))) then Some (intrinsic_sizes p b) else None.
Proof. apply find_added. Qed.

Lemma unused_aborts poses used i : initial_poses u psolve pcov p = Ok (poses, used) -> (i < N)%nat -> ~ In i used ->
  optimizeIntrinsic u psolve pcov solve cov p = UB.
Proof.
  intros E Hi Hn. unfold optimizeIntrinsic. rewrite E. cbn [bind].
  rewrite intrinsic_blocks_ok by (apply (used_bound poses), E). cbn [bind]. destruct (solve _ _) as [m s].
  rewrite (covariance_missing u _ _ _ i); [ reflexivity | apply labels_count | | | ].
  - intros b Hb. destruct (labels_all p b Hb) as (l & Hl & Hs). exists l. split; [ exact Hl | ].
    cbn [pb_size mk_cov_problem]. rewrite sizes_find, Hs. destruct (in_dec _ _ _); auto.
  - right. apply in_seq. unfold N in Hi. lia.
  - cbn [pb_size mk_cov_problem]. rewrite sizes_find. destruct (in_dec _ _ _) as [I|_]; [ | reflexivity ].
    exfalso. apply intrinsic_keys in I as [[x Hx]|[Ek _]].
    + apply in_image_views in Hx as [Hx _]. contradiction.
    + unfold intrinsics_key in Ek. unfold N in Hi. lia.
Qed.

Lemma empty_image_aborts i : nth_error (ip_image_observations p) i = Some [] ->
  optimizeIntrinsic u psolve pcov solve cov p = UB.
Proof. intros H. unfold optimizeIntrinsic. rewrite (initial_poses_empty u psolve pcov p i H). reflexivity. Qed.

Lemma some_empty (l : list (list (correspondence vec2))) :
  (forall obs, In obs l -> obs <> []) \/ exists i, nth_error l i = Some [].
Proof.
  induction l as [|o r IH]; [ left; intros ? [] | ].
  destruct o as [|c o]; [ right; exists 0%nat; reflexivity | ].
  destruct IH as [IH|[i IH]]; [ left | right; exists (S i); exact IH ].
  intros obs [<-|H]; [ discriminate | exact (IH obs H) ].
Qed.

Lemma failed_image_aborts i : not_located u psolve pcov p i -> optimizeIntrinsic u psolve pcov solve cov p = UB.
Proof.
  intros Hf. destruct (some_empty (ip_image_observations p)) as [Hn|[j Hj]]; [ | exact (empty_image_aborts j Hj) ].
  destruct (initial_poses_ok u psolve pcov p Hn) as (poses & used & E).
  apply (unused_aborts poses used i E).
  - destruct Hf as (o & H & _). apply nth_error_Some. congruence.
  - intros Hi. apply initial_poses_spec in E as (_ & Hu & _). apply Hu in Hi as [T HT]. exact (located_not u psolve pcov p i T HT Hf).
Qed.
Lemma no_images_aborts : ip_image_observations p = [] -> optimizeIntrinsic u psolve pcov solve cov p = UB.
Proof.
  intros H. unfold optimizeIntrinsic. assert (E : initial_poses u psolve pcov p = Ok (fun _ => zero_pose, [])).
  { unfold initial_poses. rewrite H. reflexivity. }
  rewrite E. cbn [bind]. rewrite intrinsic_blocks_ok by (intros ? []). cbn [bind]. destruct (solve _ _) as [m s].
  rewrite (covariance_missing u _ _ _ (intrinsics_key p)); [ reflexivity | apply labels_count | | left; reflexivity | reflexivity ].
  intros b Hb. destruct (labels_all p b Hb) as (l & Hl & Hs). exists l. split; [ exact Hl | left; reflexivity ].
Qed.

Lemma intrinsic_ok r : optimizeIntrinsic u psolve pcov solve cov p = Ok r ->
  exists poses, initial_poses u psolve pcov p = Ok (poses, seq 0 N) /\ (0 < N)%nat /\
  (forall obs, In obs (ip_image_observations p) -> obs <> []) /\
  let blocks := map (intrinsic_block p) (image_views p (seq 0 N)) in
  exists m s, solve blocks (intrinsic_start p poses) = (m, s) /\
    ir_converged r = term_convergence s /\
    ir_intrinsics r = camera_of (m N) /\
    ir_distortions r = (let d := lens_of (m N) in [d_k1 d; d_k2 d; d_p1 d; d_p2 d; d_k3 d]) /\
    ir_initial_cost_per_obs r = initial_cost s / INR (2 * List.length (image_views p (seq 0 N))) /\
    ir_final_cost_per_obs r = final_cost s / INR (2 * List.length (image_views p (seq 0 N))) /\
    computeCovariance u (mk_cov_problem cov (added_blocks (intrinsic_sizes p) blocks))
            (intrinsic_param_blocks p) (intrinsic_param_labels p) [] = Ok (ir_covariance r).
Proof.
  intros E.
  assert (HN : (0 < N)%nat).
  { destruct (ip_image_observations p) as [|o l] eqn:Eo; [ rewrite no_images_aborts in E by exact Eo; discriminate | ].
    unfold N. cbn. lia. }
  destruct (some_empty (ip_image_observations p)) as [Hn|[j Hj]]; [ | rewrite (empty_image_aborts j Hj) in E; discriminate ].
  destruct (initial_poses_ok u psolve pcov p Hn) as (poses & used & Ei).
  assert (Hu : used = seq 0 N).
  { assert (forall i, (i < N)%nat -> In i used) as Hall.
    { intros i Hi. destruct (in_dec Nat.eq_dec i used) as [I|I]; [ exact I | ].
      rewrite (unused_aborts poses used i Ei Hi I) in E. discriminate. }
    pose proof (used_bound _ _ Ei) as Hb. apply initial_poses_spec in Ei as (Hs & _).
    apply sorted_same; [ exact Hs | apply StronglySorted_seq | ].
    intros i. rewrite in_seq. split; [ intros Hi; apply Hb in Hi; lia | intros Hi; apply Hall; lia ]. }
  subst used. exists poses. split; [ exact Ei | ]. split; [ exact HN | ]. split; [ exact Hn | ]. intros blocks.
  unfold optimizeIntrinsic in E. rewrite Ei in E. cbn [bind] in E.
  rewrite intrinsic_blocks_ok in E by (apply (used_bound poses), Ei). cbn [bind] in E. fold blocks in E.
  destruct (solve blocks _) as [m s]. destruct (computeCovariance _ _ _ _ _) as [c| |] eqn:Ec; cbn [bind] in E; try discriminate.
  injection E as <-. exists m, s.
  assert (En : num_block_residuals blocks (intrinsic_start p poses) = (2 * List.length (image_views p (seq 0 N)))%nat).
  { unfold blocks. apply num_blocks. intros [? ?]. reflexivity. }
  cbn [ir_converged ir_intrinsics ir_distortions ir_initial_cost_per_obs ir_final_cost_per_obs ir_covariance].
  rewrite En. repeat split; first [ reflexivity | exact Ec ].
Qed.

Lemma used_all poses used : initial_poses u psolve pcov p = Ok (poses, used) ->
  (forall i, (i < N)%nat -> exists T, located u psolve pcov p i T) -> used = seq 0 N.
Proof.
  intros E H. pose proof (used_bound _ _ E) as Hb. apply initial_poses_spec in E as (Hs & Hu & _).
  apply sorted_same; [ exact Hs | apply StronglySorted_seq | ]. intros i. rewrite in_seq.
  split; [ intros Hi; apply Hb in Hi; lia | intros Hi; apply Hu, H; lia ].
Qed.

Lemma intrinsic_succeeds : (0 < N)%nat -> (forall i, (i < N)%nat -> exists T, located u psolve pcov p i T) ->
  (forall bs, co_compute cov bs = true) -> (forall bs, co_get cov bs = true) ->
  (forall b i c j, co_cov cov b i c j = co_cov cov c j b i) ->
  exists r, optimizeIntrinsic u psolve pcov solve cov p = Ok r.
Proof.
  intros HN Hl Hc Hg Sy.
  assert (Hne : forall i, (i < N)%nat -> exists x, In x (nth i (ip_image_observations p) [])).
  { intros i Hi. destruct (Hl i Hi) as (T & o & r & H1 & H2 & _). rewrite (nth_error_nth _ _ _ H1).
    destruct o as [|c o]; [ rewrite pnp_empty2 in H2 by reflexivity; discriminate | exists c; left; reflexivity ]. }
  assert (Hn : forall obs, In obs (ip_image_observations p) -> obs <> []).
  { intros obs Ho. apply In_nth_error in Ho as [i Hi]. assert (Li : (i < N)%nat) by (apply nth_error_Some; congruence).
    destruct (Hne i Li) as [x Hx]. rewrite (nth_error_nth _ _ _ Hi) in Hx. intros ->. destruct Hx. }
  destruct (initial_poses_ok u psolve pcov p Hn) as (poses & used & Ei).
  pose proof (used_all _ _ Ei Hl) as ->. unfold optimizeIntrinsic. rewrite Ei. cbn [bind].
  rewrite intrinsic_blocks_ok by (apply (used_bound poses), Ei). cbn [bind]. destruct (solve _ _) as [m s].
  set (pb := mk_cov_problem cov _).
  destruct (covariance_ok u pb (intrinsic_param_blocks p) (intrinsic_param_labels p) []) as (c & -> & _).
  - exact Sy.
  - split; [ apply labels_count | split; [ | split; [ apply Hc | apply Hg ] ] ].
    intros b Hb. destruct (labels_all p b Hb) as (l & Hf & Hs). unfold labels_fit, pb. cbn [pb_size mk_cov_problem].
    rewrite sizes_find. destruct (in_dec _ _ _) as [_|C]; [ exists l; rewrite <- Hs; split; first [ reflexivity | exact Hf ] | ].
    exfalso. apply C, intrinsic_keys. destruct Hb as [<-|Hb].
    + right. split; [ reflexivity | ]. destruct (Hne 0%nat HN) as [x Hx]. intros E0.
      assert (In (0%nat, x) (image_views p (seq 0 N))) as I.
      { apply in_image_views. split; [ apply in_seq; lia | exact Hx ]. }
      rewrite E0 in I. destruct I.
    + left. apply in_seq in Hb. destruct (Hne b) as [x Hx]; [ unfold N; lia | ]. exists x. apply in_image_views.
      split; [ apply in_seq; unfold N; lia | exact Hx ].
  - cbn. eexists; reflexivity.
Qed.

Lemma intrinsic_report r : (forall b i c j, co_cov cov b i c j = co_cov cov c j b i) ->
  optimizeIntrinsic u psolve pcov solve cov p = Ok r ->
  reports (ir_covariance r) cov
    (map (pair N) (seq 0 9) ++ elements (fun _ => 6%nat) (seq 0 N))
    (fun e => if Nat.eqb (fst e) N then nth (snd e) labels_intrinsic_params ""%string
              else String.append (ip_label_extr p) (String.append (to_string (fst e))
                     (String.append "_" (nth (snd e) ip_labels_isometry3d ""%string)))).
Proof.
  intros Sy E. apply intrinsic_ok in E as (poses & Ei & HN & Hn & m & s & _ & _ & _ & _ & _ & _ & Ec).
  pose proof (report_spec _ _ _ _ _ _ Sy Ec) as Rp.
  rewrite (elements_ext _ (intrinsic_sizes p)) in Rp.
  2:{ intros b Hb. rewrite sizes_find. destruct (in_dec _ _ _) as [_|C]; [ reflexivity | ]. exfalso. apply C, intrinsic_keys.
      assert (Hne : forall i, (i < N)%nat -> exists x, In (i, x) (image_views p (seq 0 N))).
      { intros i Hi. pose proof (Hn _ (nth_In (ip_image_observations p) [] Hi)) as H.
        destruct (nth i (ip_image_observations p) []) as [|x o] eqn:Eo; [ congruence | ]. exists x.
        apply in_image_views. rewrite Eo. split; [ apply in_seq; lia | left; reflexivity ]. }
      destruct Hb as [<-|Hb].
      - right. split; [ reflexivity | ]. destruct (Hne 0%nat HN) as [x Hx]. intros E0. rewrite E0 in Hx. destruct Hx.
      - left. apply in_seq in Hb. apply Hne. unfold N. lia. }
  replace (elements (intrinsic_sizes p) (intrinsic_param_blocks p)) with
    (map (pair N) (seq 0 9) ++ elements (fun _ => 6%nat) (seq 0 N))%list in Rp.
  2:{ unfold intrinsic_param_blocks, elements. cbn [flat_map]. f_equal.
      - unfold intrinsic_sizes. rewrite Nat.eqb_refl. reflexivity.
      - apply flat_map_ext'. intros b Hb. apply in_seq in Hb. unfold intrinsic_sizes, intrinsics_key.
        destruct (Nat.eqb_spec b (List.length (ip_image_observations p))); [ unfold N in *; lia | reflexivity ]. }
  destruct Rp as (R1 & R2). split; [ rewrite R1 | exact R2 ].
  apply map_ext_in. intros [b i] Hin. cbn [fst snd]. unfold label_of. cbn [fst snd].
  apply in_app_or in Hin as [Hin|Hin].
  - apply in_map_iff in Hin as (i' & [= <- <-] & Hi). rewrite Nat.eqb_refl.
    change N with (intrinsics_key p). rewrite labels_camera. reflexivity.
  - unfold elements in Hin. apply in_flat_map in Hin as (b' & Hb & Hi). apply in_map_iff in Hi as (i' & [= -> ->] & Hi).
    apply in_seq in Hb, Hi. destruct (Nat.eqb_spec b N); [ lia | ]. rewrite labels_pose by (unfold N in Hb; lia).
    unfold pose_labels, ip_labels_isometry3d. do 6 (destruct i as [|i]; [ reflexivity | ]). lia.
Qed.
End Optimize.

(** ** Statements for C33 *)
Lemma images_used u psolve pcov p poses used blocks :
  initial_poses u psolve pcov p = Ok (poses, used) -> intrinsic_blocks p used = Ok blocks ->
  StronglySorted lt used /\
  (forall i, In i used <-> exists T, located u psolve pcov p i T) /\
  (forall i T, located u psolve pcov p i T -> read_pose (intrinsic_start p poses) i = poseEigenToCal T) /\
  List.length blocks = List.length (image_views p used) /\
  forall m j b i x, nth_error blocks j = Some b -> nth_error (image_views p used) j = Some (i, x) ->
    let T := poseCalToEigen (read_pose m i) in let a := m (intrinsics_key p) in
    vz (iso_app T (in_target x)) <> 0 -> rb_eval b m = lens_error (camera_of a) (lens_of a) T x.
Proof.
  intros E Eb. pose proof (used_bound _ _ _ _ _ _ E) as Hb.
  destruct (intrinsic_residuals p used blocks Eb Hb) as [H1 H2].
  apply initial_poses_spec in E as (Hs & Hu & Hp & _).
  split; [ exact Hs | split; [ exact Hu | split; [ | split; [ exact H1 | exact H2 ] ] ] ].
  intros i T HT. rewrite intrinsic_start_pose by (exact (located_bound _ _ _ _ _ _ HT)). apply Hp, HT.
Qed.

Lemma intrinsic_result_right u psolve pcov p : let n := List.length (ip_image_observations p) in
  exists blocks,
  List.length blocks = List.length (image_views p (seq 0 n)) /\
  (forall m j b i x, nth_error blocks j = Some b -> nth_error (image_views p (seq 0 n)) j = Some (i, x) ->
    let T := poseCalToEigen (read_pose m i) in
    vz (iso_app T (in_target x)) <> 0 -> rb_eval b m = lens_error (camera_of (m n)) (lens_of (m n)) T x) /\
  forall solve cov r, optimizeIntrinsic u psolve pcov solve cov p = Ok r ->
    (0 < n)%nat /\ (forall i, (i < n)%nat -> exists T, located u psolve pcov p i T) /\
    exists start m s, solve blocks start = (m, s) /\
      camera_of (start n) = ip_intrinsics_guess p /\ lens_of (start n) = no_distortion /\
      (forall i T, located u psolve pcov p i T -> read_pose start i = poseEigenToCal T) /\
      ir_converged r = term_convergence s /\
      ir_intrinsics r = camera_of (m n) /\
      ir_distortions r = (let d := lens_of (m n) in [d_k1 d; d_k2 d; d_p1 d; d_p2 d; d_k3 d]) /\
      ir_initial_cost_per_obs r = initial_cost s / INR (2 * List.length (image_views p (seq 0 n))) /\
      ir_final_cost_per_obs r = final_cost s / INR (2 * List.length (image_views p (seq 0 n))).
Proof.
  intros n.
  assert (Hb : forall i, In i (seq 0 n) -> (i < List.length (ip_image_observations p))%nat).
  { intros i Hi. apply in_seq in Hi. unfold n in Hi. lia. }
  pose proof (intrinsic_blocks_ok p (seq 0 n) Hb) as Eb. destruct (intrinsic_residuals p (seq 0 n) _ Eb Hb) as [H1 H2].
  exists (map (intrinsic_block p) (image_views p (seq 0 n))). split; [ exact H1 | ]. split; [ exact H2 | ].
  intros solve cov r E. apply intrinsic_ok in E as (poses & Ei & HN & _ & m & s & Es & F1 & F2 & F3 & F4 & F5 & _).
  split; [ exact HN | ]. apply initial_poses_spec in Ei as (_ & Hu & Hp & _). split.
  { intros i Hi. apply Hu, in_seq. fold n. lia. }
  exists (intrinsic_start p poses), m, s. split; [ exact Es | ].
  pose proof (intrinsic_start_camera p poses) as Hc.
  split; [ unfold camera_of; change n with (intrinsics_key p); rewrite !Hc; cbn; destruct (ip_intrinsics_guess p); reflexivity | ].
  split; [ unfold lens_of; change n with (intrinsics_key p); rewrite !Hc; reflexivity | ].
  split; [ intros i T HT; rewrite intrinsic_start_pose by (exact (located_bound _ _ _ _ _ _ HT)); apply Hp, HT | ].
  repeat split; assumption.
Qed.

(** Two images; the solver fails on the second. *)
Definition ex_image : list (correspondence vec2) := [Corr (V2 320 240) (V3 0 0 0); Corr (V2 420 240) (V3 (1/5) 0 0)].
Definition ex_intrinsic : intrinsic_problem := IP [ex_image; ex_image] (Intr 500 500 320 240) "pose".
Definition ex_fails_second : pnp_solvers := fun i _ x => (x, Summary (Nat.eqb i 0) 0 0).
Definition ex_solves : pnp_solvers := fun _ _ x => (x, Summary true 0 0).

Lemma ex_pnp_image u solve i : (i < 2)%nat -> exists obs r, nth_error (ip_image_observations ex_intrinsic) i = Some obs /\
  optimizePnP u solve ex_cov_oracle (image_pnp ex_intrinsic obs) = Ok r /\
  exists blocks x0 x s, solve blocks x0 = (x, s) /\ pnp_converged r = term_convergence s.
Proof.
  intros Hi. exists ex_image. destruct (pnp_succeeds2 u solve ex_cov_oracle (image_pnp ex_intrinsic ex_image)) as [r Hr];
    [ reflexivity | reflexivity | apply ex_oracle_sym | discriminate | ].
  exists r. split; [ destruct i as [|[|i]]; [ reflexivity .. | lia ] | ]. split; [ exact Hr | ].
  rewrite optimizePnP_unfold in Hr. apply pnp_finish_fields in Hr as (x & s & H1 & H2 & _). eauto 10.
Qed.
Lemma ex_located u i : (i < 2)%nat -> exists T, located u ex_solves (fun _ => ex_cov_oracle) ex_intrinsic i T.
Proof.
  intros Hi. destruct (ex_pnp_image u (ex_solves i) i Hi) as (o & r & H1 & H2 & bl & x0 & x & s & Hs & Hc).
  injection Hs as _ <-. exists (pnp_camera_to_target r), o, r. auto.
Qed.
Lemma ex_first_located u : exists T, located u ex_fails_second (fun _ => ex_cov_oracle) ex_intrinsic 0 T.
Proof.
  destruct (ex_pnp_image u (ex_fails_second 0%nat) 0) as (o & r & H1 & H2 & bl & x0 & x & s & Hs & Hc); [ lia | ].
  injection Hs as _ <-. exists (pnp_camera_to_target r), o, r. auto.
Qed.
Lemma ex_second_fails u : not_located u ex_fails_second (fun _ => ex_cov_oracle) ex_intrinsic 1.
Proof.
  destruct (ex_pnp_image u (ex_fails_second 1%nat) 1) as (o & r & H1 & H2 & bl & x0 & x & s & Hs & Hc); [ lia | ].
  injection Hs as _ <-. exists o. split; [ exact H1 | right; exists r; auto ].
Qed.
Lemma ex_intrinsic_ok u solve : exists r, optimizeIntrinsic u ex_solves (fun _ => ex_cov_oracle) solve ex_cov_oracle ex_intrinsic = Ok r.
Proof. apply intrinsic_succeeds; [ cbn; lia | apply ex_located | reflexivity | reflexivity | apply ex_oracle_sym ]. Qed.
Lemma intrinsic_refuted : exists p psolve pcov, forall u,
  (exists T, located u psolve pcov p 0 T) /\ not_located u psolve pcov p 1 /\
  forall solve cov, optimizeIntrinsic u psolve pcov solve cov p = UB.
Proof.
  exists ex_intrinsic, ex_fails_second, (fun _ => ex_cov_oracle). intros u.
  split; [ apply ex_first_located | split; [ apply ex_second_fails | ] ].
  intros solve cov. apply (failed_image_aborts _ _ _ _ _ _ 1), ex_second_fails.
Qed.
Lemma ex_lens : lens_project (Intr 500 400 320 240) (Dist (1/10) 0 (1/5) (3/10) 0) (V3 2 2 2) = V2 1720 1280.
Proof. unfold lens_project, distort. cbn. f_equal; field. Qed.
