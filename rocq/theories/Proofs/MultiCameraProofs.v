(** C30, C31, C32 and the multi-camera part of C20. *)
From Coq Require Import Reals Lra Psatz Arith Lia String List Permutation.
From Verif.Base Require Import Geom Outcome Matrix.
From Verif.Model Require Import Pose Covariance Solver HandEye BlockSolver MultiCamera.
From Verif.Spec Require Import CovarianceSpec PinHole Frames PnpSpec ReportSpec MultiSpec.
From Verif.Proofs Require Import GeomLemmas RotLemmas AngleAxisLemmas PoseProofs ListLemmas CovarianceProofs HandEyeProofs PnpProofs.
Import ListNotations.
Local Open Scope R_scope.

(** ** Costs *)
Lemma image_residual_eq k T x : image_residual k (iso_app T (in_target x)) (in_image x) = seen_error k T x.
Proof. reflexivity. Qed.

Lemma static_cost_eq k W x pc pt : static_cost (in_image x) k W (in_target x) pc pt =
  seen_error k (iso_mul (poseCalToEigen pc) (iso_mul (poseCalToEigen (poseEigenToCal W)) (poseCalToEigen pt))) x.
Proof.
  unfold static_cost. rewrite !transformPoint_pose, <- !cal_to_eigen_acts, <- image_residual_eq, !iso_app_mul. reflexivity.
Qed.
Lemma free_camera_cost_eq k x pc pt : free_camera_cost (in_image x) k (in_target x) pc pt =
  seen_error k (iso_mul (poseCalToEigen pc) (poseCalToEigen pt)) x.
Proof. unfold free_camera_cost. rewrite !transformPoint_pose, <- image_residual_eq, !iso_app_mul. reflexivity. Qed.
Lemma fixed_camera_cost_eq k C x pt : fixed_camera_cost (in_image x) k C (in_target x) pt =
  seen_error k (iso_mul (poseCalToEigen (poseEigenToCal (iso_inv C))) (poseCalToEigen pt)) x.
Proof.
  unfold fixed_camera_cost. rewrite !transformPoint_pose, <- !cal_to_eigen_acts, <- image_residual_eq, !iso_app_mul. reflexivity.
Qed.
Lemma wrist_cost_eq k W C x pc pt : wrist_cost (in_image x) k W C (in_target x) pc pt =
  seen_error k (iso_mul (poseCalToEigen (poseEigenToCal (iso_inv C)))
    (iso_mul (poseCalToEigen pc) (iso_mul (poseCalToEigen (poseEigenToCal W)) (poseCalToEigen pt)))) x.
Proof.
  unfold wrist_cost. rewrite !transformPoint_pose, <- !cal_to_eigen_acts, <- image_residual_eq, !iso_app_mul. reflexivity.
Qed.
Lemma mpnp_cost_eq k C x pt : mpnp_cost (in_image x) k C (in_target x) pt =
  seen_error k (iso_mul (poseCalToEigen (poseEigenToCal C)) (poseCalToEigen pt)) x.
Proof.
  unfold mpnp_cost. rewrite !transformPoint_pose, <- !cal_to_eigen_acts, <- image_residual_eq, !iso_app_mul. reflexivity.
Qed.

(** ** Loops *)
Lemma foldM_concat {A B} (F : list B -> A -> res (list B)) (g : A -> list B) l s :
  (forall s a, In a l -> F s a = Ok (s ++ g a)%list) -> foldM F l s = Ok (s ++ flat_map g l)%list.
Proof.
  revert s. induction l as [|a r IH]; intros s H; cbn [foldM flat_map]; [ rewrite app_nil_r; reflexivity | ].
  rewrite H by (left; reflexivity). cbn [bind]. rewrite IH by (intros; apply H; right; assumption).
  rewrite app_assoc. reflexivity.
Qed.
Lemma flat_map_single {A B} (f : A -> B) l : flat_map (fun a => [f a]) l = map f l.
Proof. induction l as [|a r IH]; cbn; [ reflexivity | rewrite IH; reflexivity ]. Qed.
Lemma flat_map_map {A B C} (f : B -> list C) (g : A -> B) l : flat_map f (map g l) = flat_map (fun a => f (g a)) l.
Proof. induction l as [|a r IH]; cbn; [ reflexivity | rewrite IH; reflexivity ]. Qed.
Lemma flat_map_flat_map {A B C} (f : B -> list C) (g : A -> list B) l :
  flat_map f (flat_map g l) = flat_map (fun a => flat_map f (g a)) l.
Proof. induction l as [|a r IH]; cbn; [ reflexivity | rewrite flat_map_app', IH; reflexivity ]. Qed.
Lemma map_flat_map {A B C} (f : B -> C) (g : A -> list B) l :
  map f (flat_map g l) = flat_map (fun a => map f (g a)) l.
Proof. induction l as [|a r IH]; cbn; [ reflexivity | rewrite map_app, IH; reflexivity ]. Qed.
Lemma flat_map_ext' {A B} (f g : A -> list B) l : (forall a, In a l -> f a = g a) -> flat_map f l = flat_map g l.
Proof.
  induction l as [|a r IH]; intros H; cbn; [ reflexivity | ].
  rewrite H by (left; reflexivity). rewrite IH; [ reflexivity | ]. intros; apply H; right; assumption.
Qed.

Lemma camera_major_map {B} (f : view -> B) images ni n : map f (views images (camera_major ni n)) =
  flat_map (fun c => flat_map (fun i => map (fun x => f (c, i, x)) (nth i (nth c images []) [])) (seq 0 (ni c))) (seq 0 n).
Proof.
  unfold views, camera_major. rewrite flat_map_flat_map, map_flat_map. apply flat_map_ext'. intros c _.
  rewrite flat_map_map, map_flat_map. apply flat_map_ext'. intros i _. rewrite map_map. reflexivity.
Qed.
Lemma image_major_map {B} (f : view -> B) images ni n : map f (views images (image_major ni n)) =
  flat_map (fun i => flat_map (fun c => map (fun x => f (c, i, x)) (nth i (nth c images []) [])) (seq 0 n)) (seq 0 ni).
Proof.
  unfold views, image_major. rewrite flat_map_flat_map, map_flat_map. apply flat_map_ext'. intros c _.
  rewrite flat_map_map, map_flat_map. apply flat_map_ext'. intros i _. rewrite map_map. reflexivity.
Qed.

Lemma in_camera_major ni n c i : In (c, i) (camera_major ni n) <-> (c < n)%nat /\ (i < ni c)%nat.
Proof.
  unfold camera_major. rewrite in_flat_map. split.
  - intros (c' & Hc & H). apply in_map_iff in H as (i' & [= <- <-] & H). apply in_seq in Hc, H. lia.
  - intros [H1 H2]. exists c. split; [ apply in_seq; lia | ]. apply in_map_iff. exists i. split; [ reflexivity | apply in_seq; lia ].
Qed.
Lemma in_image_major ni n c i : In (c, i) (image_major ni n) <-> (c < n)%nat /\ (i < ni)%nat.
Proof.
  unfold image_major. rewrite in_flat_map. split.
  - intros (c' & Hc & H). apply in_map_iff in H as (i' & [= <- <-] & H). apply in_seq in Hc, H. lia.
  - intros [H1 H2]. exists i. split; [ apply in_seq; lia | ]. apply in_map_iff. exists c. split; [ reflexivity | apply in_seq; lia ].
Qed.
Lemma in_views images order c i x : In (c, i, x) (views images order) <->
  In (c, i) order /\ In x (nth i (nth c images []) []).
Proof.
  unfold views. rewrite in_flat_map. split.
  - intros ([c' i'] & Ho & H). apply in_map_iff in H as (x' & [= <- <- <-] & H). auto.
  - intros [H1 H2]. exists (c, i). split; [ exact H1 | ]. apply in_map_iff. eauto.
Qed.

(** ** Memory *)
Lemma read_pose_elem m k p : (forall i, m k i = pose_elem p i) -> read_pose m k = p.
Proof. intros H. unfold read_pose. rewrite !H. destruct p. reflexivity. Qed.
Lemma num_blocks {A} (f : A -> rblock) n l m : (forall a, List.length (rb_eval (f a) m) = n) ->
  num_block_residuals (map f l) m = (n * List.length l)%nat.
Proof.
  intros H. unfold num_block_residuals. induction l as [|a r IH]; cbn [map flat_map List.length]; [ lia | ].
  rewrite app_length, H, IH. lia.
Qed.
Lemma iso_inv_cases T : rigid T -> iso_inv (iso_inv T) = T.
Proof. apply iso_inv_inv. Qed.

(** ** Multi-static-camera *)
Section Static.
Variable p : static_problem.
Let n := List.length (sp_base_to_camera_guess p).
Let wk := static_wrist_key p.

Definition static_block (v : view) : rblock :=
  let '(c, i, x) := v in
  RB [c; wk] (fun m => static_cost (in_image x) (nth c (sp_intr p) intr0)
                         (nth i (nth c (sp_wrist_poses p) []) iso_id) (in_target x) (read_pose m c) (read_pose m wk)).

Lemma static_blocks_ok : static_sizes p -> static_blocks p = Ok (map static_block (static_views p)).
Proof.
  intros (H1 & H2 & H3 & H4). unfold static_blocks, static_views. rewrite camera_major_map.
  rewrite (foldM_concat _ (fun c => flat_map (fun i => map (fun x => static_block (c, i, x))
      (nth i (nth c (sp_image_observations p) []) [])) (seq 0 (List.length (nth c (sp_wrist_poses p) []))))).
  { reflexivity. }
  intros s c Hc. apply in_seq in Hc.
  rewrite (idx_ok _ c []) by lia. cbn [bind].
  apply foldM_concat. intros s' i Hi. apply in_seq in Hi.
  rewrite (idx_ok (sp_image_observations p) c []) by lia. cbn [bind].
  rewrite (idx_ok _ i []) by (rewrite H4; lia). cbn [bind].
  rewrite <- flat_map_single. apply foldM_concat. intros s'' x Hx.
  rewrite (idx_ok _ c intr0) by lia. cbn [bind]. rewrite (idx_ok _ i iso_id) by lia. reflexivity.
Qed.

Lemma static_start_wrist : read_pose (static_start p) wk = poseEigenToCal (sp_wrist_to_target_guess p).
Proof. apply read_pose_elem. intros i. unfold static_start, wk. rewrite Nat.eqb_refl. reflexivity. Qed.
Lemma static_start_camera c T : nth_error (sp_base_to_camera_guess p) c = Some T ->
  read_pose (static_start p) c = poseEigenToCal (iso_inv T).
Proof.
  intros H. apply read_pose_elem. intros i. unfold static_start.
  assert (L : (c < n)%nat) by (apply nth_error_Some; congruence).
  destruct (Nat.eqb_spec c (static_wrist_key p)) as [E|_]; [ unfold static_wrist_key in E; fold n in E; lia | ].
  rewrite H. reflexivity.
Qed.

Lemma static_eval m v : static_sizes p -> plain_wrists p -> In v (static_views p) ->
  (forall c, (c < n)%nat -> rigid (poseCalToEigen (read_pose m c))) ->
  rb_eval (static_block v) m =
  static_error p (fun c => iso_inv (poseCalToEigen (read_pose m c))) (poseCalToEigen (read_pose m wk)) v.
Proof.
  intros (H1 & H2 & H3 & H4) Pl Hv R. destruct v as [[c i] x]. apply in_views in Hv as [Ho _].
  apply in_camera_major in Ho as [Hc Hi]. cbn [static_block rb_eval static_error].
  rewrite static_cost_eq, iso_inv_cases by (apply R; exact Hc).
  rewrite plain_stored; [ reflexivity | ]. apply (Pl c). apply nth_In, Hi.
Qed.

Lemma optimizeStatic_fields u solve cov r : static_sizes p -> optimizeStatic u solve cov p = Ok r ->
  exists m s, solve (map static_block (static_views p)) (static_start p) = (m, s) /\
    sr_converged r = term_convergence s /\
    sr_wrist_to_target r = poseCalToEigen (read_pose m wk) /\
    sr_base_to_camera r = map (fun c => iso_inv (poseCalToEigen (read_pose m c))) (seq 0 n) /\
    sr_initial_cost_per_obs r = initial_cost s / INR (2 * List.length (static_views p)) /\
    sr_final_cost_per_obs r = final_cost s / INR (2 * List.length (static_views p)) /\
    computeCovariance u (mk_cov_problem cov (added_blocks (fun _ => 6%nat) (map static_block (static_views p))))
      (seq 0 n ++ [wk])%list (static_labels p) [] = Ok (sr_covariance r).
Proof.
  intros Hs. unfold optimizeStatic. rewrite static_blocks_ok by exact Hs. cbn [bind].
  destruct (solve _ _) as [m s]. destruct (computeCovariance _ _ _ _ _) as [c| |] eqn:Ec; cbn [bind]; try discriminate.
  intros [= <-]. exists m, s. rewrite (num_blocks _ 2) by (intros [[? ?] ?]; reflexivity). cbn. auto 10.
Qed.

Lemma nth_map_seq {A} (f : nat -> A) k c : (c < k)%nat -> nth_error (map f (seq 0 k)) c = Some (f c).
Proof.
  intros H. rewrite nth_error_map. replace (nth_error (seq 0 k) c) with (Some c); [ reflexivity | ].
  symmetry. rewrite (nth_error_nth' _ 0%nat) by (rewrite seq_length; exact H). rewrite seq_nth by exact H. reflexivity.
Qed.

(** The problem given to the solver. *)
Lemma static_right : static_sizes p -> plain_wrists p -> exists blocks,
  (forall m, (forall c, (c < n)%nat -> rigid (poseCalToEigen (read_pose m c))) ->
     map (fun b => rb_eval b m) blocks =
     map (static_error p (fun c => iso_inv (poseCalToEigen (read_pose m c))) (poseCalToEigen (read_pose m n))) (static_views p)) /\
  forall u solve cov r, optimizeStatic u solve cov p = Ok r ->
    exists m s, solve blocks (static_start p) = (m, s) /\
      sr_converged r = term_convergence s /\
      sr_wrist_to_target r = poseCalToEigen (read_pose m n) /\
      List.length (sr_base_to_camera r) = n /\
      (forall c T, nth_error (sr_base_to_camera r) c = Some T -> T = iso_inv (poseCalToEigen (read_pose m c))) /\
      sr_initial_cost_per_obs r = initial_cost s / INR (2 * List.length (static_views p)) /\
      sr_final_cost_per_obs r = final_cost s / INR (2 * List.length (static_views p)).
Proof.
  intros Hs Pl. exists (map static_block (static_views p)). split.
  - intros m R. rewrite map_map. apply map_ext_in. intros v Hv. apply static_eval; assumption.
  - intros u solve cov r E. destruct (optimizeStatic_fields _ _ _ _ Hs E) as (m & s & Es & A1 & A2 & A3 & A4 & A5 & _).
    exists m, s. rewrite A3, map_length, seq_length. do 3 (split; [ assumption | ]). split; [ reflexivity | ].
    split; [ | auto ]. intros c T Hc. assert (L : (c < n)%nat) by (rewrite <- (seq_length n 0), <- (map_length (fun c => iso_inv (poseCalToEigen (read_pose m c)))); apply nth_error_Some; congruence).
    rewrite nth_map_seq in Hc by exact L. congruence.
Qed.

Lemma static_unmoved u solve cov r : static_sizes p -> guesses_plain_static p -> stands_still solve ->
  optimizeStatic u solve cov p = Ok r ->
  sr_wrist_to_target r = sp_wrist_to_target_guess p /\ sr_base_to_camera r = sp_base_to_camera_guess p.
Proof.
  intros Hs [G1 G2] St E. destruct (optimizeStatic_fields _ _ _ _ Hs E) as (m & s & Es & _ & A2 & A3 & _).
  pose proof (f_equal fst Es) as Ex. rewrite St in Ex. cbn [fst] in Ex. subst m.
  rewrite A2, A3, static_start_wrist, plain_stored by exact G1. split; [ reflexivity | ].
  apply (nth_ext _ _ iso_id iso_id); [ rewrite map_length, seq_length; reflexivity | ].
  rewrite map_length, seq_length. intros c Hc.
  rewrite (nth_error_nth _ c iso_id (nth_map_seq _ n c Hc)).
  pose proof (nth_error_nth' (sp_base_to_camera_guess p) iso_id Hc) as Hn.
  rewrite (static_start_camera c _ Hn). pose proof (G2 _ (nth_error_In _ _ Hn)) as Pc.
  rewrite plain_stored by (apply plain_inv, Pc). apply iso_inv_inv, plain_rigid, Pc.
Qed.

(** *** Covariance *)
Lemma find_added size blocks k : find_key k (added_blocks size blocks) =
  if in_dec Nat.eq_dec k (flat_map rb_keys blocks) then Some (size k) else None.
Proof.
  unfold added_blocks.
  assert (G : forall l acc, find_key k (fold_left (fun added k => insert_key k (size k) added) l acc) =
    if in_dec Nat.eq_dec k l then Some (size k) else find_key k acc).
  { induction l as [|a r IH]; intros acc; cbn [fold_left]; [ reflexivity | ]. rewrite IH.
    destruct (in_dec Nat.eq_dec k r) as [I|I]; destruct (in_dec Nat.eq_dec k (a :: r)) as [J|J]; try reflexivity.
    - exfalso. apply J. right. exact I.
    - destruct J as [->|J]; [ apply find_insert_same | contradiction ].
    - apply find_insert_other. intros ->. apply J. left. reflexivity. }
  rewrite G. reflexivity.
Qed.

Lemma static_keys k : In k (flat_map rb_keys (map static_block (static_views p))) <->
  (exists i x, In (k, i, x) (static_views p)) \/ (k = wk /\ static_views p <> []).
Proof.
  rewrite flat_map_map, in_flat_map. split.
  - intros ([[c i] x] & Hv & [<-|[<-|[]]]); [ left; eauto | right ]. split; [ reflexivity | ].
    intros E. rewrite E in Hv. destruct Hv.
  - intros [(i & x & H)|[-> H]].
    + exists (k, i, x). split; [ exact H | left; reflexivity ].
    + destruct (static_views p) as [|[[c i] x] r]; [ congruence | ].
      exists (c, i, x). split; [ left; reflexivity | right; left; reflexivity ].
Qed.

Lemma static_labels_find c : (c < n)%nat -> find_key c (static_labels p) =
  Some (map (fun l => String.append (sp_label_base_to_camera p) (String.append (to_string c) (String.append "_" l))) labels_isometry).
Proof.
  intros Hc. unfold static_labels. rewrite find_insert_other by (unfold static_wrist_key; fold n; lia). fold n.
  set (L := fun c => map (fun l => String.append (sp_label_base_to_camera p)
                                      (String.append (to_string c) (String.append "_" l))) labels_isometry).
  change (find_key c (fold_left (fun labels c => insert_key c (L c) labels) (seq 0 n) []) = Some (L c)).
  assert (G : forall l acc, In c l -> find_key c (fold_left (fun labels c => insert_key c (L c) labels) l acc) = Some (L c)).
  { intros l. induction l as [|a r IH] using rev_ind; intros acc H; [ destruct H | ].
    rewrite fold_left_app. cbn [fold_left]. destruct (Nat.eq_dec c a) as [->|N]; [ apply find_insert_same | ].
    rewrite find_insert_other by exact N. apply IH. apply in_app_or in H as [H|[H|[]]]; [ exact H | congruence ]. }
  apply G, in_seq. lia.
Qed.
Lemma static_labels_wrist : find_key wk (static_labels p) =
  Some (map (fun l => String.append (sp_label_wrist_to_target p) (String.append "_" l)) labels_isometry).
Proof. unfold static_labels. apply find_insert_same. Qed.
Lemma static_labels_keys k : In k (keys (static_labels p)) <-> (k <= n)%nat.
Proof.
  unfold static_labels. rewrite keys_insert. unfold static_wrist_key. fold n. set (F := fun labels c => _).
  assert (G : forall l acc, In k (keys (fold_left F l acc)) <-> In k l \/ In k (keys acc)).
  { induction l as [|a r IH]; intros acc; cbn [fold_left]; [ cbn; tauto | ].
    rewrite IH. unfold F. rewrite keys_insert. cbn. intuition. }
  rewrite G, in_seq. cbn. lia.
Qed.
Lemma insert_nodup {V} k (v : V) m : NoDup (keys m) -> NoDup (keys (insert_key k v m)).
Proof.
  intros H. destruct (in_dec Nat.eq_dec k (keys m)) as [I|I].
  - replace (keys (insert_key k v m)) with (keys m); [ exact H | ].
    clear H. unfold keys in *. induction m as [|[a b] r IH]; cbn in *; [ destruct I | ].
    destruct (Nat.eqb_spec k a) as [->|N]; [ reflexivity | ]. cbn. f_equal. apply IH. destruct I; [ congruence | assumption ].
  - rewrite insert_key_fresh by exact I. unfold keys in *. rewrite map_app. cbn.
    apply Permutation_NoDup with (k :: map fst m); [ apply Permutation_cons_append | constructor; assumption ].
Qed.
Lemma static_labels_length : List.length (static_labels p) = S n.
Proof.
  assert (N : NoDup (keys (static_labels p))).
  { unfold static_labels. apply insert_nodup. generalize (seq 0 (List.length (sp_base_to_camera_guess p))).
    set (F := fun labels c => _).
    assert (G : forall l acc, NoDup (keys acc) -> NoDup (keys (fold_left F l acc))).
    { induction l as [|a r IH]; intros acc H; cbn [fold_left]; [ exact H | apply IH, insert_nodup, H ]. }
    intros l. apply G. constructor. }
  transitivity (List.length (keys (static_labels p))); [ unfold keys; rewrite map_length; reflexivity | ].
  rewrite <- (seq_length (S n) 0). apply Permutation_length, NoDup_Permutation; [ exact N | apply seq_NoDup | ].
  intros k. rewrite static_labels_keys, in_seq. lia.
Qed.

Lemma static_succeeds u solve cov : static_sizes p -> all_cameras_used p -> (0 < n)%nat ->
  (forall bs, co_compute cov bs = true) -> (forall bs, co_get cov bs = true) ->
  (forall b i c j, co_cov cov b i c j = co_cov cov c j b i) ->
  exists r, optimizeStatic u solve cov p = Ok r.
Proof.
  intros Hs Hu Hn Hc Hg Sy. unfold optimizeStatic. rewrite static_blocks_ok by exact Hs. cbn [bind].
  destruct (solve _ _) as [m s]. set (pb := mk_cov_problem cov _). fold n. fold wk.
  assert (Ne : static_views p <> []).
  { destruct (Hu 0%nat Hn) as (i & x & H). intros E. rewrite E in H. destruct H. }
  destruct (covariance_ok u pb (seq 0 n ++ [wk])%list (static_labels p) []) as (c & -> & _).
  - exact Sy.
  - split; [ rewrite app_length, seq_length, static_labels_length; cbn; lia | split; [ | split; [ apply Hc | apply Hg ] ] ].
    intros b Hb. unfold labels_fit. unfold pb. cbn [pb_size mk_cov_problem]. rewrite find_added.
    destruct (in_dec _ _ _) as [_|N].
    + apply in_app_or in Hb as [Hb|[<-|[]]].
      * apply in_seq in Hb. rewrite static_labels_find by lia. eexists; split; reflexivity.
      * rewrite static_labels_wrist. eexists; split; reflexivity.
    + exfalso. apply N, static_keys. apply in_app_or in Hb as [Hb|[<-|[]]]; [ | right; auto ].
      left. apply Hu. apply in_seq in Hb. lia.
  - cbn. eexists; reflexivity.
Qed.

Lemma foldM_ub {St A} (F : St -> A -> res St) l s a : In a l ->
  (forall t, F t a = UB) -> (forall t b, In b l -> F t b = UB \/ exists t', F t b = Ok t') -> foldM F l s = UB.
Proof.
  intros Ha Hu Ho. revert s. induction l as [|b r IH]; intros s; [ destruct Ha | ].
  cbn [foldM]. destruct (Ho s b (or_introl eq_refl)) as [E|[t E]]; rewrite E; cbn [bind]; [ reflexivity | ].
  destruct Ha as [->|Ha]; [ rewrite Hu in E; discriminate | ]. apply IH; [ exact Ha | ].
  intros t' b' Hb'. apply Ho. right. exact Hb'.
Qed.

Lemma labels_at_six labels offset masks st i : List.length labels = 6%nat -> (i < 6)%nat ->
  exists st', tangent_step labels masks offset st i = Ok st'.
Proof.
  intros H Hi. destruct st as [a b]. unfold tangent_step. destruct (in_mask masks i); [ eexists; reflexivity | ].
  rewrite (at_ok _ i EmptyString) by lia. eexists; reflexivity.
Qed.
Lemma tangent_loop labels offset masks st l : List.length labels = 6%nat -> (forall i, In i l -> (i < 6)%nat) ->
  exists st', foldM (tangent_step labels masks offset) l st = Ok st'.
Proof.
  revert st. induction l as [|i r IH]; intros st H Hl; [ eexists; reflexivity | ]. cbn [foldM].
  destruct (labels_at_six labels offset masks st i H (Hl i (or_introl eq_refl))) as [st' ->]. cbn [bind].
  apply IH; [ exact H | ]. intros j Hj. apply Hl. right. exact Hj.
Qed.

(** A camera without a single correspondence makes the covariance step abort. *)
Lemma static_unused_aborts u solve cov c : static_sizes p -> (c < n)%nat ->
  (forall i x, ~ In (c, i, x) (static_views p)) -> optimizeStatic u solve cov p = UB.
Proof.
  intros Hs Hc Hn. unfold optimizeStatic. rewrite static_blocks_ok by exact Hs. cbn [bind].
  destruct (solve _ _) as [m s]. set (pb := mk_cov_problem cov _). fold n. fold wk.
  unfold computeCovariance. rewrite app_length, seq_length, static_labels_length. cbn [List.length].
  rewrite Nat.add_1_r, Nat.eqb_refl. cbn [negb].
  rewrite (foldM_ub _ _ _ c); [ reflexivity | apply in_or_app; left; apply in_seq; lia | | ].
  - intros [k t]. unfold block_step, blockSize, pb. cbn [pb_size mk_cov_problem]. rewrite find_added.
    destruct (in_dec _ _ _) as [I|_]; [ | reflexivity ]. exfalso. apply static_keys in I as [(i & x & H)|[E _]].
    + exact (Hn i x H).
    + unfold wk, static_wrist_key in E. fold n in E. lia.
  - intros [k t] b Hb. unfold block_step, blockSize, pb. cbn [pb_size mk_cov_problem]. rewrite find_added.
    destruct (in_dec _ _ _) as [I|_]; [ right | left; reflexivity ]. cbn [bind].
    assert (Hl : exists l, find_key b (static_labels p) = Some l /\ List.length l = 6%nat).
    { apply in_app_or in Hb as [Hb|[<-|[]]].
      - apply in_seq in Hb. rewrite static_labels_find by lia. eexists; split; reflexivity.
      - rewrite static_labels_wrist. eexists; split; reflexivity. }
    destruct Hl as (l & -> & L6). rewrite L6. cbn [Nat.eqb negb].
    destruct (tangent_loop l k [] t (seq 0 6) L6) as [st' E]; [ intros i Hi; apply in_seq in Hi; lia | ].
    cbn [find_key]. rewrite E. cbn [bind]. eexists; reflexivity.
Qed.

Lemma static_ok_used u solve cov r : static_sizes p -> optimizeStatic u solve cov p = Ok r -> all_cameras_used p /\ static_views p <> [].
Proof.
  intros Hs E. destruct (optimizeStatic_fields _ _ _ _ Hs E) as (m & s & _ & _ & _ & _ & _ & _ & Ec).
  apply covariance_ok_inv in Ec as (_ & Hb & _).
  assert (K : forall b, In b (seq 0 n ++ [wk])%list -> In b (flat_map rb_keys (map static_block (static_views p)))).
  { intros b Hin. destruct (Hb b Hin) as (l & _ & Hz). cbn [pb_size mk_cov_problem] in Hz. rewrite find_added in Hz.
    destruct (in_dec _ _ _) as [I|_]; [ exact I | discriminate ]. }
  split.
  - intros c Hc. specialize (K c). rewrite static_keys in K.
    destruct K as [K|[K _]]; [ apply in_or_app; left; apply in_seq; lia | exact K | ].
    unfold wk, static_wrist_key in K. fold n in K. lia.
  - specialize (K wk). rewrite static_keys in K.
    destruct K as [(i & x & K)|[_ K]]; [ apply in_or_app; right; left; reflexivity | | exact K ].
    intros N. rewrite N in K. destruct K.
Qed.

(** What the covariance report lists. *)
Lemma static_report u solve cov r : static_sizes p ->
  (forall b i c j, co_cov cov b i c j = co_cov cov c j b i) ->
  optimizeStatic u solve cov p = Ok r ->
  reports (sr_covariance r) cov (elements (fun _ => 6%nat) (seq 0 (S n)))
    (fun e => String.append (if Nat.eqb (fst e) n then sp_label_wrist_to_target p
                             else String.append (sp_label_base_to_camera p) (to_string (fst e)))
                (String.append "_" (nth (snd e) labels_isometry ""%string))).
Proof.
  intros Hs Sy E. destruct (static_ok_used _ _ _ _ Hs E) as [Hu Ne].
  destruct (optimizeStatic_fields _ _ _ _ Hs E) as (m & s & _ & _ & _ & _ & _ & _ & Ec).
  pose proof (report_spec _ _ _ _ _ _ Sy Ec) as Rp.
  replace (seq 0 n ++ [wk])%list with (seq 0 (S n)) in Rp by (rewrite seq_S; reflexivity).
  rewrite (elements_ext _ (fun _ => 6%nat)) in Rp.
  - destruct Rp as (R1 & R2). split; [ rewrite R1 | exact R2 ].
    apply map_ext_in. intros [b i] Hin. unfold elements in Hin. apply in_flat_map in Hin as (b' & Hb & Hi).
    apply in_map_iff in Hi as (i' & [= -> ->] & Hi). apply in_seq in Hb, Hi. cbn [fst snd]. unfold label_of. cbn [fst snd].
    destruct (Nat.eqb_spec b n) as [->|Nb].
    + change n with wk at 1. rewrite static_labels_wrist.
      do 6 (destruct i as [|i]; [ reflexivity | ]). lia.
    + rewrite static_labels_find by lia.
      assert (A : forall a b c, String.append a (String.append b c) = String.append (String.append a b) c).
      { intros a b0 c0. induction a as [|h t IH]; cbn; [ reflexivity | rewrite IH; reflexivity ]. }
      do 6 (destruct i as [|i]; [ cbn [nth map labels_isometry]; rewrite A; reflexivity | ]). lia.
  - intros b Hb. rewrite find_added. destruct (in_dec _ _ _) as [_|N]; [ reflexivity | ].
    exfalso. apply N, static_keys. apply in_seq in Hb. destruct (Nat.eq_dec b n) as [->|Nb]; [ right; auto | left; apply Hu; lia ].
Qed.
End Static.

Lemma seen_error_pinhole k T x : vz (iso_app T (in_target x)) <> 0 -> seen_error k T x = pixel_error k T x.
Proof. intros H. unfold seen_error, pixel_error. rewrite arr_pinhole by exact H. reflexivity. Qed.

Lemma iso_inv_id : iso_inv iso_id = iso_id.
Proof. apply iso_ext; geo_ring. Qed.

(** ** Camera-only *)
Section Only.
Variable p : only_problem.
Let n := List.length (op_base_to_camera_guess p).
Let ni := List.length (op_base_to_target_guess p).

Definition only_block (v : view) : rblock :=
  let '(c, i, x) := v in
  if andb (op_fix_first_camera p) (Nat.eqb c 0)
  then RB [only_target_key p i] (fun m =>
         fixed_camera_cost (in_image x) (nth c (op_intr p) intr0) (nth c (op_base_to_camera_guess p) iso_id)
           (in_target x) (read_pose m (only_target_key p i)))
  else RB [c; only_target_key p i] (fun m =>
         free_camera_cost (in_image x) (nth c (op_intr p) intr0) (in_target x)
           (read_pose m c) (read_pose m (only_target_key p i))).

Lemma only_blocks_ok : only_sizes p -> only_blocks p = Ok (map only_block (only_views p)).
Proof.
  intros (H1 & H2 & H3). unfold only_blocks, only_views. rewrite image_major_map.
  rewrite (foldM_concat _ (fun i => flat_map (fun c => map (fun x => only_block (c, i, x))
      (nth i (nth c (op_image_observations p) []) [])) (seq 0 n))).
  { reflexivity. }
  intros s i Hi. apply in_seq in Hi.
  apply foldM_concat. intros s' c Hc. apply in_seq in Hc.
  rewrite (idx_ok _ c []) by lia. cbn [bind].
  rewrite (idx_ok _ i []) by (rewrite H3; lia). cbn [bind].
  rewrite <- flat_map_single. apply foldM_concat. intros s'' x Hx.
  rewrite (idx_ok _ c intr0) by lia. cbn [bind]. rewrite (idx_ok _ c iso_id) by lia. reflexivity.
Qed.

Lemma only_start_camera c T : op_base_to_target_guess p <> [] -> nth_error (op_base_to_camera_guess p) c = Some T ->
  read_pose (only_start p) c = poseEigenToCal (iso_inv T).
Proof.
  intros N H. apply read_pose_elem. intros i. unfold only_start. rewrite H.
  destruct (op_base_to_target_guess p); [ congruence | reflexivity ].
Qed.
Lemma only_start_zero c T : op_base_to_target_guess p = [] -> nth_error (op_base_to_camera_guess p) c = Some T ->
  read_pose (only_start p) c = zero_pose.
Proof. intros N H. apply read_pose_elem. intros i. unfold only_start. rewrite H, N. reflexivity. Qed.
Lemma only_start_target i T : nth_error (op_base_to_target_guess p) i = Some T ->
  read_pose (only_start p) (only_target_key p i) = poseEigenToCal T.
Proof.
  intros H. apply read_pose_elem. intros j. unfold only_start, only_target_key.
  replace (nth_error (op_base_to_camera_guess p) (List.length (op_base_to_camera_guess p) + i)) with (@None iso)
    by (symmetry; apply nth_error_None; lia).
  replace (List.length (op_base_to_camera_guess p) + i - List.length (op_base_to_camera_guess p))%nat with i by lia.
  rewrite H. reflexivity.
Qed.

(** Camera poses the residuals stand for: the first one is the guess when it is fixed. *)
Definition only_cameras (m : mem) (c : nat) : iso :=
  if andb (op_fix_first_camera p) (Nat.eqb c 0) then nth c (op_base_to_camera_guess p) iso_id
  else iso_inv (poseCalToEigen (read_pose m c)).

Lemma only_eval m v : only_sizes p -> In v (only_views p) ->
  (op_fix_first_camera p = true -> forall T, nth_error (op_base_to_camera_guess p) 0 = Some T -> plain_pose T) ->
  (forall c, (c < n)%nat -> rigid (poseCalToEigen (read_pose m c))) ->
  rb_eval (only_block v) m =
  only_error p (only_cameras m) (fun i => poseCalToEigen (read_pose m (only_target_key p i))) v.
Proof.
  intros (H1 & H2 & H3) Hv Pl R. destruct v as [[c i] x]. apply in_views in Hv as [Ho _].
  apply in_image_major in Ho as [Hc Hi]. unfold only_block, only_error, only_cameras.
  destruct (op_fix_first_camera p) eqn:Ef; cbn [andb].
  - destruct (Nat.eqb_spec c 0) as [->|N]; cbn [rb_eval].
    + rewrite fixed_camera_cost_eq, plain_stored; [ reflexivity | ]. apply plain_inv, Pl; [ reflexivity | ].
      apply nth_error_nth', Hc.
    + rewrite free_camera_cost_eq, iso_inv_inv by (apply R; exact Hc). reflexivity.
  - cbn [rb_eval]. rewrite free_camera_cost_eq, iso_inv_inv by (apply R; exact Hc). reflexivity.
Qed.

Lemma only_block_two v m : List.length (rb_eval (only_block v) m) = 2%nat.
Proof. destruct v as [[c i] x]. unfold only_block. destruct (andb _ _); reflexivity. Qed.

Lemma optimizeOnly_eq solve : only_sizes p ->
  exists m s, solve (map only_block (only_views p)) (only_start p) = (m, s) /\
    optimizeOnly solve p = Ok (OR (term_convergence s)
      (initial_cost s / INR (2 * List.length (only_views p))) (final_cost s / INR (2 * List.length (only_views p)))
      (map (fun i => poseCalToEigen (read_pose m (only_target_key p i))) (seq 0 ni))
      (map (fun c => iso_inv (poseCalToEigen (read_pose m c))) (seq 0 n))).
Proof.
  intros Hs. unfold optimizeOnly. rewrite only_blocks_ok by exact Hs. cbn [bind].
  destruct (solve _ _) as [m s]. exists m, s. rewrite (num_blocks _ 2) by (intros v; apply only_block_two). auto.
Qed.

Lemma only_right : only_sizes p ->
  (op_fix_first_camera p = true -> forall T, nth_error (op_base_to_camera_guess p) 0 = Some T -> plain_pose T) ->
  exists blocks,
  (forall m, (forall c, (c < n)%nat -> rigid (poseCalToEigen (read_pose m c))) ->
     map (fun b => rb_eval b m) blocks =
     map (only_error p
            (fun c => if andb (op_fix_first_camera p) (Nat.eqb c 0) then nth c (op_base_to_camera_guess p) iso_id
                      else iso_inv (poseCalToEigen (read_pose m c)))
            (fun i => poseCalToEigen (read_pose m (n + i)%nat))) (only_views p)) /\
  forall solve, exists m s r, solve blocks (only_start p) = (m, s) /\ optimizeOnly solve p = Ok r /\
      or_converged r = term_convergence s /\
      or_base_to_target r = map (fun i => poseCalToEigen (read_pose m (n + i)%nat)) (seq 0 ni) /\
      or_base_to_camera r = map (fun c => iso_inv (poseCalToEigen (read_pose m c))) (seq 0 n) /\
      or_initial_cost_per_obs r = initial_cost s / INR (2 * List.length (only_views p)) /\
      or_final_cost_per_obs r = final_cost s / INR (2 * List.length (only_views p)).
Proof.
  intros Hs Pl. exists (map only_block (only_views p)). split.
  - intros m R. rewrite map_map. apply map_ext_in. intros v Hv. rewrite only_eval by assumption. reflexivity.
  - intros solve. destruct (optimizeOnly_eq solve Hs) as (m & s & Es & E). exists m, s. eexists.
    split; [ exact Es | ]. split; [ exact E | ]. repeat split; reflexivity.
Qed.

Lemma only_unmoved_from m0 (G : nat -> iso) : (forall c T, nth_error (op_base_to_camera_guess p) c = Some T ->
    iso_inv (poseCalToEigen (read_pose m0 c)) = T) ->
  map (fun c => iso_inv (poseCalToEigen (read_pose m0 c))) (seq 0 n) = op_base_to_camera_guess p.
Proof.
  intros H. apply (nth_ext _ _ iso_id iso_id); [ rewrite map_length, seq_length; reflexivity | ].
  rewrite map_length, seq_length. intros c Hc.
  rewrite (nth_error_nth _ c iso_id (nth_map_seq _ n c Hc)). apply H, nth_error_nth', Hc.
Qed.

Lemma only_unmoved solve r : only_sizes p -> stands_still solve -> op_base_to_target_guess p <> [] ->
  (forall T, In T (op_base_to_camera_guess p) -> plain_pose T) ->
  (forall T, In T (op_base_to_target_guess p) -> plain_pose T) ->
  optimizeOnly solve p = Ok r ->
  or_base_to_camera r = op_base_to_camera_guess p /\ or_base_to_target r = op_base_to_target_guess p.
Proof.
  intros Hs St N P1 P2 E. destruct (optimizeOnly_eq solve Hs) as (m & s & Es & E'). rewrite E' in E. injection E as <-.
  pose proof (f_equal fst Es) as Ex. rewrite St in Ex. cbn [fst] in Ex. subst m. cbn [or_base_to_camera or_base_to_target].
  split.
  - apply (only_unmoved_from _ (fun _ => iso_id)). intros c T H. rewrite (only_start_camera c T N H).
    pose proof (P1 _ (nth_error_In _ _ H)) as Pt. rewrite plain_stored by (apply plain_inv, Pt).
    apply iso_inv_inv, plain_rigid, Pt.
  - apply (nth_ext _ _ iso_id iso_id); [ rewrite map_length, seq_length; reflexivity | ].
    rewrite map_length, seq_length. intros i Hi.
    rewrite (nth_error_nth _ i iso_id (nth_map_seq _ ni i Hi)).
    pose proof (nth_error_nth' (op_base_to_target_guess p) iso_id Hi) as Hn.
    rewrite (only_start_target i _ Hn). apply plain_stored, P2, (nth_error_In _ _ Hn).
Qed.

Lemma only_fixed_keys k : In k (flat_map rb_keys (map only_block (only_views p))) -> op_fix_first_camera p = true ->
  (0 < n)%nat -> k <> 0%nat.
Proof.
  intros H Hf Hn. rewrite flat_map_map in H. apply in_flat_map in H as ([[c i] x] & Hv & H).
  unfold only_block in H. rewrite Hf in H. cbn [andb] in H. unfold only_target_key in H. fold n in H.
  destruct (Nat.eqb_spec c 0) as [->|N]; cbn in H; lia.
Qed.

Lemma only_first_fixed solve r T : only_sizes p -> leaves_others solve -> op_fix_first_camera p = true ->
  op_base_to_target_guess p <> [] -> nth_error (op_base_to_camera_guess p) 0 = Some T -> plain_pose T ->
  optimizeOnly solve p = Ok r -> nth_error (or_base_to_camera r) 0 = Some T.
Proof.
  intros Hs Lo Hf N H0 Pt E. destruct (optimizeOnly_eq solve Hs) as (m & s & Es & E'). rewrite E' in E. injection E as <-.
  cbn [or_base_to_camera]. assert (L : (0 < n)%nat) by (apply nth_error_Some; congruence).
  rewrite nth_map_seq by exact L. f_equal.
  assert (Hm : read_pose m 0 = poseEigenToCal (iso_inv T)).
  { rewrite <- (only_start_camera 0 T N H0). pose proof (f_equal fst Es) as Ex. cbn [fst] in Ex. subst m.
    unfold read_pose. rewrite !Lo; [ reflexivity | intros H; exact (only_fixed_keys _ H Hf L eq_refl) .. ]. }
  rewrite Hm, plain_stored by (apply plain_inv, Pt). apply iso_inv_inv, plain_rigid, Pt.
Qed.

Lemma no_views : op_base_to_target_guess p = [] -> only_views p = [].
Proof. intros N. unfold only_views. rewrite N. reflexivity. Qed.

Lemma zero_pose_id : poseCalToEigen zero_pose = iso_id.
Proof.
  unfold poseCalToEigen, zero_pose. cbn [p_rx p_ry p_rz]. pose proof DBL_EPS_pos.
  destruct (Rlt_dec DBL_EPS (dot (V3 0 0 0) (V3 0 0 0))) as [L|_]; [ exfalso; geo_unfold; lra | ].
  cbn. apply iso_ext; geo_ring.
Qed.

Lemma only_no_images solve r : op_base_to_target_guess p = [] -> leaves_others solve ->
  optimizeOnly solve p = Ok r -> or_base_to_camera r = repeat iso_id n.
Proof.
  intros N Lo. unfold optimizeOnly, only_blocks. rewrite N. cbn [List.length seq foldM bind].
  destruct (solve [] (only_start p)) as [m s] eqn:Es. intros [= <-]. cbn [or_base_to_camera]. fold n.
  pose proof (f_equal fst Es) as Ex. cbn [fst] in Ex. subst m.
  assert (G : forall l, (forall c, In c l -> (c < n)%nat) ->
    map (fun c => iso_inv (poseCalToEigen (read_pose (fst (solve [] (only_start p))) c))) l = repeat iso_id (List.length l)).
  { induction l as [|c r IH]; intros Hl; [ reflexivity | ]. cbn [map List.length repeat].
    rewrite IH by (intros; apply Hl; right; assumption). f_equal.
    assert (Hc : (c < n)%nat) by (apply Hl; left; reflexivity).
    replace (read_pose (fst (solve [] (only_start p))) c) with zero_pose.
    { rewrite zero_pose_id. apply iso_inv_id. }
    symmetry. rewrite <- (only_start_zero c _ N (nth_error_nth' _ iso_id Hc)).
    unfold read_pose. rewrite !Lo by (intros []). reflexivity. }
  rewrite G, seq_length; [ reflexivity | ]. intros c Hc. apply in_seq in Hc. lia.
Qed.
End Only.

(** ** Wrist-only *)
Section Wrist.
Variable p : wrist_problem.
Let n := List.length (wp_base_to_camera_guess p).

Definition wrist_block (v : view) : rblock :=
  let '(c, i, x) := v in
  RB [key_correction; key_wrist_target] (fun m =>
    wrist_cost (in_image x) (nth c (wp_intr p) intr0) (nth i (wp_wrist_poses p) iso_id)
      (nth c (wp_base_to_camera_guess p) iso_id) (in_target x) (read_pose m key_correction) (read_pose m key_wrist_target)).

Lemma wrist_blocks_ok : wrist_sizes p -> wrist_blocks p = Ok (map wrist_block (wrist_views p)).
Proof.
  intros (H1 & H2 & H3). unfold wrist_blocks, wrist_views. rewrite camera_major_map.
  rewrite (foldM_concat _ (fun c => flat_map (fun i => map (fun x => wrist_block (c, i, x))
      (nth i (nth c (wp_image_observations p) []) [])) (seq 0 (List.length (wp_wrist_poses p))))).
  { reflexivity. }
  intros s c Hc. apply in_seq in Hc.
  apply foldM_concat. intros s' i Hi. apply in_seq in Hi.
  rewrite (idx_ok _ c []) by lia. cbn [bind].
  rewrite (idx_ok _ i []) by (rewrite H3; lia). cbn [bind].
  rewrite <- flat_map_single. apply foldM_concat. intros s'' x Hx.
  rewrite (idx_ok _ i iso_id) by lia. cbn [bind]. rewrite (idx_ok _ c iso_id) by lia. cbn [bind].
  rewrite (idx_ok _ c intr0) by lia. reflexivity.
Qed.

Lemma optimizeWrist_eq solve : wrist_sizes p ->
  exists m s, solve (map wrist_block (wrist_views p)) (wrist_start p) = (m, s) /\
    optimizeWrist solve p = Ok (WR (term_convergence s)
      (initial_cost s / INR (2 * List.length (wrist_views p))) (final_cost s / INR (2 * List.length (wrist_views p)))
      (poseCalToEigen (read_pose m key_wrist_target))
      (map (fun T => iso_mul (iso_inv (poseCalToEigen (read_pose m key_correction))) T) (wp_base_to_camera_guess p))).
Proof.
  intros Hs. unfold optimizeWrist. rewrite wrist_blocks_ok by exact Hs. cbn [bind].
  destruct (solve _ _) as [m s]. exists m, s. rewrite (num_blocks _ 2) by (intros [[? ?] ?]; reflexivity). auto.
Qed.

Lemma wrist_right : wrist_sizes p ->
  (forall T, In T (wp_wrist_poses p) -> plain_pose T) -> (forall T, In T (wp_base_to_camera_guess p) -> plain_pose T) ->
  exists blocks,
  (forall m, let K := poseCalToEigen (read_pose m key_correction) in rigid K ->
     map (fun b => rb_eval b m) blocks =
     map (wrist_error p (fun c => iso_mul (iso_inv K) (nth c (wp_base_to_camera_guess p) iso_id))
            (poseCalToEigen (read_pose m key_wrist_target))) (wrist_views p)) /\
  forall solve, exists m s r, solve blocks (wrist_start p) = (m, s) /\ optimizeWrist solve p = Ok r /\
      wr_converged r = term_convergence s /\
      wr_wrist_to_target r = poseCalToEigen (read_pose m key_wrist_target) /\
      wr_base_to_camera r =
        map (iso_mul (iso_inv (poseCalToEigen (read_pose m key_correction)))) (wp_base_to_camera_guess p) /\
      wr_initial_cost_per_obs r = initial_cost s / INR (2 * List.length (wrist_views p)) /\
      wr_final_cost_per_obs r = final_cost s / INR (2 * List.length (wrist_views p)).
Proof.
  intros Hs P1 P2. pose proof Hs as (H1 & H2 & H3). exists (map wrist_block (wrist_views p)). split.
  - intros m K RK. rewrite map_map. apply map_ext_in. intros [[c i] x] Hv. apply in_views in Hv as [Ho _].
    apply in_camera_major in Ho as [Hc Hi]. cbn [wrist_block rb_eval wrist_error].
    assert (Pc : plain_pose (nth c (wp_base_to_camera_guess p) iso_id)) by apply P2, nth_In, Hc.
    rewrite wrist_cost_eq, (plain_stored (nth i _ _)) by (apply P1, nth_In, Hi).
    rewrite plain_stored by (apply plain_inv, Pc).
    rewrite iso_inv_mul by (apply rigid_inv, RK). rewrite iso_inv_inv by exact RK.
    rewrite !iso_mul_assoc. reflexivity.
  - intros solve. destruct (optimizeWrist_eq solve Hs) as (m & s & Es & E). exists m, s. eexists.
    split; [ exact Es | ]. split; [ exact E | ]. repeat split; reflexivity.
Qed.

Lemma optimizeWrist_shape solve r : optimizeWrist solve p = Ok r -> exists m,
  wr_base_to_camera r = map (iso_mul (iso_inv (poseCalToEigen (read_pose m key_correction)))) (wp_base_to_camera_guess p) /\
  exists blocks, m = fst (solve blocks (wrist_start p)).
Proof.
  unfold optimizeWrist. destruct (wrist_blocks p) as [b| |]; cbn [bind]; try discriminate.
  destruct (solve b (wrist_start p)) as [m s] eqn:Es. intros [= <-]. exists m. split; [ reflexivity | ]. exists b. rewrite Es. reflexivity.
Qed.

Lemma wrist_start_correction : poseCalToEigen (read_pose (wrist_start p) key_correction) = iso_id.
Proof.
  rewrite (read_pose_elem _ _ (poseEigenToCal iso_id)) by reflexivity. apply (plain_stored iso_id).
  exact (plain_id_tr vzero).
Qed.
Lemma wrist_start_target : read_pose (wrist_start p) key_wrist_target = poseEigenToCal (wp_wrist_to_target_guess p).
Proof. apply read_pose_elem. reflexivity. Qed.

Lemma wrist_unmoved solve r : stands_still solve -> plain_pose (wp_wrist_to_target_guess p) ->
  optimizeWrist solve p = Ok r ->
  wr_base_to_camera r = wp_base_to_camera_guess p /\ wr_wrist_to_target r = wp_wrist_to_target_guess p.
Proof.
  intros St Pw. unfold optimizeWrist. destruct (wrist_blocks p) as [b| |]; cbn [bind]; try discriminate.
  destruct (solve b (wrist_start p)) as [m s] eqn:Es. intros [= <-]. cbn [wr_base_to_camera wr_wrist_to_target].
  pose proof (f_equal fst Es) as Ex. rewrite St in Ex. cbn [fst] in Ex. subst m.
  rewrite wrist_start_correction, wrist_start_target, plain_stored by exact Pw. split; [ | reflexivity ].
  rewrite <- map_id. apply map_ext. intros T. rewrite iso_inv_id. apply iso_mul_id_l.
Qed.
End Wrist.

(** *** C31 *)
Lemma relative_kept K A B : rigid K ->
  iso_mul (iso_inv (iso_mul (iso_inv K) A)) (iso_mul (iso_inv K) B) = iso_mul (iso_inv A) B.
Proof.
  intros R. rewrite iso_inv_mul by (apply rigid_inv, R). rewrite iso_inv_inv by exact R.
  rewrite iso_mul_assoc, <- (iso_mul_assoc K), iso_inv_r by exact R. rewrite iso_mul_id_l. reflexivity.
Qed.
Lemma wrist_relative solve p r i j A B A' B' : optimizeWrist solve p = Ok r ->
  nth_error (wp_base_to_camera_guess p) i = Some A -> nth_error (wp_base_to_camera_guess p) j = Some B ->
  nth_error (wr_base_to_camera r) i = Some A' -> nth_error (wr_base_to_camera r) j = Some B' ->
  exists k, (exists blocks, k = read_pose (fst (solve blocks (wrist_start p))) key_correction) /\
    let K := poseCalToEigen k in A' = iso_mul (iso_inv K) A /\ B' = iso_mul (iso_inv K) B.
Proof.
  intros E HA HB HA' HB'. destruct (optimizeWrist_shape _ _ _ E) as (m & Em & blocks & ->).
  rewrite Em, nth_error_map in HA', HB'. rewrite HA in HA'. rewrite HB in HB'. cbn in HA', HB'.
  eexists. split; [ exists blocks; reflexivity | ]. split; congruence.
Qed.

(** The correction is a rotation and not a small non-orthogonal approximation of one. *)
Definition proper_correction (m : mem) : Prop :=
  let w := pose_aa (read_pose m key_correction) in w = vzero \/ DBL_EPS < dot w w.

Lemma wrist_relative_kept solve p r i j A B A' B' :
  (forall blocks m, proper_correction (fst (solve blocks m))) ->
  optimizeWrist solve p = Ok r ->
  nth_error (wp_base_to_camera_guess p) i = Some A -> nth_error (wp_base_to_camera_guess p) j = Some B ->
  nth_error (wr_base_to_camera r) i = Some A' -> nth_error (wr_base_to_camera r) j = Some B' ->
  iso_mul (iso_inv A') B' = iso_mul (iso_inv A) B.
Proof.
  intros Pc E HA HB HA' HB'.
  destruct (wrist_relative _ _ _ _ _ _ _ _ _ E HA HB HA' HB') as (k & (blocks & ->) & -> & ->).
  apply relative_kept, cal_to_eigen_rigid, Pc.
Qed.

Lemma wrist_count solve p r : optimizeWrist solve p = Ok r ->
  List.length (wr_base_to_camera r) = List.length (wp_base_to_camera_guess p).
Proof. intros E. destruct (optimizeWrist_shape _ _ _ E) as (m & -> & _). apply map_length. Qed.

Lemma cauchy a b : dot a b * dot a b <= dot a a * dot b b.
Proof.
  enough (0 <= dot (cross a b) (cross a b)) as H.
  { replace (dot a a * dot b b) with (dot a b * dot a b + dot (cross a b) (cross a b)) by (geo_unfold; ring). lra. }
  apply dot_pos.
Qed.
Lemma cross_bound w a : dot a a = 1 -> dot (cross w a) (cross w a) <= dot w w.
Proof.
  intros H. replace (dot (cross w a) (cross w a)) with (dot w w * dot a a - dot w a * dot w a) by (geo_unfold; ring).
  rewrite H. nra.
Qed.
Lemma cross_dot_bound e w a b : dot a a = 1 -> dot b b = 1 -> dot w w <= e ->
  Rabs (dot (cross w a) (cross w b)) <= e.
Proof.
  intros Ha Hb He. pose proof (cauchy (cross w a) (cross w b)) as C.
  pose proof (cross_bound w a Ha). pose proof (cross_bound w b Hb).
  pose proof (dot_pos (cross w a)). pose proof (dot_pos (cross w b)).
  set (x := dot (cross w a) (cross w b)) in *. set (s := dot (cross w a) (cross w a)) in *.
  set (t := dot (cross w b) (cross w b)) in *. set (q := dot w w) in *.
  assert (s * t <= q * q) by nra. apply Rabs_le. split; nra.
Qed.

Lemma rot_columns A : is_rot A ->
  dot (V3 (m00 A) (m10 A) (m20 A)) (V3 (m00 A) (m10 A) (m20 A)) = 1 /\
  dot (V3 (m01 A) (m11 A) (m21 A)) (V3 (m01 A) (m11 A) (m21 A)) = 1 /\
  dot (V3 (m02 A) (m12 A) (m22 A)) (V3 (m02 A) (m12 A) (m22 A)) = 1.
Proof.
  intros [H _]. pose proof (f_equal m00 H) as E0. pose proof (f_equal m11 H) as E1. pose proof (f_equal m22 H) as E2.
  clear H. destruct A. geo_unfold. cbn in *. lra.
Qed.

Lemma vsub_self v : vsub v v = vzero.
Proof. geo_ring. Qed.
Definition col (i : nat) (A : mat3) : vec3 :=
  match i with 0%nat => V3 (m00 A) (m10 A) (m20 A) | 1%nat => V3 (m01 A) (m11 A) (m21 A) | _ => V3 (m02 A) (m12 A) (m22 A) end.
Definition near_I (w : vec3) : mat3 := M3 1 (- vz w) (vy w) (vz w) 1 (- vx w) (- vy w) (vx w) 1.
(** Deviation of A^T K K^T B from A^T B. *)
Lemma gram_entries A B w :
  let G := mmul (mT (mmul (mT (near_I w)) A)) (mmul (mT (near_I w)) B) in
  let H := mmul (mT A) B in
  let e i j := dot (cross w (col i A)) (cross w (col j B)) in
  m00 G - m00 H = e 0%nat 0%nat /\ m01 G - m01 H = e 0%nat 1%nat /\ m02 G - m02 H = e 0%nat 2%nat /\
  m10 G - m10 H = e 1%nat 0%nat /\ m11 G - m11 H = e 1%nat 1%nat /\ m12 G - m12 H = e 1%nat 2%nat /\
  m20 G - m20 H = e 2%nat 0%nat /\ m21 G - m21 H = e 2%nat 1%nat /\ m22 G - m22 H = e 2%nat 2%nat.
Proof.
  destruct A as [a0 a1 a2 a3 a4 a5 a6 a7 a8], B as [b0 b1 b2 b3 b4 b5 b6 b7 b8], w as [x y z]. cbv zeta.
  cbv [near_I col mmul mT mvec dot cross vadd vsub vneg vscale lin tr m00 m01 m02 m10 m11 m12 m20 m21 m22 vx vy vz].
  repeat match goal with |- _ /\ _ => split end; ring.
Qed.
Lemma gram_shift A w k a b :
  let G := mT (mmul (mT (near_I w)) A) in let Kt := mT (near_I w) in
  let inv v := vneg (mvec G v) in
  let moved v := vadd (mvec Kt v) (vneg (mvec Kt k)) in
  let d := vsub b a in
  vsub (vadd (mvec G (moved b)) (inv (moved a))) (vadd (mvec (mT A) b) (vneg (mvec (mT A) a))) =
  mvec (mT A) (vsub (vscale (dot w w) d) (vscale (dot w d) w)).
Proof.
  destruct A as [a0 a1 a2 a3 a4 a5 a6 a7 a8], w as [x y z], k as [k0 k1 k2], a as [c0 c1 c2], b as [b0 b1 b2]. cbv zeta.
  cbv [near_I col mmul mT mvec dot cross vadd vsub vneg vscale lin tr m00 m01 m02 m10 m11 m12 m20 m21 m22 vx vy vz].
  f_equal; ring.
Qed.

Lemma relative_nearly_kept k A B : rigid A -> rigid B ->
  let K := poseCalToEigen k in
  let X := iso_mul (iso_inv (iso_mul (iso_inv K) A)) (iso_mul (iso_inv K) B) in
  let Y := iso_mul (iso_inv A) B in
  mat_close DBL_EPS (lin X) (lin Y) /\ norm (vsub (tr X) (tr Y)) <= DBL_EPS * norm (vsub (tr B) (tr A)).
Proof.
  intros RA RB K X Y. pose proof DBL_EPS_pos as Hp.
  destruct (Rlt_dec DBL_EPS (dot (pose_aa k) (pose_aa k))) as [L|L].
  { assert (E : X = Y) by (apply relative_kept, cal_to_eigen_rigid; right; exact L).
    rewrite E. split.
    - unfold mat_close. rewrite !Rminus_diag_eq, Rabs_R0 by reflexivity. repeat split; lra.
    - rewrite vsub_self, norm_vzero. apply Rmult_le_pos; [ lra | apply sqrt_pos ]. }
  apply Rnot_lt_le in L. set (w := pose_aa k) in *.
  assert (EK : K = Iso (near_I w) (pose_pos k)).
  { unfold K, poseCalToEigen. fold (pose_aa k). fold w. destruct (Rlt_dec DBL_EPS (dot w w)); [ lra | reflexivity ]. }
  clearbody K w. subst K. unfold X, Y, iso_mul, iso_inv. cbn [lin tr]. clear X Y.
  split.
  - destruct (rot_columns _ RA) as (A0 & A1 & A2). destruct (rot_columns _ RB) as (B0 & B1 & B2).
    destruct (gram_entries (lin A) (lin B) w) as (E1 & E2 & E3 & E4 & E5 & E6 & E7 & E8 & E9).
    unfold mat_close. rewrite E1, E2, E3, E4, E5, E6, E7, E8, E9. cbn [col].
    repeat split; apply cross_dot_bound; assumption.
  - rewrite (gram_shift (lin A) w (pose_pos k) (tr A) (tr B)).
    set (d := vsub (tr B) (tr A)). set (e := vsub (vscale (dot w w) d) (vscale (dot w d) w)).
    unfold norm. rewrite (rot_dot (mT (lin A))) by (apply is_rot_mT, RA).
    rewrite <- (sqrt_Rsqr DBL_EPS) by lra. rewrite <- sqrt_mult_alt by apply Rle_0_sqr. apply sqrt_le_1_alt. unfold Rsqr.
    pose proof (dot_pos d) as N. pose proof (dot_pos w) as Nw.
    assert (Ee : dot e e = dot w w * dot w w * dot d d - dot w w * (dot w d * dot w d)).
    { unfold e. clearbody d. clear. destruct w as [x y z], d as [d0 d1 d2]. cbv [dot vsub vscale vx vy vz]. ring. }
    rewrite Ee. clearbody d. clear Ee e.
    assert (dot w w * dot w w <= DBL_EPS * DBL_EPS) by (apply Rmult_le_compat; assumption).
    assert (dot w w * dot w w * dot d d <= DBL_EPS * DBL_EPS * dot d d) by (apply Rmult_le_compat_r; assumption).
    assert (0 <= dot w w * (dot w d * dot w d)) by (apply Rmult_le_pos; [ exact Nw | apply Rle_0_sqr ]). lra.
Qed.

Lemma wrist_relative_near solve p r i j A B A' B' :
  optimizeWrist solve p = Ok r ->
  nth_error (wp_base_to_camera_guess p) i = Some A -> nth_error (wp_base_to_camera_guess p) j = Some B ->
  rigid A -> rigid B ->
  nth_error (wr_base_to_camera r) i = Some A' -> nth_error (wr_base_to_camera r) j = Some B' ->
  let X := iso_mul (iso_inv A') B' in let Y := iso_mul (iso_inv A) B in
  mat_close DBL_EPS (lin X) (lin Y) /\ norm (vsub (tr X) (tr Y)) <= DBL_EPS * norm (vsub (tr B) (tr A)).
Proof.
  intros E HA HB RA RB HA' HB'.
  destruct (wrist_relative _ _ _ _ _ _ _ _ _ E HA HB HA' HB') as (k & _ & -> & ->).
  apply relative_nearly_kept; assumption.
Qed.

(** Two cameras, one image each, of a target three metres ahead. *)
Definition ex_point : correspondence vec2 := Corr (V2 1 1) (V3 0 0 0).
Definition ex_wrist : wrist_problem :=
  WP [Intr 1 1 0 0; Intr 1 1 0 0] [iso_id] [[[ex_point]]; [[ex_point]]] (iso_trans (V3 0 0 3)) [iso_id; turned].
Lemma ex_wrist_sizes : wrist_sizes ex_wrist.
Proof. repeat split. intros c Hc. cbn in *. do 2 (destruct c as [|c]; [ reflexivity | ]). lia. Qed.
Lemma ex_wrist_plain : (forall T, In T (wp_wrist_poses ex_wrist) -> plain_pose T) /\
  (forall T, In T (wp_base_to_camera_guess ex_wrist) -> plain_pose T) /\ plain_pose (wp_wrist_to_target_guess ex_wrist) /\
  List.length (wrist_views ex_wrist) = 2%nat.
Proof.
  pose proof (plain_id_tr vzero) as Pi. split; [ | split; [ | split ] ].
  - intros T [<-|[]]. exact Pi.
  - intros T [<-|[<-|[]]]; [ exact Pi | exact turned_plain ].
  - apply plain_id_tr.
  - reflexivity.
Qed.

(** A solver that leaves a tiny correction about the x axis. *)
Definition tiny_turn : block_solver := fun _ m =>
  (fun k i => match k, i with 0%nat, 0%nat => DBL_EPS | 0%nat, _ => 0 | _, _ => m k i end, Summary true 0 0).
Lemma wrist_relative_refuted : exists solve p r i j A B A' B',
  optimizeWrist solve p = Ok r /\
  nth_error (wp_base_to_camera_guess p) i = Some A /\ nth_error (wp_base_to_camera_guess p) j = Some B /\
  nth_error (wr_base_to_camera r) i = Some A' /\ nth_error (wr_base_to_camera r) j = Some B' /\
  rigid A /\ rigid B /\ iso_mul (iso_inv A') B' <> iso_mul (iso_inv A) B.
Proof.
  set (p := WP [Intr 1 1 0 0; Intr 1 1 0 0] [iso_id] [[[ex_point]]; [[ex_point]]] (iso_trans (V3 0 0 3)) [iso_id; iso_id]).
  assert (Hs : wrist_sizes p) by (repeat split; intros c Hc; cbn in *; do 2 (destruct c as [|c]; [ reflexivity | ]); lia).
  destruct (optimizeWrist_eq p tiny_turn Hs) as (m & s & Es & E).
  exists tiny_turn, p. eexists. exists 0%nat, 1%nat, iso_id, iso_id. eexists. eexists.
  split; [ exact E | ]. do 4 (split; [ reflexivity | ]). do 2 (split; [ apply rigid_id | ]).
  assert (Ek : read_pose m key_correction = P6 DBL_EPS 0 0 0 0 0).
  { pose proof (f_equal fst Es) as Ex. cbn [fst tiny_turn] in Ex. subst m.
    reflexivity. }
  rewrite Ek. unfold poseCalToEigen. cbn [p_rx p_ry p_rz p_x p_y p_z]. pose proof DBL_EPS_pos. pose proof DBL_EPS_small.
  set (e := DBL_EPS) in *. assert (e < 1) by lra. clearbody e.
  destruct (Rlt_dec _ _) as [L|_]; [ exfalso; revert L; cbv [dot vx vy vz]; nra | ].
  intros C. apply (f_equal lin) in C. apply (f_equal m11) in C. revert C.
  cbv [iso_mul iso_inv iso_id I3 mmul mT lin m00 m01 m02 m10 m11 m12 m20 m21 m22 vx vy vz]. nra.
Qed.

(** ** Multi-camera PnP *)
Section Mpnp.
Variable p : mpnp_problem.
Let n := List.length (mp_base_to_camera p).
Definition mpnp_block (v : nat * correspondence vec2) : rblock :=
  RB [key_base_target] (fun m => mpnp_cost (in_image (snd v)) (nth (fst v) (mp_intr p) intr0)
    (iso_inv (nth (fst v) (mp_base_to_camera p) iso_id)) (in_target (snd v)) (read_pose m key_base_target)).
Definition mpnp_start : mem := fun k i =>
  if Nat.eqb k key_base_target then pose_elem (poseEigenToCal (mp_base_to_target_guess p)) i else 0.

Lemma mpnp_blocks_ok : mpnp_sizes p -> mpnp_blocks p = Ok (map mpnp_block (mpnp_views p)).
Proof.
  intros (H1 & H2). unfold mpnp_blocks, mpnp_views. rewrite map_flat_map.
  rewrite (foldM_concat _ (fun c => map mpnp_block (map (pair c) (nth c (mp_image_observations p) [])))).
  { reflexivity. }
  intros s c Hc. apply in_seq in Hc. rewrite (idx_ok _ c []) by lia. cbn [bind].
  rewrite map_map, <- flat_map_single. apply foldM_concat. intros s' x Hx.
  rewrite (idx_ok _ c iso_id) by lia. cbn [bind]. rewrite (idx_ok _ c intr0) by lia. reflexivity.
Qed.

Lemma mpnp_right : mpnp_sizes p -> (forall T, In T (mp_base_to_camera p) -> plain_pose T) ->
  exists blocks,
  (forall m, map (fun b => rb_eval b m) blocks =
     map (mpnp_error p (poseCalToEigen (read_pose m key_base_target))) (mpnp_views p)) /\
  forall solve, exists m0 m s r, read_pose m0 key_base_target = poseEigenToCal (mp_base_to_target_guess p) /\
      solve blocks m0 = (m, s) /\ optimizeMpnp solve p = Ok r /\
      mr_converged r = term_convergence s /\
      mr_base_to_target r = poseCalToEigen (read_pose m key_base_target) /\
      mr_initial_cost_per_obs r = initial_cost s / INR (2 * List.length (mpnp_views p)) /\
      mr_final_cost_per_obs r = final_cost s / INR (2 * List.length (mpnp_views p)).
Proof.
  intros Hs Pl. exists (map mpnp_block (mpnp_views p)). split.
  - intros m. rewrite map_map. apply map_ext_in. intros [c x] Hv. cbn [mpnp_block rb_eval fst snd].
    unfold mpnp_views in Hv. apply in_flat_map in Hv as (c' & Hc & Hx). apply in_map_iff in Hx as (x' & [= -> ->] & _).
    apply in_seq in Hc. rewrite mpnp_cost_eq. unfold mpnp_error. cbn [fst snd].
    rewrite plain_stored; [ reflexivity | ]. apply plain_inv, Pl, nth_In. lia.
  - intros solve. unfold optimizeMpnp. rewrite mpnp_blocks_ok by exact Hs. cbn [bind]. fold mpnp_start.
    destruct (solve _ mpnp_start) as [m s] eqn:Es. exists mpnp_start, m, s. eexists.
    split; [ apply read_pose_elem; reflexivity | ].
    split; [ exact Es | ]. split; [ reflexivity | ]. cbn. rewrite (num_blocks _ 2) by (intros [? ?]; reflexivity).
    repeat split; reflexivity.
Qed.

Lemma mpnp_unmoved solve r : stands_still solve -> plain_pose (mp_base_to_target_guess p) ->
  optimizeMpnp solve p = Ok r -> mr_base_to_target r = mp_base_to_target_guess p.
Proof.
  intros St Pg. unfold optimizeMpnp. destruct (mpnp_blocks p) as [b| |]; cbn [bind]; try discriminate. fold mpnp_start.
  destruct (solve b mpnp_start) as [m s] eqn:Es. intros [= <-]. cbn [mr_base_to_target].
  pose proof (f_equal fst Es) as Ex. rewrite St in Ex. cbn [fst] in Ex. subst m.
  rewrite (read_pose_elem _ _ (poseEigenToCal (mp_base_to_target_guess p))) by reflexivity. apply plain_stored, Pg.
Qed.
End Mpnp.

(** ** Examples: two cameras, different intrinsics, rotated poses *)
Definition ex_static : static_problem :=
  SP [Intr 500 500 320 240; Intr 600 600 300 200] [[turned]; [turned; iso_id]]
     [[[ex_point]]; [[ex_point; ex_point]; [ex_point]]] (iso_trans (V3 0 0 3)) [iso_id; turned] "wrist_to_target" "base_to_camera".
Lemma ex_static_sizes : static_sizes ex_static.
Proof. repeat split. intros c Hc. cbn in *. do 2 (destruct c as [|c]; [ reflexivity | ]). lia. Qed.
Lemma ex_static_plain : plain_wrists ex_static /\ guesses_plain_static ex_static /\ List.length (static_views ex_static) = 4%nat.
Proof.
  pose proof (plain_id_tr vzero : plain_pose iso_id) as Pi. pose proof turned_plain as Pt.
  split; [ | split; [ split | ] ].
  - intros c W. destruct c as [|[|c]]; cbn; [ intros [<-|[]] | intros [<-|[<-|[]]] | destruct c; intros [] ]; assumption.
  - apply plain_id_tr.
  - intros T [<-|[<-|[]]]; assumption.
  - reflexivity.
Qed.
Lemma ex_static_ok u solve : exists r, optimizeStatic u solve ex_cov_oracle ex_static = Ok r.
Proof.
  apply static_succeeds; try reflexivity.
  - exact ex_static_sizes.
  - intros c Hc. cbn in Hc. destruct c as [|[|c]]; [ exists 0%nat, ex_point; cbn; tauto .. | lia ].
  - cbn. lia.
  - exact ex_oracle_sym.
Qed.
(** The second camera never saw the target. *)
Definition ex_static_unused : static_problem :=
  SP [Intr 500 500 320 240; Intr 600 600 300 200] [[turned]; [turned; iso_id]]
     [[[ex_point]]; [[]; []]] (iso_trans (V3 0 0 3)) [iso_id; turned] "wrist_to_target" "base_to_camera".
Lemma ex_static_unused_fits : static_sizes ex_static_unused /\ (1 < 2)%nat /\
  (forall i x, ~ In (1%nat, i, x) (static_views ex_static_unused)) /\ static_views ex_static_unused <> [].
Proof.
  split; [ repeat split | split; [ lia | split ] ].
  - intros c Hc. cbn in *. do 2 (destruct c as [|c]; [ reflexivity | ]). lia.
  - intros i x. cbn. intros [H|[]]. discriminate.
  - cbn. discriminate.
Qed.

Definition ex_only : only_problem :=
  OP true [Intr 500 500 320 240; Intr 600 600 300 200]
     [[[ex_point]; [ex_point]]; [[ex_point; ex_point]; []]] [iso_trans (V3 0 0 3); turned] [turned; iso_id].
Lemma ex_only_fits : only_sizes ex_only /\ op_fix_first_camera ex_only = true /\ op_base_to_target_guess ex_only <> [] /\
  (forall T, In T (op_base_to_camera_guess ex_only) -> plain_pose T) /\
  (forall T, In T (op_base_to_target_guess ex_only) -> plain_pose T) /\ List.length (only_views ex_only) = 4%nat.
Proof.
  pose proof (plain_id_tr vzero : plain_pose iso_id) as Pi. pose proof turned_plain as Pt.
  split; [ repeat split | split; [ reflexivity | split; [ cbn; discriminate | split; [ | split; [ | reflexivity ] ] ] ] ].
  - intros c Hc. cbn in *. do 2 (destruct c as [|c]; [ reflexivity | ]). lia.
  - intros T [<-|[<-|[]]]; assumption.
  - intros T [<-|[<-|[]]]; [ apply plain_id_tr | assumption ].
Qed.
(** No images. *)
Definition ex_only_empty : only_problem := OP true [Intr 500 500 320 240] [[]] [] [turned].
Definition still : block_solver := fun _ m => (m, Summary true 0 0).
Lemma still_still : stands_still still /\ leaves_others still.
Proof. split; [ intros b m | intros b m k i _ ]; reflexivity. Qed.
Lemma turned_not_id : turned <> iso_id.
Proof. intros H. apply (f_equal (fun T => vx (tr T))) in H. cbn in H. lra. Qed.
Lemma only_empty_refuted : exists p r T, only_sizes p /\ op_fix_first_camera p = true /\
  plain_pose T /\ nth_error (op_base_to_camera_guess p) 0 = Some T /\
  (exists solve, leaves_others solve /\ stands_still solve /\ optimizeOnly solve p = Ok r) /\
  nth_error (or_base_to_camera r) 0 <> Some T.
Proof.
  assert (Hs : only_sizes ex_only_empty).
  { repeat split. intros c Hc. cbn in *. destruct c; [ reflexivity | lia ]. }
  destruct (optimizeOnly_eq ex_only_empty still Hs) as (m & s & Es & E).
  exists ex_only_empty. eexists. exists turned. split; [ exact Hs | ]. split; [ reflexivity | ].
  split; [ exact turned_plain | ]. split; [ reflexivity | ].
  split; [ exists still; split; [ apply still_still | split; [ apply still_still | exact E ] ] | ].
  rewrite (only_no_images ex_only_empty still _ eq_refl (proj2 still_still) E). cbn [repeat nth_error List.length op_base_to_camera_guess ex_only_empty].
  intros H. apply turned_not_id. congruence.
Qed.

Definition ex_mpnp : mpnp_problem :=
  MP [Intr 500 500 320 240; Intr 600 600 300 200] [turned; iso_id] [[ex_point]; [ex_point; ex_point]] turned.
Lemma ex_mpnp_fits : mpnp_sizes ex_mpnp /\ (forall T, In T (mp_base_to_camera ex_mpnp) -> plain_pose T) /\
  plain_pose (mp_base_to_target_guess ex_mpnp) /\ List.length (mpnp_views ex_mpnp) = 3%nat.
Proof.
  pose proof (plain_id_tr vzero : plain_pose iso_id) as Pi. pose proof turned_plain as Pt.
  split; [ repeat split | split; [ | split; [ exact Pt | reflexivity ] ] ]. intros T [<-|[<-|[]]]; assumption.
Qed.

(** ** Statements for the property files *)
Lemma static_cost_physical k W x pc pt : plain_pose W ->
  static_cost (in_image x) k W (in_target x) pc pt =
  seen_error k (iso_mul (poseCalToEigen pc) (iso_mul W (poseCalToEigen pt))) x.
Proof. intros H. rewrite static_cost_eq, plain_stored by exact H. reflexivity. Qed.
Lemma fixed_camera_cost_physical k C x pt : plain_pose C ->
  fixed_camera_cost (in_image x) k C (in_target x) pt = seen_error k (iso_mul (iso_inv C) (poseCalToEigen pt)) x.
Proof. intros H. rewrite fixed_camera_cost_eq, plain_stored by (apply plain_inv, H). reflexivity. Qed.
Lemma wrist_cost_physical k W C x pc pt : plain_pose W -> plain_pose C ->
  wrist_cost (in_image x) k W C (in_target x) pc pt =
  seen_error k (iso_mul (iso_inv C) (iso_mul (poseCalToEigen pc) (iso_mul W (poseCalToEigen pt)))) x.
Proof. intros H H'. rewrite wrist_cost_eq, (plain_stored W), plain_stored by first [ exact H | apply plain_inv, H' ]. reflexivity. Qed.
Lemma mpnp_cost_physical k C x pt : plain_pose C ->
  mpnp_cost (in_image x) k (iso_inv C) (in_target x) pt = seen_error k (iso_mul (iso_inv C) (poseCalToEigen pt)) x.
Proof. intros H. rewrite mpnp_cost_eq, plain_stored by (apply plain_inv, H). reflexivity. Qed.
Lemma only_returns p solve : only_sizes p -> exists r, optimizeOnly solve p = Ok r /\
  List.length (or_base_to_camera r) = List.length (op_base_to_camera_guess p) /\
  List.length (or_base_to_target r) = List.length (op_base_to_target_guess p).
Proof.
  intros Hs. destruct (optimizeOnly_eq p solve Hs) as (m & s & _ & E). eexists. split; [ exact E | ].
  cbn. rewrite !map_length, !seq_length. auto.
Qed.
Lemma ex_wrist_turn : exists solve r,
  (forall blocks m, let w := pose_aa (read_pose (fst (solve blocks m)) key_correction) in
                    w = vzero \/ DBL_EPS < dot w w) /\
  optimizeWrist solve ex_wrist = Ok r /\ wr_base_to_camera r <> wp_base_to_camera_guess ex_wrist.
Proof.
  set (solve := (fun _ _ => (fun _ _ => 1, Summary true 0 0)) : block_solver).
  destruct (optimizeWrist_eq ex_wrist solve ex_wrist_sizes) as (m & s & Es & E). injection Es as <- <-.
  assert (Big : DBL_EPS < dot (V3 1 1 1) (V3 1 1 1)).
  { pose proof DBL_EPS_small. cbv [dot vx vy vz]. lra. }
  exists solve. eexists. split; [ | split; [ exact E | ] ].
  - intros b m. right. exact Big.
  - cbn [wr_base_to_camera]. set (K := poseCalToEigen _). intros H.
    apply (f_equal (fun l => nth 0 l iso_id)) in H. cbn [map nth wp_base_to_camera_guess ex_wrist] in H.
    assert (R : rigid K) by (apply cal_to_eigen_rigid; right; exact Big).
    assert (HK : K = iso_id) by (rewrite <- (iso_inv_inv K R), <- (iso_mul_id_r (iso_inv K)), H; apply iso_inv_id).
    apply (f_equal (fun T => vx (tr T))) in HK. revert HK. unfold K, poseCalToEigen.
    destruct (Rlt_dec _ _); cbn [tr vx iso_id vzero p_x read_pose]; lra.
Qed.
Lemma ex_moving_solver : exists solve, leaves_others solve /\ ~ stands_still solve.
Proof.
  exists (fun blocks m => (fun k i => if in_dec Nat.eq_dec k (flat_map rb_keys blocks) then m k i + 1 else m k i, Summary true 0 0)).
  split.
  - intros b m k i H. cbn. destruct (in_dec _ _ _); [ contradiction | reflexivity ].
  - intros H. specialize (H [RB [0%nat] (fun _ => [])] (fun _ _ => 0)). apply (f_equal (fun m => m 0%nat 0%nat)) in H.
    cbn in H. lra.
Qed.
