(** C04, C05, C06. *)
From Coq Require Import Reals Lra Psatz Arith Lia List String Permutation.
From Verif.Base Require Import Geom Outcome Matrix.
From Verif.Model Require Import Pose Covariance Solver HandEye.
From Verif.Spec Require Import CovarianceSpec PinHole Frames.
From Verif.Spec Require Export OracleSpec.
From Verif.Proofs Require Import GeomLemmas RotLemmas AngleAxisLemmas PoseProofs ListLemmas CovarianceProofs.
Import ListNotations.
Local Open Scope R_scope.

(** ** Plain poses survive storage as a pose vector *)
Lemma trace_aa a u : dot u u = 1 -> trace (aa_matrix a u) = 1 + 2 * cos a.
Proof.
  intros U. unfold trace, aa_matrix. cbn [m00 m01 m02 m10 m11 m12 m20 m21 m22].
  transitivity ((1 - cos a) * dot u u + 3 * cos a); [ unfold dot; ring | rewrite U; ring ].
Qed.

Lemma plain_stored T : plain_pose T -> poseCalToEigen (poseEigenToCal T) = T.
Proof.
  intros [R H]. apply round_trip_exact; [ exact R | ].
  destruct (aa_of_mat_spec _ R) as (U & A & M).
  destruct H as [I|(a & u & Hu & L & Ha & He)].
  - left. rewrite eigen_to_cal_aa.
    set (a := aa_angle _) in *. set (u := aa_axis _) in *.
    assert (C : cos a = 1).
    { pose proof (f_equal trace M) as E. rewrite trace_aa, I in E by exact U. unfold trace, I3 in E.
      cbn [m00 m11 m22] in E. lra. }
    assert (a = 0).
    { apply cos_inj; [ exact A | pose proof PI_RGT_0; lra | rewrite cos_0; exact C ]. }
    rewrite H. geo_unfold. f_equal; ring.
  - right. rewrite eigen_to_cal_sq by exact R.
    replace (aa_angle (aa_of_mat (lin T))) with a; [ exact He | ].
    apply cos_inj; [ exact Ha | exact A | ].
    pose proof (f_equal trace M) as E. rewrite trace_aa in E by exact U. rewrite L in E at 2.
    rewrite trace_aa in E by exact Hu. lra.
Qed.

Lemma plain_rigid T : plain_pose T -> rigid T.
Proof. intros [R _]. exact R. Qed.
Lemma plain_id_tr v : plain_pose (iso_trans v).
Proof. split; [ apply rigid_trans | left; reflexivity ]. Qed.
Lemma plain_inv T : plain_pose T -> plain_pose (iso_inv T).
Proof.
  intros [R H]. split; [ apply rigid_inv, R | ].
  destruct H as [I|(a & u & Hu & L & Ha & He)]; cbn [lin iso_inv].
  - left. rewrite I. unfold mT, I3; reflexivity.
  - right. exists a, (vneg u). repeat split; try tauto.
    + destruct u; geo_unfold. lra.
    + rewrite L. unfold mT, aa_matrix, vneg. cbn [m00 m01 m02 m10 m11 m12 m20 m21 m22 vx vy vz].
      f_equal; ring.
Qed.

(** ** C04 *)
Lemma point_in_camera {I} (c : obs_cost I) pc pt :
  getTargetPointInCamera c pc pt =
  iso_app (iso_mul (poseCalToEigen pc)
          (iso_mul (poseCalToEigen (oc_camera_mount_to_base c))
          (iso_mul (poseCalToEigen (oc_base_to_target_mount c)) (poseCalToEigen pt)))) (oc_target_pt c).
Proof.
  unfold getTargetPointInCamera. rewrite !transformPoint_pose, <- !cal_to_eigen_acts, !iso_app_mul.
  destruct (oc_target_pt c); reflexivity.
Qed.

Lemma chain_physical cam tcm ttm tgt :
  rigid cam -> rigid tcm ->
  iso_mul (iso_inv cam) (iso_mul (iso_inv tcm) (iso_mul ttm tgt)) = target_in_camera cam tcm ttm tgt.
Proof.
  intros Hc Ht. unfold target_in_camera. rewrite iso_inv_mul by assumption.
  rewrite !iso_mul_assoc. reflexivity.
Qed.

Lemma point_in_camera_physical {I} (obs : I) tcm ttm pt_t cam pc pt :
  plain_pose tcm -> plain_pose ttm -> rigid cam -> poseCalToEigen pc = iso_inv cam ->
  getTargetPointInCamera (mk_obs_cost obs (iso_inv tcm) ttm pt_t) pc pt =
  iso_app (target_in_camera cam tcm ttm (poseCalToEigen pt)) pt_t.
Proof.
  intros H1 H2 H3 Hc. rewrite point_in_camera. cbn [oc_camera_mount_to_base oc_base_to_target_mount oc_target_pt mk_obs_cost].
  rewrite (plain_stored (iso_inv tcm)) by (apply plain_inv, H1). rewrite (plain_stored ttm) by exact H2.
  rewrite Hc, chain_physical by (try assumption; apply plain_rigid, H1). reflexivity.
Qed.

Lemma cost2D3D_physical obs tcm ttm pt_t k cam pc pt :
  plain_pose tcm -> plain_pose ttm -> rigid cam -> poseCalToEigen pc = iso_inv cam ->
  let p := iso_app (target_in_camera cam tcm ttm (poseCalToEigen pt)) pt_t in
  cost2D3D (mk_obs_cost obs (iso_inv tcm) ttm pt_t) k (pc, pt) =
  [px (projectPoint_arr k p) - px obs; py (projectPoint_arr k p) - py obs].
Proof.
  intros H1 H2 H3 Hc p. unfold cost2D3D. cbn [fst snd]. erewrite point_in_camera_physical by eassumption.
  reflexivity.
Qed.
Lemma cost2D3D_zero obs tcm ttm pt_t k cam pc pt :
  plain_pose tcm -> plain_pose ttm -> rigid cam -> poseCalToEigen pc = iso_inv cam ->
  cost2D3D (mk_obs_cost obs (iso_inv tcm) ttm pt_t) k (pc, pt) = [0; 0] <->
  obs = projectPoint_arr k (iso_app (target_in_camera cam tcm ttm (poseCalToEigen pt)) pt_t).
Proof.
  intros H1 H2 H3 Hc. erewrite cost2D3D_physical by eassumption.
  destruct (projectPoint_arr k _) as [a b], obs as [c d]; cbn [px py].
  split; [ intros H; injection H as E1 E2; f_equal; lra | intros H; injection H as -> ->; f_equal; [ lra | f_equal; lra ] ].
Qed.
Lemma cost3D3D_physical obs tcm ttm pt_t cam pc pt :
  plain_pose tcm -> plain_pose ttm -> rigid cam -> poseCalToEigen pc = iso_inv cam ->
  let p := iso_app (target_in_camera cam tcm ttm (poseCalToEigen pt)) pt_t in
  cost3D3D (mk_obs_cost obs (iso_inv tcm) ttm pt_t) (pc, pt) =
  [vx p - vx obs; vy p - vy obs; vz p - vz obs].
Proof.
  intros H1 H2 H3 Hc p. unfold cost3D3D. cbn [fst snd]. erewrite point_in_camera_physical by eassumption.
  reflexivity.
Qed.
Lemma cost3D3D_zero obs tcm ttm pt_t cam pc pt :
  plain_pose tcm -> plain_pose ttm -> rigid cam -> poseCalToEigen pc = iso_inv cam ->
  cost3D3D (mk_obs_cost obs (iso_inv tcm) ttm pt_t) (pc, pt) = [0; 0; 0] <->
  obs = iso_app (target_in_camera cam tcm ttm (poseCalToEigen pt)) pt_t.
Proof.
  intros H1 H2 H3 Hc. erewrite cost3D3D_physical by eassumption.
  destruct (iso_app _ pt_t) as [a b e], obs as [c d f]; cbn [vx vy vz].
  split; [ intros H; injection H as E1 E2 E3; f_equal; lra | intros H; injection H as -> -> ->; repeat f_equal; lra ].
Qed.

(** Without any hypothesis on the mount poses: the chain of transforms as stored. *)
Lemma point_in_camera_stored {I} (obs : I) tcm ttm pt_t pc pt :
  getTargetPointInCamera (mk_obs_cost obs tcm ttm pt_t) pc pt =
  iso_app (iso_mul (poseCalToEigen pc)
          (iso_mul (poseCalToEigen (poseEigenToCal tcm))
          (iso_mul (poseCalToEigen (poseEigenToCal ttm)) (poseCalToEigen pt)))) pt_t.
Proof. apply point_in_camera. Qed.

(** ** The residual-building loop *)
Definition blk2 (k : intrinsics) (oc : observation vec2 * correspondence vec2) : residual he_vars :=
  cost2D3D (mk_obs_cost (in_image (snd oc)) (iso_inv (to_camera_mount (fst oc)))
                        (to_target_mount (fst oc)) (in_target (snd oc))) k.
Definition blk3 (oc : observation vec3 * correspondence vec3) : residual he_vars :=
  cost3D3D (mk_obs_cost (in_image (snd oc)) (iso_inv (to_camera_mount (fst oc)))
                        (to_target_mount (fst oc)) (in_target (snd oc))).
Definition vis2 (pc pt : pose6) (oc : observation vec2 * correspondence vec2) : bool :=
  isPointVisible pc pt (mk_obs_cost (in_image (snd oc)) (iso_inv (to_camera_mount (fst oc)))
                        (to_target_mount (fst oc)) (in_target (snd oc))).

Lemma foldM_nested {S A B} (g : A -> list B) (f : S -> A * B -> res S) l s :
  foldM (fun s a => foldM (fun s b => f s (a, b)) (g a) s) l s =
  foldM f (flat_map (fun a => map (fun b => (a, b)) (g a)) l) s.
Proof.
  revert s. induction l as [|a r IH]; intros s; cbn; [ reflexivity | ].
  rewrite foldM_app.
  assert (E : foldM (fun s b => f s (a, b)) (g a) s = foldM f (map (fun b => (a, b)) (g a)) s).
  { clear. revert s. induction (g a) as [|b t IH]; intros s; cbn; [ reflexivity | ].
    destruct (f s (a, b)); cbn; [ apply IH | reflexivity | reflexivity ]. }
  rewrite E. destruct (foldM f _ s); cbn; [ apply IH | reflexivity | reflexivity ].
Qed.
Lemma fold_left_nested {S A B} (g : A -> list B) (f : S -> A * B -> S) l s :
  fold_left (fun s a => fold_left (fun s b => f s (a, b)) (g a) s) l s =
  fold_left f (flat_map (fun a => map (fun b => (a, b)) (g a)) l) s.
Proof.
  revert s. induction l as [|a r IH]; intros s; cbn; [ reflexivity | ].
  rewrite fold_left_app, IH. f_equal. clear.
  revert s. induction (g a) as [|b t IH]; intros s; cbn; [ reflexivity | apply IH ].
Qed.

Lemma guarded_loop {A B} (ok : A -> bool) (f : A -> B) (e : exn) l acc :
  foldM (fun s a => if negb (ok a) then Throw e else Ok (s ++ [f a])%list) l acc =
  if forallb ok l then Ok (acc ++ map f l)%list else Throw e.
Proof.
  revert acc. induction l as [|a r IH]; intros acc; cbn; [ rewrite app_nil_r; reflexivity | ].
  destruct (ok a); cbn; [ | reflexivity ]. rewrite IH, <- app_assoc. reflexivity.
Qed.

Lemma optimize2D3D_unfold u solve cov p :
  let pc := poseEigenToCal (iso_inv (h2_camera_guess p)) in
  let pt := poseEigenToCal (h2_target_guess p) in
  optimize2D3D u solve cov p =
  if forallb (vis2 pc pt) (all_pairs (h2_observations p))
  then he_finish u solve cov (map (blk2 (h2_intr p)) (all_pairs (h2_observations p))) (pc, pt) (h2_labels p)
  else Throw RuntimeError.
Proof.
  intros pc pt. unfold optimize2D3D. fold pc pt.
  set (F := fun s (oc : observation vec2 * correspondence vec2) =>
     if negb (vis2 pc pt oc) then Throw RuntimeError else Ok (s ++ [blk2 (h2_intr p) oc])%list).
  change (foldM _ (h2_observations p) []) with
    (foldM (fun s o => foldM (fun s c => F s (o, c)) (correspondence_set o) s) (h2_observations p) []).
  rewrite foldM_nested. unfold F. rewrite guarded_loop. fold (all_pairs (h2_observations p)).
  destruct (forallb _ _); reflexivity.
Qed.

Lemma optimize3D3D_unfold u solve cov p :
  optimize3D3D u solve cov p =
  he_finish u solve cov (map blk3 (all_pairs (h3_observations p)))
    (poseEigenToCal (iso_inv (h3_camera_guess p)), poseEigenToCal (h3_target_guess p)) (h3_labels p).
Proof.
  unfold optimize3D3D. f_equal.
  change (fold_left _ (h3_observations p) []) with
    (fold_left (fun s o => fold_left (fun s c => (fun s oc => (s ++ [blk3 oc])%list) s (o, c)) (correspondence_set o) s)
       (h3_observations p) []).
  rewrite (fold_left_nested correspondence_set (fun s oc => (s ++ [blk3 oc])%list)).
  fold (all_pairs (h3_observations p)). apply (fold_left_push blk3 _ []).
Qed.

(** ** Finishing *)

Lemma he_labels_fit l cov b : List.length (labels_isometry3d l) = 6%nat -> In b [key_camera; key_target] ->
  labels_fit (mk_cov_problem cov [(key_camera, 6%nat); (key_target, 6%nat)]) (he_param_labels l) b.
Proof.
  intros H6 [<-|[<-|[]]]; unfold labels_fit, he_param_labels; cbn.
  - eexists; split; [ reflexivity | rewrite map_length, H6; reflexivity ].
  - eexists; split; [ reflexivity | rewrite map_length, H6; reflexivity ].
Qed.

Lemma labels_fit_dec pb names b : labels_fit pb names b \/ ~ labels_fit pb names b.
Proof.
  unfold labels_fit. destruct (find_key b names) as [lab|] eqn:Ef.
  - destruct (pb_size pb b) as [n|] eqn:En.
    + destruct (Nat.eq_dec n (List.length lab)) as [->|Nn]; [ left; eauto | right ].
      intros (lab' & [= <-] & [= ->]). congruence.
    + right. intros (? & _ & [=]).
  - right. intros (? & [=] & _).
Qed.
Lemma labels_fit_all_dec pb names l :
  (forall b, In b l -> labels_fit pb names b) \/ (exists b, In b l /\ ~ labels_fit pb names b).
Proof.
  induction l as [|b r [IH|(c & Hc & Nc)]]; [ left; intros ? [] | | ].
  - destruct (labels_fit_dec pb names b) as [D|D]; [ left; intros c [<-|Hc]; auto | right; exists b; cbn; auto ].
  - right. exists c. cbn. auto.
Qed.

(** computeCovariance never fails with another exception, nor has undefined behaviour,
    when all the blocks exist. *)
Lemma covariance_outcomes u pb blocks names masks :
  (forall b, In b blocks -> pb_size pb b <> None) ->
  (exists r, computeCovariance u pb blocks names masks = Ok r) \/
  computeCovariance u pb blocks names masks = Throw CovarianceException \/
  computeCovariance u pb blocks names masks = Throw OutOfRange.
Proof.
  intros Hs.
  destruct (Nat.eq_dec (List.length blocks) (List.length names)) as [E|N];
    [ | rewrite covariance_throw_count by exact N; auto ].
  unfold computeCovariance. rewrite E, Nat.eqb_refl. cbn [negb].
  destruct (labels_fit_all_dec pb names blocks) as [D|D].
  - destruct (block_loop pb names masks blocks D) as ([ix lb] & -> & T1 & _). cbn [bind fst snd] in *.
    destruct (pb_compute pb _); cbn; [ | auto ].
    destruct (pb_get pb _); cbn; [ | auto ].
    match goal with |- context [computeCovarianceResults u ?M lb] =>
      destruct (results_spec u M lb) as (corr & _ & ->); [ reflexivity | cbn; lia | ] end.
    left. eexists. reflexivity.
  - destruct (block_loop_throw pb names masks blocks (0%nat, ([], [])) Hs D) as (e & -> & He).
    cbn. destruct He as [->| ->]; auto.
Qed.

Lemma mk_cov_sizes cov added b : lists_blocks cov ->
  In b (pb_blocks (mk_cov_problem cov added)) -> pb_size (mk_cov_problem cov added) b <> None.
Proof.
  intros Hp Hb. unfold mk_cov_problem in *. cbn [pb_blocks pb_size] in *.
  apply (Permutation_in _ (Permutation_sym (Hp _))) in Hb.
  apply find_key_Some_iff in Hb as [v ->]. discriminate.
Qed.

Lemma he_finish_no_runtime u solve cov blocks x0 l : lists_blocks cov ->
  he_finish u solve cov blocks x0 l <> Throw RuntimeError /\ he_finish u solve cov blocks x0 l <> UB.
Proof.
  intros Hp. unfold he_finish. destruct (solve blocks x0) as [x s].
  unfold computeCovariance_names. set (pb := mk_cov_problem cov _).
  destruct (covariance_outcomes u pb (pb_blocks pb) (he_param_labels l) []) as [[c ->]|[->| ->]];
    [ intros b; apply mk_cov_sizes, Hp | | | ]; cbn; split; discriminate.
Qed.

Lemma he_finish_ok u solve cov blocks x0 l :
  lists_blocks cov -> (forall bs, co_compute cov bs = true) -> (forall bs, co_get cov bs = true) ->
  (forall b i c j, co_cov cov b i c j = co_cov cov c j b i) ->
  List.length (labels_isometry3d l) = 6%nat -> blocks <> [] ->
  exists r, he_finish u solve cov blocks x0 l = Ok r.
Proof.
  intros Hp Hc Hg Hs H6 Hb. unfold he_finish. destruct (solve blocks x0) as [x s].
  destruct blocks as [|b0 bs]; [ congruence | ].
  set (pb := mk_cov_problem cov _). unfold computeCovariance_names.
  assert (Pm : Permutation [key_camera; key_target] (pb_blocks pb)) by apply Hp.
  destruct (covariance_ok u pb (pb_blocks pb) (he_param_labels l) []) as (c & -> & _).
  - exact Hs.
  - split; [ rewrite <- (Permutation_length Pm); reflexivity | split; [ | split; [ apply Hc | apply Hg ] ] ].
    intros b Hin. apply he_labels_fit; [ exact H6 | ]. eapply Permutation_in; [ symmetry; exact Pm | exact Hin ].
  - cbn. eexists; reflexivity.
Qed.

Lemma he_finish_empty u solve cov x0 l : lists_blocks cov ->
  he_finish u solve cov [] x0 l = Throw CovarianceException.
Proof.
  intros Hp. unfold he_finish. destruct (solve [] x0) as [x s].
  unfold computeCovariance_names. rewrite covariance_throw_count; [ reflexivity | ].
  cbn [pb_blocks mk_cov_problem]. rewrite <- (Permutation_length (Hp _)). cbn. discriminate.
Qed.

Lemma he_finish_fields u solve cov blocks x0 l r : he_finish u solve cov blocks x0 l = Ok r ->
  exists xf s, solve blocks x0 = (xf, s) /\
    he_converged r = term_convergence s /\
    he_target_mount_to_target r = poseCalToEigen (snd xf) /\
    he_camera_mount_to_camera r = iso_inv (poseCalToEigen (fst xf)) /\
    he_initial_cost_per_obs r = initial_cost s / INR (num_residuals blocks x0) /\
    he_final_cost_per_obs r = final_cost s / INR (num_residuals blocks x0).
Proof.
  unfold he_finish. destruct (solve blocks x0) as [x s]. destruct (computeCovariance_names _ _ _ _); cbn; try discriminate.
  intros [= <-]. exists x, s. cbn. auto 10.
Qed.

(** ** C05 *)
Lemma vis2_physical cam tgt o c : plain_pose cam -> plain_pose tgt ->
  plain_pose (to_camera_mount o) -> plain_pose (to_target_mount o) ->
  vis2 (poseEigenToCal (iso_inv cam)) (poseEigenToCal tgt) (o, c) = true <->
  0 < vz (iso_app (target_in_camera cam (to_camera_mount o) (to_target_mount o) tgt) (in_target c)).
Proof.
  intros Hc Ht Ho1 Ho2. unfold vis2, isPointVisible. cbn [fst snd].
  rewrite (point_in_camera_physical _ _ _ _ cam) by
    (first [ assumption | apply plain_rigid, Hc | apply plain_stored, plain_inv, Hc ]).
  rewrite (plain_stored tgt Ht). destruct (Rlt_dec _ _); split; intros; try congruence; contradiction.
Qed.


Lemma in_all_pairs {I} (os : list (observation I)) o c :
  In (o, c) (all_pairs os) <-> In o os /\ In c (correspondence_set o).
Proof.
  unfold all_pairs. rewrite in_flat_map. split.
  - intros (o' & Ho & Hc). apply in_map_iff in Hc as (c' & [= <- <-] & Hc). auto.
  - intros (Ho & Hc). exists o. split; [ exact Ho | ]. apply in_map_iff. eauto.
Qed.

Lemma reject_iff u solve cov p : lists_blocks cov ->
  plain_pose (h2_camera_guess p) -> plain_pose (h2_target_guess p) -> plain_obs (h2_observations p) ->
  optimize2D3D u solve cov p = Throw RuntimeError <->
  exists o c, In o (h2_observations p) /\ In c (correspondence_set o) /\
    vz (iso_app (target_in_camera (h2_camera_guess p) (to_camera_mount o) (to_target_mount o)
                                  (h2_target_guess p)) (in_target c)) <= 0.
Proof.
  intros Hp Hc Ht Ho. rewrite optimize2D3D_unfold.
  destruct (forallb _ _) eqn:E.
  - split; [ intros H; exfalso; eapply (proj1 (he_finish_no_runtime _ _ _ _ _ _ Hp)); exact H | ].
    intros (o & c & Io & Ic & Hz). exfalso. rewrite forallb_forall in E.
    specialize (E (o, c) (proj2 (in_all_pairs _ _ _) (conj Io Ic))).
    apply vis2_physical in E; try assumption; try (apply Ho, Io). lra.
  - split; [ intros _ | reflexivity ].
    assert (N : ~ forall oc, In oc (all_pairs (h2_observations p)) ->
       vis2 (poseEigenToCal (iso_inv (h2_camera_guess p))) (poseEigenToCal (h2_target_guess p)) oc = true).
    { intros C. apply forallb_forall in C. congruence. }
    clear - E Hc Ht Ho. 
    assert (Ex : exists oc, In oc (all_pairs (h2_observations p)) /\
       vis2 (poseEigenToCal (iso_inv (h2_camera_guess p))) (poseEigenToCal (h2_target_guess p)) oc = false).
    { induction (all_pairs (h2_observations p)) as [|oc r IH]; cbn in E; [ discriminate | ].
      destruct (vis2 _ _ oc) eqn:V.
      - destruct (IH E) as (x & Hx & Vx). exists x. split; [ right; exact Hx | exact Vx ].
      - exists oc. split; [ left; reflexivity | exact V ]. }
    destruct Ex as ([o c] & Hin & V). apply in_all_pairs in Hin as [Io Ic].
    exists o, c. split; [ exact Io | split; [ exact Ic | ] ]. apply Rnot_lt_le. intros C.
    apply vis2_physical in C; try assumption; try (apply Ho, Io). congruence.
Qed.

Lemma accept2 u solve cov p : lists_blocks cov ->
  (forall bs, co_compute cov bs = true) -> (forall bs, co_get cov bs = true) ->
  (forall b i c j, co_cov cov b i c j = co_cov cov c j b i) ->
  plain_pose (h2_camera_guess p) -> plain_pose (h2_target_guess p) -> plain_obs (h2_observations p) ->
  List.length (labels_isometry3d (h2_labels p)) = 6%nat ->
  all_pairs (h2_observations p) <> [] ->
  (forall o c, In o (h2_observations p) -> In c (correspondence_set o) ->
    0 < vz (iso_app (target_in_camera (h2_camera_guess p) (to_camera_mount o) (to_target_mount o)
                                  (h2_target_guess p)) (in_target c))) ->
  exists r, optimize2D3D u solve cov p = Ok r.
Proof.
  intros Hp H1 H2 H3 Hc Ht Ho H6 Hne Hv. rewrite optimize2D3D_unfold.
  replace (forallb _ _) with true.
  - apply he_finish_ok; try assumption. intros E. apply map_eq_nil in E. contradiction.
  - symmetry. apply forallb_forall. intros [o c] Hin. apply in_all_pairs in Hin as [Io Ic].
    apply vis2_physical; try assumption; try (apply Ho, Io). apply Hv; assumption.
Qed.
Lemma accept3 u solve cov p : lists_blocks cov ->
  (forall bs, co_compute cov bs = true) -> (forall bs, co_get cov bs = true) ->
  (forall b i c j, co_cov cov b i c j = co_cov cov c j b i) ->
  List.length (labels_isometry3d (h3_labels p)) = 6%nat ->
  all_pairs (h3_observations p) <> [] ->
  exists r, optimize3D3D u solve cov p = Ok r.
Proof.
  intros Hp H1 H2 H3 H6 Hne. rewrite optimize3D3D_unfold. apply he_finish_ok; try assumption.
  intros E. apply map_eq_nil in E. contradiction.
Qed.
Lemma never_rejects3 u solve cov p : lists_blocks cov -> optimize3D3D u solve cov p <> Throw RuntimeError.
Proof. intros Hp. rewrite optimize3D3D_unfold. apply he_finish_no_runtime, Hp. Qed.
Lemma empty2 u solve cov p : lists_blocks cov -> all_pairs (h2_observations p) = [] ->
  optimize2D3D u solve cov p = Throw CovarianceException.
Proof. intros Hp E. rewrite optimize2D3D_unfold, E. cbn. apply he_finish_empty, Hp. Qed.
Lemma empty3 u solve cov p : lists_blocks cov -> all_pairs (h3_observations p) = [] ->
  optimize3D3D u solve cov p = Throw CovarianceException.
Proof. intros Hp E. rewrite optimize3D3D_unfold, E. cbn. apply he_finish_empty, Hp. Qed.

(** ** C06 *)
Lemma he_num {X A} (f : A -> residual X) (n : nat) l x :
  (forall a, List.length (f a x) = n) -> num_residuals (map f l) x = (n * List.length l)%nat.
Proof.
  intros H. unfold num_residuals. induction l as [|a r IH]; cbn [map flat_map List.length]; [ lia | ].
  rewrite app_length, IH, H. lia.
Qed.
Lemma result2 p : plain_obs (h2_observations p) ->
  exists blocks : list (residual he_vars),
  (forall x, rigid (poseCalToEigen (fst x)) ->
     map (fun f => f x) blocks =
     map (fun oc =>
       let q := projectPoint_arr (h2_intr p)
         (iso_app (target_in_camera (iso_inv (poseCalToEigen (fst x))) (to_camera_mount (fst oc))
                     (to_target_mount (fst oc)) (poseCalToEigen (snd x))) (in_target (snd oc))) in
       [px q - px (in_image (snd oc)); py q - py (in_image (snd oc))])
       (all_pairs (h2_observations p))) /\
  forall u solve cov r, optimize2D3D u solve cov p = Ok r ->
  exists xf s,
    solve blocks (poseEigenToCal (iso_inv (h2_camera_guess p)), poseEigenToCal (h2_target_guess p)) = (xf, s) /\
    he_converged r = term_convergence s /\
    he_target_mount_to_target r = poseCalToEigen (snd xf) /\
    he_camera_mount_to_camera r = iso_inv (poseCalToEigen (fst xf)) /\
    he_initial_cost_per_obs r = initial_cost s / INR (2 * List.length (all_pairs (h2_observations p))) /\
    he_final_cost_per_obs r = final_cost s / INR (2 * List.length (all_pairs (h2_observations p))).
Proof.
  intros Ho. exists (map (blk2 (h2_intr p)) (all_pairs (h2_observations p))). split.
  - intros [pc pt] R. cbn [fst snd] in *. rewrite map_map. apply map_ext_in. intros [o c] Hin. apply in_all_pairs in Hin as [Io Ic].
    unfold blk2. cbn [fst snd]. destruct (Ho o Io) as [P1 P2].
    rewrite (cost2D3D_physical _ _ _ _ _ (iso_inv (poseCalToEigen pc))); try assumption; [ reflexivity | apply rigid_inv, R | ].
    rewrite iso_inv_inv by exact R. reflexivity.
  - intros u solve cov r E. rewrite optimize2D3D_unfold in E. destruct (forallb _ _); [ | discriminate ].
    destruct (he_finish_fields _ _ _ _ _ _ _ E) as (xf & s & Es & Hc & Ht & Hm & Hi & Hf).
    rewrite (he_num _ 2) in Hi, Hf by (intros [o c]; reflexivity).
    exists xf, s. split; [ exact Es | split; [ exact Hc | split; [ exact Ht | split; [ exact Hm | split; [ exact Hi | exact Hf ] ] ] ] ].
Qed.
Lemma result3 p : plain_obs (h3_observations p) ->
  exists blocks : list (residual he_vars),
  (forall x, rigid (poseCalToEigen (fst x)) ->
     map (fun f => f x) blocks =
     map (fun oc =>
       let q := iso_app (target_in_camera (iso_inv (poseCalToEigen (fst x))) (to_camera_mount (fst oc))
                     (to_target_mount (fst oc)) (poseCalToEigen (snd x))) (in_target (snd oc)) in
       [vx q - vx (in_image (snd oc)); vy q - vy (in_image (snd oc)); vz q - vz (in_image (snd oc))])
       (all_pairs (h3_observations p))) /\
  forall u solve cov r, optimize3D3D u solve cov p = Ok r ->
  exists xf s,
    solve blocks (poseEigenToCal (iso_inv (h3_camera_guess p)), poseEigenToCal (h3_target_guess p)) = (xf, s) /\
    he_converged r = term_convergence s /\
    he_target_mount_to_target r = poseCalToEigen (snd xf) /\
    he_camera_mount_to_camera r = iso_inv (poseCalToEigen (fst xf)) /\
    he_initial_cost_per_obs r = initial_cost s / INR (3 * List.length (all_pairs (h3_observations p))) /\
    he_final_cost_per_obs r = final_cost s / INR (3 * List.length (all_pairs (h3_observations p))).
Proof.
  intros Ho. exists (map blk3 (all_pairs (h3_observations p))). split.
  - intros [pc pt] R. cbn [fst snd] in *. rewrite map_map. apply map_ext_in. intros [o c] Hin. apply in_all_pairs in Hin as [Io Ic].
    unfold blk3. cbn [fst snd]. destruct (Ho o Io) as [P1 P2].
    rewrite (cost3D3D_physical _ _ _ _ (iso_inv (poseCalToEigen pc))); try assumption; [ reflexivity | apply rigid_inv, R | ].
    rewrite iso_inv_inv by exact R. reflexivity.
  - intros u solve cov r E. rewrite optimize3D3D_unfold in E.
    destruct (he_finish_fields _ _ _ _ _ _ _ E) as (xf & s & Es & Hc & Ht & Hm & Hi & Hf).
    rewrite (he_num _ 3) in Hi, Hf by (intros [o c]; reflexivity).
    exists xf, s. split; [ exact Es | split; [ exact Hc | split; [ exact Ht | split; [ exact Hm | split; [ exact Hi | exact Hf ] ] ] ] ].
Qed.


Lemma unmoved2 u solve cov p r : stays solve -> optimize2D3D u solve cov p = Ok r ->
  plain_pose (h2_camera_guess p) -> plain_pose (h2_target_guess p) ->
  he_camera_mount_to_camera r = h2_camera_guess p /\ he_target_mount_to_target r = h2_target_guess p.
Proof.
  intros Hs E Hc Ht. rewrite optimize2D3D_unfold in E. destruct (forallb _ _); [ | discriminate ].
  destruct (he_finish_fields _ _ _ _ _ _ _ E) as (xf & s & Es & _ & H1 & H2 & _ & _).
  pose proof (f_equal fst Es) as Ex. rewrite Hs in Ex. cbn [fst] in Ex. subst xf. cbn [fst snd] in *.
  rewrite H1, H2, !plain_stored by (try assumption; apply plain_inv; assumption).
  split; [ apply iso_inv_inv, plain_rigid, Hc | reflexivity ].
Qed.
Lemma unmoved3 u solve cov p r : stays solve -> optimize3D3D u solve cov p = Ok r ->
  plain_pose (h3_camera_guess p) -> plain_pose (h3_target_guess p) ->
  he_camera_mount_to_camera r = h3_camera_guess p /\ he_target_mount_to_target r = h3_target_guess p.
Proof.
  intros Hs E Hc Ht. rewrite optimize3D3D_unfold in E.
  destruct (he_finish_fields _ _ _ _ _ _ _ E) as (xf & s & Es & _ & H1 & H2 & _ & _).
  pose proof (f_equal fst Es) as Ex. rewrite Hs in Ex. cbn [fst] in Ex. subst xf. cbn [fst snd] in *.
  rewrite H1, H2, !plain_stored by (try assumption; apply plain_inv; assumption).
  split; [ apply iso_inv_inv, plain_rigid, Hc | reflexivity ].
Qed.

(** ** Concrete data for the examples *)
Definition turned : iso := Iso (aa_matrix (PI / 2) unitX) (V3 1 2 3).
Lemma turned_plain : plain_pose turned.
Proof.
  split; [ apply aa_matrix_rot; geo_unfold; ring | right ].
  exists (PI / 2), unitX. pose proof PI_RGT_0. pose proof PI2_1. pose proof DBL_EPS_small.
  repeat split; try (geo_unfold; lra); nra.
Qed.
(** Camera and target both mounted on the turned frame, target one metre ahead. *)
Definition ex_obs : observation vec2 := Obs [Corr (V2 320 240) (V3 0 0 0); Corr (V2 370 240) (V3 (1/10) 0 0)] turned turned.
Definition ex_he : he_problem2D3D :=
  HEP2 [ex_obs] (Intr 500 500 320 240) (iso_trans (V3 0 0 1)) iso_id default_he_labels.
Definition ex_cov_oracle : cov_oracle :=
  CovOracle (fun l => l) (fun _ => true) (fun _ => true)
            (fun b i c j => if andb (Nat.eqb b c) (Nat.eqb i j) then 1 else 0).
Lemma ex_oracle_lists : lists_blocks ex_cov_oracle.
Proof. intros l. reflexivity. Qed.
Lemma ex_oracle_sym b i c j : co_cov ex_cov_oracle b i c j = co_cov ex_cov_oracle c j b i.
Proof. cbn. rewrite (Nat.eqb_sym b c), (Nat.eqb_sym i j). reflexivity. Qed.

Lemma target_in_camera_same T A B : rigid T -> rigid A ->
  target_in_camera A T T B = iso_mul (iso_inv A) B.
Proof.
  intros HT HA. unfold target_in_camera. rewrite iso_inv_mul by assumption.
  rewrite iso_mul_assoc, <- (iso_mul_assoc (iso_inv T)), iso_inv_l by exact HT. rewrite iso_mul_id_l. reflexivity.
Qed.
Lemma ex_he_visible o c : In o (h2_observations ex_he) -> In c (correspondence_set o) ->
  0 < vz (iso_app (target_in_camera (h2_camera_guess ex_he) (to_camera_mount o) (to_target_mount o)
                                  (h2_target_guess ex_he)) (in_target c)).
Proof.
  intros [<-|[]] Hc. cbn [to_camera_mount to_target_mount ex_obs h2_camera_guess h2_target_guess ex_he].
  rewrite target_in_camera_same by (first [ apply turned_plain | apply rigid_id ]).
  destruct Hc as [<-|[<-|[]]]; cbn [in_target]; geo_unfold; cbn; lra.
Qed.
Lemma ex_he_plain_obs : plain_obs (h2_observations ex_he).
Proof. intros o [<-|[]]. split; apply turned_plain. Qed.
Lemma ex_he_accepted u solve : exists r, optimize2D3D u solve ex_cov_oracle ex_he = Ok r.
Proof.
  apply accept2; try reflexivity.
  - apply ex_oracle_lists.
  - apply ex_oracle_sym.
  - apply (plain_id_tr vzero).
  - apply plain_id_tr.
  - apply ex_he_plain_obs.
  - cbn. discriminate.
  - apply ex_he_visible.
Qed.
