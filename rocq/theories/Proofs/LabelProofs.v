(** C20 *)
From Coq Require Import Reals Lra Arith Lia String List Permutation.
From Verif.Base Require Import Geom Outcome Matrix.
From Verif.Model Require Import Pose Covariance Solver HandEye BlockSolver Pnp MultiCamera Intrinsic.
From Verif.Spec Require Import CovarianceSpec Frames MultiSpec ReportSpec LabelSpec IntrinsicSpec.
From Verif.Proofs Require Import GeomLemmas PoseProofs ListLemmas CovarianceProofs HandEyeProofs PnpProofs MultiCameraProofs IntrinsicProofs.
Import ListNotations.
Local Open Scope R_scope.

Lemma slots_translation a : tr (poseCalToEigen (pose_of_slots a)) = V3 (a 3%nat) (a 4%nat) (a 5%nat).
Proof. unfold poseCalToEigen. destruct (Rlt_dec _ _); reflexivity. Qed.
Lemma slots_rotation a : let v := V3 (a 0%nat) (a 1%nat) (a 2%nat) in
  DBL_EPS < dot v v -> lin (poseCalToEigen (pose_of_slots a)) = aa_matrix (norm v) (normalized v).
Proof. intros v H. unfold poseCalToEigen. destruct (Rlt_dec _ _) as [_|C]; [ reflexivity | contradiction ]. Qed.
Lemma slots_read m k : read_pose m k = pose_of_slots (m k).
Proof. reflexivity. Qed.

Lemma append_inj a b c : String.append a b = String.append a c -> b = c.
Proof. induction a as [|h t IH]; cbn; [ auto | intros [= H]; auto ]. Qed.

(** A report cannot be right under two lists of names that differ. *)
Lemma reports_names r cov elems f g e : reports r cov elems f -> reports r cov elems g -> In e elems -> f e = g e.
Proof.
  intros [H _] [H' _] Hin. rewrite H in H'. clear H.
  induction elems as [|a l IH]; [ destruct Hin | ]. cbn in H'. injection H' as E1 E2.
  destruct Hin as [<-|Hin]; [ exact E1 | exact (IH E2 Hin) ].
Qed.
Lemma reports_ext r cov elems f g : reports r cov elems f -> (forall e, In e elems -> f e = g e) -> reports r cov elems g.
Proof. intros [H H'] E. split; [ rewrite H; apply map_ext_in, E | exact H' ]. Qed.
Lemma swapped_wrong pose k i : (i < 6)%nat -> swapped_name pose (k, i) <> pose_name pose (k, i).
Proof.
  intros Hi E. unfold swapped_name, pose_name in E. cbn [fst snd] in E. apply append_inj in E. apply append_inj with (a := "_"%string) in E.
  do 6 (destruct i as [|i]; [ discriminate E | ]). lia.
Qed.
(** Every single one of the labels is wrong. *)
Lemma swapped_never r cov elems pose : reports r cov elems (swapped_name pose) -> elems <> [] ->
  (forall e, In e elems -> (snd e < 6)%nat) -> ~ reports r cov elems (pose_name pose).
Proof.
  intros H Ne Hs C. destruct elems as [|[k i] l]; [ congruence | ].
  apply (swapped_wrong pose k i); [ apply (Hs (k, i)); left; reflexivity | ].
  apply (reports_names _ _ _ _ _ (k, i) H C). left. reflexivity.
Qed.
Lemma in_elements n blocks e : In e (elements (fun _ => n) blocks) -> (snd e < n)%nat.
Proof. unfold elements. intros H. apply in_flat_map in H as (b & _ & H). apply in_map_iff in H as (i & <- & H). apply in_seq in H. cbn. lia. Qed.

(** ** Hand-eye *)
Lemma he_finish_report u solve cov blocks x0 l r : lists_blocks cov ->
  (forall b i c j, co_cov cov b i c j = co_cov cov c j b i) ->
  he_finish u solve cov blocks x0 l = Ok r ->
  reports (he_covariance r) cov (elements (fun _ => 6%nat) (co_order cov [key_camera; key_target]))
    (fun e => String.append (he_pose l (fst e)) (String.append "_" (nth (snd e) (labels_isometry3d l) ""%string))).
Proof.
  intros Lb Sy E. destruct blocks as [|b0 bs]; [ rewrite he_finish_empty in E by exact Lb; discriminate | ].
  unfold he_finish in E. destruct (solve (b0 :: bs) x0) as [x s]. unfold computeCovariance_names in E.
  destruct (computeCovariance _ _ _ _ _) as [c| |] eqn:Ec; cbn [bind] in E; try discriminate.
  injection E as <-. cbn [he_covariance].
  pose proof (covariance_ok_inv _ _ _ _ _ _ Ec) as (_ & Hf & _).
  pose proof (report_spec _ _ _ _ _ _ Sy Ec) as Rp. cbn [pb_blocks mk_cov_problem keys map fst] in Rp, Hf.
  assert (Hin : forall b, In b (co_order cov [key_camera; key_target]) -> b = key_camera \/ b = key_target).
  { intros b Hb. apply (Permutation_in _ (Permutation_sym (Lb _))) in Hb. destruct Hb as [<-|[<-|[]]]; auto. }
  rewrite (elements_ext _ (fun _ => 6%nat)) in Rp by (intros b Hb; destruct (Hin b Hb) as [-> | ->]; reflexivity).
  assert (H6 : List.length (labels_isometry3d l) = 6%nat).
  { destruct (Hf key_camera) as (lab & Hl & Hs).
    - apply (Permutation_in _ (Lb _)). left. reflexivity.
    - cbn in Hl, Hs. injection Hl as <-. injection Hs as Hs. rewrite map_length in Hs. auto. }
  apply (reports_ext _ _ _ _ _ Rp). intros [b i] He. pose proof (in_elements _ _ _ He) as Hi. cbn [snd] in Hi.
  unfold elements in He. apply in_flat_map in He as (b' & Hb & He). apply in_map_iff in He as (i' & [= -> ->] & _).
  assert (G : forall pre, nth i (map (fun l0 => String.append pre (String.append "_" l0)) (labels_isometry3d l)) ""%string =
    String.append pre (String.append "_" (nth i (labels_isometry3d l) ""%string))).
  { intros pre. rewrite (nth_indep _ _ (String.append pre (String.append "_" ""))) by (rewrite map_length; lia).
    apply (map_nth (fun l0 => String.append pre (String.append "_" l0))). }
  unfold label_of, he_pose. destruct (Hin b Hb) as [-> | ->]; cbn; apply G.
Qed.
Lemma he_report2 u solve cov p r : lists_blocks cov ->
  (forall b i c j, co_cov cov b i c j = co_cov cov c j b i) ->
  optimize2D3D u solve cov p = Ok r ->
  reports (he_covariance r) cov (elements (fun _ => 6%nat) (co_order cov [key_camera; key_target]))
    (fun e => String.append (he_pose (h2_labels p) (fst e)) (String.append "_" (nth (snd e) (labels_isometry3d (h2_labels p)) ""%string))).
Proof.
  intros Lb Sy E. rewrite optimize2D3D_unfold in E. destruct (forallb _ _); [ | discriminate ].
  eapply he_finish_report; eassumption.
Qed.
Lemma he_report3 u solve cov p r : lists_blocks cov ->
  (forall b i c j, co_cov cov b i c j = co_cov cov c j b i) ->
  optimize3D3D u solve cov p = Ok r ->
  reports (he_covariance r) cov (elements (fun _ => 6%nat) (co_order cov [key_camera; key_target]))
    (fun e => String.append (he_pose (h3_labels p) (fst e)) (String.append "_" (nth (snd e) (labels_isometry3d (h3_labels p)) ""%string))).
Proof. intros Lb Sy E. rewrite optimize3D3D_unfold in E. eapply he_finish_report; eassumption. Qed.

Lemma he_elements_ne cov : lists_blocks cov -> elements (fun _ => 6%nat) (co_order cov [key_camera; key_target]) <> [].
Proof.
  intros Lb E. assert (I : In key_camera (co_order cov [key_camera; key_target])).
  { apply (Permutation_in _ (Lb _)). left. reflexivity. }
  assert (C : In (key_camera, 0%nat) (elements (fun _ => 6%nat) (co_order cov [key_camera; key_target]))).
  { unfold elements. apply in_flat_map. exists key_camera. split; [ exact I | cbn; auto ]. }
  rewrite E in C. destruct C.
Qed.
Lemma he_swapped2 u solve cov p r : lists_blocks cov ->
  (forall b i c j, co_cov cov b i c j = co_cov cov c j b i) ->
  optimize2D3D u solve cov p = Ok r -> labels_isometry3d (h2_labels p) = labels_isometry3d default_he_labels ->
  let elems := elements (fun _ => 6%nat) (co_order cov [key_camera; key_target]) in
  reports (he_covariance r) cov elems (swapped_name (he_pose (h2_labels p))) /\
  ~ reports (he_covariance r) cov elems (pose_name (he_pose (h2_labels p))).
Proof.
  intros Lb Sy E Hl elems. pose proof (he_report2 _ _ _ _ _ Lb Sy E) as Rp. rewrite Hl in Rp. split; [ exact Rp | ].
  apply swapped_never; [ exact Rp | apply he_elements_ne, Lb | intros e; apply in_elements ].
Qed.
Lemma he_swapped3 u solve cov p r : lists_blocks cov ->
  (forall b i c j, co_cov cov b i c j = co_cov cov c j b i) ->
  optimize3D3D u solve cov p = Ok r -> labels_isometry3d (h3_labels p) = labels_isometry3d default_he_labels ->
  let elems := elements (fun _ => 6%nat) (co_order cov [key_camera; key_target]) in
  reports (he_covariance r) cov elems (swapped_name (he_pose (h3_labels p))) /\
  ~ reports (he_covariance r) cov elems (pose_name (he_pose (h3_labels p))).
Proof.
  intros Lb Sy E Hl elems. pose proof (he_report3 _ _ _ _ _ Lb Sy E) as Rp. rewrite Hl in Rp. split; [ exact Rp | ].
  apply swapped_never; [ exact Rp | apply he_elements_ne, Lb | intros e; apply in_elements ].
Qed.

(** ** Several cameras *)
Lemma static_swapped u solve cov p r : static_sizes p ->
  (forall b i c j, co_cov cov b i c j = co_cov cov c j b i) ->
  optimizeStatic u solve cov p = Ok r ->
  let elems := elements (fun _ => 6%nat) (seq 0 (S (List.length (sp_base_to_camera_guess p)))) in
  reports (sr_covariance r) cov elems (swapped_name (static_pose p)) /\
  ~ reports (sr_covariance r) cov elems (pose_name (static_pose p)).
Proof.
  intros Hs Sy E elems. pose proof (static_report p _ _ _ _ Hs Sy E) as Rp. split; [ exact Rp | ].
  apply swapped_never; [ exact Rp | cbn; discriminate | intros e; apply in_elements ].
Qed.

(** ** Intrinsic *)
Lemma append_assoc a b c : String.append a (String.append b c) = String.append (String.append a b) c.
Proof. induction a as [|h t IH]; cbn; [ reflexivity | rewrite IH; reflexivity ]. Qed.
Lemma intrinsic_swapped u psolve pcov solve cov p r :
  (forall b i c j, co_cov cov b i c j = co_cov cov c j b i) ->
  optimizeIntrinsic u psolve pcov solve cov p = Ok r ->
  let n := List.length (ip_image_observations p) in
  let elems := (map (pair n) (seq 0 9) ++ elements (fun _ => 6%nat) (seq 0 n))%list in
  let named pose e := if Nat.eqb (fst e) n then nth (snd e) ["fx"; "fy"; "cx"; "cy"; "k1"; "k2"; "p1"; "p2"; "k3"]%string ""%string
                      else pose (intrinsic_pose p) e in
  reports (ir_covariance r) cov elems (named swapped_name) /\
  ~ reports (ir_covariance r) cov elems (named pose_name).
Proof.
  intros Sy E n elems named. pose proof (intrinsic_report _ _ _ _ _ _ _ Sy E) as Rp. fold n in Rp. fold elems in Rp.
  assert (Rq : reports (ir_covariance r) cov elems (named swapped_name)).
  { apply (reports_ext _ _ _ _ _ Rp). intros e _. unfold named. destruct (Nat.eqb (fst e) n); [ reflexivity | ].
    unfold swapped_name, intrinsic_pose. rewrite append_assoc. reflexivity. }
  split; [ exact Rq | ]. intros C.
  apply intrinsic_ok in E as (_ & _ & HN & _). fold n in HN.
  apply (swapped_wrong (intrinsic_pose p) 0 0); [ lia | ].
  assert (G : named swapped_name (0%nat, 0%nat) = named pose_name (0%nat, 0%nat)).
  { apply (reports_names _ _ _ _ _ _ Rq C). unfold elems. apply in_or_app. right. unfold elements.
    apply in_flat_map. exists 0%nat. split; [ apply in_seq; lia | cbn; auto ]. }
  unfold named in G. cbn [fst snd] in G. destruct (Nat.eqb_spec 0 n); [ lia | exact G ].
Qed.
