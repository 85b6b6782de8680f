(** The tools that also run OpenCV. *)
From Coq Require Import Reals Arith Lia Lra String List Permutation.
From Verif.Base Require Import Geom Outcome.
From Verif.Model Require Import Pose Covariance Solver HandEye BlockSolver Pnp Intrinsic IntrinsicValidation DataSet ExampleTools CvTools.
From Verif.Spec Require Import Frames PinHole ProjectionSpec ValidationSpec ToolSpec.
From Verif.Proofs Require Import GeomLemmas ListLemmas PoseProofs PnpProofs IntrinsicProofs IntrinsicValidationProofs HandEyeProofs KinematicProofs ToolProofs LoopProofs.
Import ListNotations.
Local Open Scope R_scope.

Lemma cv_matrix k : cvCameraMatrix k = camera_matrix k.
Proof. reflexivity. Qed.
Lemma cv_matrix_sees k p : vz p <> 0 -> let q := mvec (camera_matrix k) p in
  pinhole k p = V2 (vx q / vz q) (vy q / vz q).
Proof.
  intros Z. destruct k, p as [x y z]. cbn [vz] in Z. unfold pinhole, camera_matrix, mvec. cbn. f_equal; field; exact Z.
Qed.

Section Intr.
  Context {image features size : Type} (v : vision image features) (size_of : image -> size) (cal : calibrate_camera size)
    (u : nat -> nat -> R) (psolve : pnp_solvers) (pcov : pnp_covs) (solve : block_solver) (cov : cov_oracle) (k : intrinsics).
  Notation tool := (intrinsicTool v size_of cal u psolve pcov solve cov k).

  Lemma intrinsic_tool images poses cv r : tool (Some (DS images poses)) = Ok (cv, r) ->
    exists sel first rest K ds, chosen (sees v) images sel /\ images = first :: rest /\
      let obs := map snd sel in
      cal (map (map in_target) obs) (map (map in_image) obs) (size_of first) (camera_matrix k) = Ok (K, ds) /\
      (5 <= List.length ds)%nat /\ cv = (Intr (m00 K) (m11 K) (m02 K) (m12 K), firstn 5 ds) /\
      optimizeIntrinsic u psolve pcov solve cov (IP obs k "pose") = Ok r.
  Proof.
    unfold intrinsicTool. intros E.
    destruct (intrinsicObservations v (DS images poses)) as [obs | |] eqn:Eo; cbn [bind] in E; try discriminate.
    apply intrinsic_images in Eo. destruct Eo as (sel & Ch & ->). cbn [ds_images] in E.
    destruct images as [ | first rest]; [ discriminate | ]. cbn [idx nth_error bind] in E.
    unfold opencvCameraCalibration in E.
    destruct (cal _ _ _ _) as [[K ds] | |] eqn:Ec; cbn [bind] in E; try discriminate.
    destruct ds as [ | d0 [ | d1 [ | d2 [ | d3 [ | d4 ds] ] ] ] ]; cbn [idx nth_error bind] in E; try discriminate.
    destruct (optimizeIntrinsic _ _ _ _ _ _) as [r' | |] eqn:Er; cbn [bind] in E; try discriminate. injection E as <- <-.
    exists sel, first, rest, K, (d0 :: d1 :: d2 :: d3 :: d4 :: ds). split; [ exact Ch | ]. split; [ reflexivity | ]. cbv zeta.
    split; [ exact Ec | ]. split; [ cbn; lia | ]. split; [ reflexivity | exact Er ].
  Qed.
  Lemma intrinsic_tool_no_images poses : tool (Some (DS [] poses)) = UB.
  Proof. reflexivity. Qed.
  Lemma intrinsic_tool_no_data : tool None = Throw RuntimeError.
  Proof. reflexivity. Qed.
  Lemma intrinsic_tool_cv_throws images poses sel first rest e : images = first :: rest -> (forall img, In img images -> tame v img) ->
    chosen (sees v) images sel ->
    cal (map (map in_target) (map snd sel)) (map (map in_image) (map snd sel)) (size_of first) (camera_matrix k) = Throw e ->
    tool (Some (DS images poses)) = Throw e.
  Proof.
    intros -> H Ch E. unfold intrinsicTool. destruct (intrinsic_succeeds v (first :: rest) poses H) as [obs Eo]. rewrite Eo. cbn [bind].
    apply intrinsic_images in Eo. destruct Eo as (sel' & Ch' & ->).
    assert (sel' = sel).
    { refine (HandEyeToolProofs.chosen_unique _ _ _ _ Ch _ Ch'). intros a b b'. apply HandEyeToolProofs.sees_unique. }
    subst sel'. cbn [ds_images idx nth_error bind]. unfold opencvCameraCalibration. rewrite cv_matrix, E. reflexivity.
  Qed.
  Lemma intrinsic_tool_no_target images poses first rest K ds : images = first :: rest -> (forall img, In img images -> tame v img) ->
    (forall img cs, In img images -> ~ sees v img cs) -> cal [] [] (size_of first) (camera_matrix k) = Ok (K, ds) ->
    tool (Some (DS images poses)) = UB.
  Proof.
    intros -> H N E. unfold intrinsicTool. destruct (intrinsic_succeeds v (first :: rest) poses H) as [obs Eo]. rewrite Eo. cbn [bind].
    apply intrinsic_images in Eo. destruct Eo as (sel & Ch & ->).
    rewrite (HandEyeToolProofs.chosen_none _ _ _ Ch) by (intros a b Ha; apply N, Ha). cbn [map ds_images idx nth_error bind].
    unfold opencvCameraCalibration. cbn [map]. rewrite cv_matrix, E. cbn [bind].
    destruct ds as [ | d0 [ | d1 [ | d2 [ | d3 [ | d4 ds] ] ] ] ]; cbn [idx nth_error bind]; try reflexivity.
    rewrite no_images_aborts; reflexivity.
  Qed.
End Intr.

Section Pnp.
  Context {image features : Type} (v : vision image features) (cv : cv_solve_pnp)
    (u : nat -> nat -> R) (solve : solver pnp_vars) (cov : cov_oracle) (k : intrinsics).
  Notation tool := (solvePnpTool v cv u solve cov k).

  Lemma cv_pose cs T : solveCVPnP cv k cs = Ok T <->
    exists flag w t, cv (map in_target cs) (map in_image cs) (camera_matrix k) = Ok (flag, (w, t)) /\
      T = Iso (aa_matrix (norm w) (normalized w)) t.
  Proof.
    unfold solveCVPnP. rewrite cv_matrix. destruct (cv _ _ _) as [[flag [w t]] | |]; cbn [bind].
    - split; [ intros E; injection E as <-; exists flag, w, t; split; reflexivity | ]. intros (f & w' & t' & E & ->). injection E as <- <- <-. reflexivity.
    - split; [ discriminate | ]. intros (f & w' & t' & E & _). discriminate.
    - split; [ discriminate | ]. intros (f & w' & t' & E & _). discriminate.
  Qed.
  Lemma cv_pose_rigid cs T : solveCVPnP cv k cs = Ok T -> rigid T.
  Proof. intros E. apply cv_pose in E. destruct E as (f & w & t & _ & ->). apply aa_norm_rot. Qed.
  (** The rotation vector is read as Ceres reads it. *)
  Lemma cv_pose_pnp w t : Iso (aa_matrix (norm w) (normalized w)) t = pnp_transform (w, t).
  Proof. rewrite pnp_transform_eq. reflexivity. Qed.

  Lemma pnp_tool img cvT r : tool img = Ok (cvT, r) ->
    exists cs, sees v img cs /\ solveCVPnP cv k cs = Ok cvT /\
      optimizePnP u solve cov (PnP2 k cs pnp_tool_guess "camera_to_target") = Ok r.
  Proof.
    unfold solvePnpTool, findFeatures. intros E. destruct (find v img) as [f | |] eqn:F; cbn [bind] in E; try discriminate.
    destruct (none v f) eqn:N; cbn [bind] in E; [ discriminate | ].
    destruct (show_features v img f) as [[] | |]; cbn [bind] in E; try discriminate.
    destruct (create v f) as [cs | |] eqn:C; cbn [bind] in E; try discriminate.
    destruct (solveCVPnP cv k cs) as [T | |] eqn:S; cbn [bind] in E; try discriminate.
    unfold default_pnp_label in E. destruct (optimizePnP _ _ _ _) as [r' | |] eqn:O; cbn [bind] in E; try discriminate. injection E as <- <-.
    exists cs. split; [ exists f; auto | split; assumption ].
  Qed.
  Lemma pnp_tool_nothing img f : find v img = Ok f -> none v f = true -> tool img = Throw RuntimeError.
  Proof. intros F N. unfold solvePnpTool, findFeatures. rewrite F. cbn [bind]. rewrite N. reflexivity. Qed.
  Lemma pnp_tool_throws img e : find v img = Throw e -> tool img = Throw e.
  Proof. intros F. unfold solvePnpTool, findFeatures. rewrite F. reflexivity. Qed.
  Lemma pnp_guess_is p : iso_app pnp_tool_guess p = V3 (vx p) (- vy p) (1 / 10 - vz p).
  Proof.
    unfold pnp_tool_guess. rewrite iso_mul_id_l. rewrite iso_app_mul. destruct p as [x y z].
    unfold iso_app at 2. cbn [lin tr]. unfold aa_matrix, unitX. rewrite cos_PI, sin_PI. unfold iso_app, iso_trans. cbn [lin tr].
    geo_unfold. unfold I3, vzero. cbn. f_equal; ring.
  Qed.
  (** A pose is printed even if OpenCV reports that it found none. *)
  Lemma cv_flag_ignored cs w t : cv (map in_target cs) (map in_image cs) (camera_matrix k) = Ok (false, (w, t)) ->
    solveCVPnP cv k cs = Ok (Iso (aa_matrix (norm w) (normalized w)) t).
  Proof. intros E. apply cv_pose. exists false, w, t. split; [ exact E | reflexivity ]. Qed.
End Pnp.
