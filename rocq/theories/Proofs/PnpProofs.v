(** C35 and the PnP part of C20. *)
From Coq Require Import Reals Lra Psatz Arith Lia List String Permutation.
From Verif.Base Require Import Geom Outcome Matrix.
From Verif.Model Require Import Pose Covariance Solver HandEye Pnp.
From Verif.Spec Require Import CovarianceSpec PinHole Frames ReportSpec PnpSpec.
From Verif.Proofs Require Import GeomLemmas RotLemmas AngleAxisLemmas PoseProofs ListLemmas CovarianceProofs HandEyeProofs.
Import ListNotations.
Local Open Scope R_scope.

Lemma pnp_transform_eq x : pnp_transform x = Iso (aa_matrix (norm (fst x)) (normalized (fst x))) (snd x).
Proof.
  unfold pnp_transform. apply iso_ext; cbn [iso_mul iso_trans iso_rot lin tr]; [ apply mmul_I_l | ].
  destruct (snd x). geo_ring.
Qed.
Lemma pnp_transform_rigid x : rigid (pnp_transform x).
Proof. rewrite pnp_transform_eq. unfold rigid. cbn [lin]. apply aa_norm_rot. Qed.

Lemma pnp_start_stored T : rigid T -> pnp_transform (pnp_start T) = T.
Proof.
  intros R. destruct (aa_of_mat_spec _ R) as (U & [A _] & M). rewrite pnp_transform_eq. unfold pnp_start. cbn [fst snd].
  set (a := aa_angle _) in *. set (w := aa_axis _) in *.
  apply iso_ext; cbn [lin tr]; [ | reflexivity ].
  destruct (Req_EM_T a 0) as [Z|Z].
  - rewrite Z in *. replace (vscale 0 w) with vzero by (geo_unfold; f_equal; ring).
    rewrite norm_vzero, <- M, !aa_matrix_0. reflexivity.
  - destruct (normalized_scaled a w) as [E1 E2]; [ lra | exact U | ]. rewrite E1, E2. exact M.
Qed.

Lemma pnp_cost_eq k t i x : pnp_cost k t i x =
  let q := projectPoint_eig k (iso_app (pnp_transform x) t) in [px q - px i; py q - py i].
Proof. reflexivity. Qed.

Lemma pnp_cost_pinhole k (c : correspondence vec2) x : in_front (iso_app (pnp_transform x) (in_target c)) ->
  pnp_cost k (in_target c) (in_image c) x = pixel_error k (pnp_transform x) c.
Proof. intros H. rewrite pnp_cost_eq. unfold pixel_error. rewrite eig_pinhole by exact H. reflexivity. Qed.
Lemma pnp_cost3D_eq (c : correspondence vec3) x :
  pnp_cost3D (in_target c) (in_image c) x = point_error (pnp_transform x) c.
Proof. reflexivity. Qed.

Lemma optimizePnP_unfold u solve cov p : optimizePnP u solve cov p =
  pnp_finish u solve cov (map (fun c => pnp_cost (pnp_intr p) (in_target c) (in_image c)) (pnp_correspondences p))
    (pnp_start (pnp_guess p)) (pnp_label p).
Proof.
  unfold optimizePnP.
  rewrite (fold_left_push (fun c => pnp_cost (pnp_intr p) (in_target c) (in_image c)) _ []). reflexivity.
Qed.
Lemma optimizePnP3D_unfold u solve cov p : optimizePnP3D u solve cov p =
  pnp_finish u solve cov (map (fun c => pnp_cost3D (in_target c) (in_image c)) (pnp3_correspondences p))
    (pnp_start (pnp3_guess p)) (pnp3_label p).
Proof.
  unfold optimizePnP3D.
  rewrite (fold_left_push (fun c => pnp_cost3D (in_target c) (in_image c)) _ []). reflexivity.
Qed.

Lemma pnp_finish_fields u solve cov blocks x0 l r : pnp_finish u solve cov blocks x0 l = Ok r ->
  exists x s, solve blocks x0 = (x, s) /\
    pnp_converged r = term_convergence s /\ pnp_camera_to_target r = pnp_transform x /\
    pnp_initial_cost_per_obs r = initial_cost s / INR (num_residuals blocks x0) /\
    pnp_final_cost_per_obs r = final_cost s / INR (num_residuals blocks x0).
Proof.
  unfold pnp_finish. destruct (solve blocks x0) as [x s]. destruct (computeCovariance _ _ _ _ _); cbn; try discriminate.
  intros [= <-]. exists x, s. cbn. auto.
Qed.

Lemma pnp_finish_rigid u solve cov blocks x0 l r : pnp_finish u solve cov blocks x0 l = Ok r ->
  rigid (pnp_camera_to_target r).
Proof. intros E. destruct (pnp_finish_fields _ _ _ _ _ _ _ E) as (x & s & _ & _ & -> & _). apply pnp_transform_rigid. Qed.

Lemma num_residuals_const {X A} (f : A -> residual X) (n : nat) l x :
  (forall a, List.length (f a x) = n) -> num_residuals (map f l) x = (n * List.length l)%nat.
Proof.
  intros H. unfold num_residuals. induction l as [|a r IH]; cbn [map flat_map List.length]; [ lia | ].
  rewrite app_length, H, IH. lia.
Qed.

Lemma pnp_result2 p : exists blocks : list (residual pnp_vars),
  (forall x, map (fun f => f x) blocks =
     map (fun c => let q := projectPoint_eig (pnp_intr p) (iso_app (pnp_transform x) (in_target c)) in
                   [px q - px (in_image c); py q - py (in_image c)]) (pnp_correspondences p)) /\
  forall u solve cov r, optimizePnP u solve cov p = Ok r ->
    rigid (pnp_camera_to_target r) /\
    exists x s, solve blocks (pnp_start (pnp_guess p)) = (x, s) /\
      pnp_converged r = term_convergence s /\
      pnp_camera_to_target r = pnp_transform x /\
      pnp_initial_cost_per_obs r = initial_cost s / INR (2 * List.length (pnp_correspondences p)) /\
      pnp_final_cost_per_obs r = final_cost s / INR (2 * List.length (pnp_correspondences p)) /\
      (forall f c k, nth_error blocks k = Some f -> nth_error (pnp_correspondences p) k = Some c ->
         in_front (iso_app (pnp_camera_to_target r) (in_target c)) ->
         f x = pixel_error (pnp_intr p) (pnp_camera_to_target r) c).
Proof.
  exists (map (fun c => pnp_cost (pnp_intr p) (in_target c) (in_image c)) (pnp_correspondences p)).
  split; [ intros x; rewrite map_map; reflexivity | ].
  intros u solve cov r E. rewrite optimizePnP_unfold in E.
  split; [ eapply pnp_finish_rigid, E | ].
  destruct (pnp_finish_fields _ _ _ _ _ _ _ E) as (x & s & Es & H1 & H2 & H3 & H4).
  exists x, s. split; [ exact Es | split; [ exact H1 | split; [ exact H2 | ] ] ].
  rewrite (num_residuals_const _ 2) in H3, H4 by reflexivity.
  split; [ exact H3 | split; [ exact H4 | ] ].
  intros f c k Hf Hc Hz. rewrite nth_error_map, Hc in Hf. injection Hf as <-. rewrite H2 in *.
  apply pnp_cost_pinhole, Hz.
Qed.
Lemma pnp_result3 p : exists blocks : list (residual pnp_vars),
  (forall x, map (fun f => f x) blocks = map (point_error (pnp_transform x)) (pnp3_correspondences p)) /\
  forall u solve cov r, optimizePnP3D u solve cov p = Ok r ->
    rigid (pnp_camera_to_target r) /\
    exists x s, solve blocks (pnp_start (pnp3_guess p)) = (x, s) /\
      pnp_converged r = term_convergence s /\
      pnp_camera_to_target r = pnp_transform x /\
      pnp_initial_cost_per_obs r = initial_cost s / INR (3 * List.length (pnp3_correspondences p)) /\
      pnp_final_cost_per_obs r = final_cost s / INR (3 * List.length (pnp3_correspondences p)) /\
      map (fun f => f x) blocks = map (point_error (pnp_camera_to_target r)) (pnp3_correspondences p).
Proof.
  exists (map (fun c => pnp_cost3D (in_target c) (in_image c)) (pnp3_correspondences p)).
  split; [ intros x; rewrite map_map; reflexivity | ].
  intros u solve cov r E. rewrite optimizePnP3D_unfold in E.
  split; [ eapply pnp_finish_rigid, E | ].
  destruct (pnp_finish_fields _ _ _ _ _ _ _ E) as (x & s & Es & H1 & H2 & H3 & H4).
  exists x, s. split; [ exact Es | split; [ exact H1 | split; [ exact H2 | ] ] ].
  rewrite (num_residuals_const _ 3) in H3, H4 by reflexivity.
  split; [ exact H3 | split; [ exact H4 | ] ]. rewrite H2, map_map. reflexivity.
Qed.

Lemma pnp_unmoved2 u solve cov p r : stays solve -> optimizePnP u solve cov p = Ok r ->
  rigid (pnp_guess p) -> pnp_camera_to_target r = pnp_guess p.
Proof.
  intros St E R. rewrite optimizePnP_unfold in E.
  destruct (pnp_finish_fields _ _ _ _ _ _ _ E) as (x & s & Es & _ & -> & _).
  pose proof (f_equal fst Es) as Ex. rewrite St in Ex. cbn [fst] in Ex. subst x. apply pnp_start_stored, R.
Qed.
Lemma pnp_unmoved3 u solve cov p r : stays solve -> optimizePnP3D u solve cov p = Ok r ->
  rigid (pnp3_guess p) -> pnp_camera_to_target r = pnp3_guess p.
Proof.
  intros St E R. rewrite optimizePnP3D_unfold in E.
  destruct (pnp_finish_fields _ _ _ _ _ _ _ E) as (x & s & Es & _ & -> & _).
  pose proof (f_equal fst Es) as Ex. rewrite St in Ex. cbn [fst] in Ex. subst x. apply pnp_start_stored, R.
Qed.

(** ** Covariance *)
Lemma free_all size blocks : free_elems size (mask_of []) blocks = elements size blocks.
Proof.
  unfold free_elems, elements. apply flat_map_ext. intros b. unfold mask_of. cbn.
  induction (map _ _) as [|a l IH]; [ reflexivity | ]. cbn. rewrite IH. reflexivity.
Qed.
Lemma elements_ext size size' blocks : (forall b, In b blocks -> size b = size' b) ->
  elements size blocks = elements size' blocks.
Proof.
  unfold elements. induction blocks as [|b r IH]; intros H; [ reflexivity | ].
  cbn [flat_map]. rewrite (H b) by (left; reflexivity). rewrite IH; [ reflexivity | ]. intros c Hc. apply H. right; exact Hc.
Qed.

Lemma report_spec u cov added blocks names r :
  (forall b i c j, co_cov cov b i c j = co_cov cov c j b i) ->
  computeCovariance u (mk_cov_problem cov added) blocks names [] = Ok r ->
  reports r cov (elements (fun b => match find_key b added with Some n => n | None => 0%nat end) blocks) (label_of names).
Proof.
  intros Sy E. pose proof (covariance_ok_inv _ _ _ _ _ _ E) as Hi.
  set (pb := mk_cov_problem cov added) in *.
  destruct (covariance_ok u pb blocks names [] Sy Hi) as (r' & E' & _ & H1 & H2 & H3).
  rewrite E' in E. injection E as ->.
  pose proof (covariance_sd_names u pb blocks names [] r Sy E') as Hn. cbv zeta in Hn.
  rewrite free_all in *. cbn [pb_size pb mk_cov_problem] in *.
  split; [ exact Hn | split; [ exact H1 | split; [ exact H2 | ] ] ].
  intros p q a b Ha Hb.
  assert (Lp : (p < List.length (elements (fun b => match find_key b added with Some n => n | None => 0%nat end) blocks))%nat)
    by (apply nth_error_Some; congruence).
  assert (Lq : (q < List.length (elements (fun b => match find_key b added with Some n => n | None => 0%nat end) blocks))%nat)
    by (apply nth_error_Some; congruence).
  rewrite H3 by assumption.
  rewrite (nth_error_nth _ _ _ Ha), (nth_error_nth _ _ _ Hb). reflexivity.
Qed.

Definition pnp_names_map (label : string) : amap (list string) :=
  let compose labels := map (fun l => String.append label (String.append "_" l)) labels in
  insert_key key_angle_axis (compose pnp_labels_rotation)
    (insert_key key_translation (compose pnp_labels_translation) []).

Lemma pnp_finish_ok u solve cov blocks x0 l :
  (forall bs, co_compute cov bs = true) -> (forall bs, co_get cov bs = true) ->
  (forall b i c j, co_cov cov b i c j = co_cov cov c j b i) -> blocks <> [] ->
  exists r, pnp_finish u solve cov blocks x0 l = Ok r.
Proof.
  intros Hc Hg Hs Hb. unfold pnp_finish. destruct (solve blocks x0) as [x s].
  destruct blocks as [|b0 bs]; [ congruence | ]. set (pb := mk_cov_problem cov _).
  fold (pnp_names_map l).
  destruct (covariance_ok u pb [key_translation; key_angle_axis] (pnp_names_map l) []) as (c & -> & _).
  - exact Hs.
  - split; [ reflexivity | split; [ | split; [ apply Hc | apply Hg ] ] ].
    intros b [<-|[<-|[]]]; eexists; split; reflexivity.
  - cbn. eexists; reflexivity.
Qed.
Lemma pnp_finish_empty u solve cov x0 l : pnp_finish u solve cov [] x0 l = UB.
Proof. unfold pnp_finish. destruct (solve [] x0) as [x s]. reflexivity. Qed.

Lemma pnp_finish_report u solve cov blocks x0 l r :
  (forall b i c j, co_cov cov b i c j = co_cov cov c j b i) ->
  pnp_finish u solve cov blocks x0 l = Ok r ->
  reports (pnp_covariance r) cov (elements (fun _ => 3%nat) [key_translation; key_angle_axis])
    (fun e => String.append l (String.append "_"
       (nth (snd e) (if Nat.eqb (fst e) key_translation then ["x"; "y"; "z"] else ["rx"; "ry"; "rz"]) "")))%string.
Proof.
  intros Sy E. destruct blocks as [|b0 bs]; [ rewrite pnp_finish_empty in E; discriminate | ].
  unfold pnp_finish in E. destruct (solve (b0 :: bs) x0) as [x s]. fold (pnp_names_map l) in E.
  destruct (computeCovariance _ _ _ _ _) as [c| |] eqn:Ec; cbn [bind] in E; try discriminate.
  injection E as <-. cbn [pnp_covariance]. exact (report_spec _ _ _ _ _ _ Sy Ec).
Qed.

Lemma pnp_succeeds2 u solve cov p :
  (forall bs, co_compute cov bs = true) -> (forall bs, co_get cov bs = true) ->
  (forall b i c j, co_cov cov b i c j = co_cov cov c j b i) -> pnp_correspondences p <> [] ->
  exists r, optimizePnP u solve cov p = Ok r.
Proof.
  intros H1 H2 H3 H. rewrite optimizePnP_unfold. apply pnp_finish_ok; try assumption.
  intros E. apply map_eq_nil in E. contradiction.
Qed.
Lemma pnp_succeeds3 u solve cov p :
  (forall bs, co_compute cov bs = true) -> (forall bs, co_get cov bs = true) ->
  (forall b i c j, co_cov cov b i c j = co_cov cov c j b i) -> pnp3_correspondences p <> [] ->
  exists r, optimizePnP3D u solve cov p = Ok r.
Proof.
  intros H1 H2 H3 H. rewrite optimizePnP3D_unfold. apply pnp_finish_ok; try assumption.
  intros E. apply map_eq_nil in E. contradiction.
Qed.
Lemma pnp_empty2 u solve cov p : pnp_correspondences p = [] -> optimizePnP u solve cov p = UB.
Proof. intros E. rewrite optimizePnP_unfold, E. apply pnp_finish_empty. Qed.
Lemma pnp_empty3 u solve cov p : pnp3_correspondences p = [] -> optimizePnP3D u solve cov p = UB.
Proof. intros E. rewrite optimizePnP3D_unfold, E. apply pnp_finish_empty. Qed.
Lemma pnp_report2 u solve cov p r : (forall b i c j, co_cov cov b i c j = co_cov cov c j b i) ->
  optimizePnP u solve cov p = Ok r ->
  reports (pnp_covariance r) cov (elements (fun _ => 3%nat) [key_translation; key_angle_axis])
    (fun e => String.append (pnp_label p) (String.append "_"
       (nth (snd e) (if Nat.eqb (fst e) key_translation then ["x"; "y"; "z"] else ["rx"; "ry"; "rz"]) "")))%string.
Proof. intros Sy E. rewrite optimizePnP_unfold in E. eapply pnp_finish_report; eassumption. Qed.
Lemma pnp_report3 u solve cov p r : (forall b i c j, co_cov cov b i c j = co_cov cov c j b i) ->
  optimizePnP3D u solve cov p = Ok r ->
  reports (pnp_covariance r) cov (elements (fun _ => 3%nat) [key_translation; key_angle_axis])
    (fun e => String.append (pnp3_label p) (String.append "_"
       (nth (snd e) (if Nat.eqb (fst e) key_translation then ["x"; "y"; "z"] else ["rx"; "ry"; "rz"]) "")))%string.
Proof. intros Sy E. rewrite optimizePnP3D_unfold in E. eapply pnp_finish_report; eassumption. Qed.

Definition ex_pnp : pnp_problem :=
  PnP2 (Intr 500 500 320 240) [Corr (V2 320 240) (V3 0 0 0); Corr (V2 420 240) (V3 (1/5) 0 0)]
       (Iso I3 (V3 0 0 1)) "camera_to_target".
Definition ex_pnp3 : pnp_problem3D :=
  PnP3 [Corr (V3 0 0 1) (V3 0 0 0); Corr (V3 (1/5) 0 1) (V3 (1/5) 0 0)] (Iso I3 (V3 0 0 1)) "camera_to_target".
Lemma ex_pnp_ok u solve : exists r, optimizePnP u solve ex_cov_oracle ex_pnp = Ok r.
Proof. apply pnp_succeeds2; try reflexivity; [ apply ex_oracle_sym | discriminate ]. Qed.
Lemma ex_pnp3_ok u solve : exists r, optimizePnP3D u solve ex_cov_oracle ex_pnp3 = Ok r.
Proof. apply pnp_succeeds3; try reflexivity; [ apply ex_oracle_sym | discriminate ]. Qed.
