(** C35: PnP cost and result. [pnp_transform x] is the transform the optimized variables stand for:
    rotation by the angle-axis vector [fst x], then translation by [snd x]. *)
From Coq Require Import Reals Arith List String.
From Verif.Base Require Import Geom Outcome.
From Verif.Model Require Import Pose Solver HandEye Pnp.
From Verif.Spec Require Import PinHole PnpSpec.
From Verif.Proofs Require Import HandEyeProofs PnpProofs.
Import ListNotations.
Local Open Scope R_scope.

Theorem C35_variables_are_angle_axis_and_translation :
  forall x, pnp_transform x = Iso (aa_matrix (norm (fst x)) (normalized (fst x))) (snd x).
Proof. exact pnp_transform_eq. Qed.
Print Assumptions C35_variables_are_angle_axis_and_translation.

(** The residual is the pin-hole reprojection error of every point in front of the camera. *)
Theorem C35_residual_is_reprojection_error :
  forall k (c : correspondence vec2) x, in_front (iso_app (pnp_transform x) (in_target c)) ->
  pnp_cost k (in_target c) (in_image c) x = pixel_error k (pnp_transform x) c.
Proof. exact pnp_cost_pinhole. Qed.
Print Assumptions C35_residual_is_reprojection_error.

(** The solver is given one residual per correspondence. Whatever it does, the returned
    transform is rigid, is the one the final residuals were evaluated with, and the costs are
    those of the solver per residual. *)
Theorem C35_result_of_2D_problem :
  forall p, exists blocks : list (residual pnp_vars),
  (forall x, map (fun f => f x) blocks =
     map (fun c => let q := projectPoint_eig (pnp_intr p) (iso_app (pnp_transform x) (in_target c)) in
                   [px q - px (in_image c); py q - py (in_image c)]) (pnp_correspondences p)) /\
  forall u solve cov r, optimizePnP u solve cov p = Ok r ->
    rigid (pnp_camera_to_target r) /\
    exists x s, solve blocks (pnp_start (pnp_guess p)) = (x, s) /\
      pnp_converged r = term_convergence s /\
      pnp_camera_to_target r = pnp_transform x /\
      pnp_initial_cost_per_obs r = initial_cost s / INR (2 * List.length (pnp_correspondences p)) /\
      pnp_final_cost_per_obs r = final_cost s / INR (2 * List.length (pnp_correspondences p)) /\
      (forall f c k, nth_error blocks k = Some f -> nth_error (pnp_correspondences p) k = Some c ->
         in_front (iso_app (pnp_camera_to_target r) (in_target c)) ->
         f x = pixel_error (pnp_intr p) (pnp_camera_to_target r) c).
Proof. exact pnp_result2. Qed.
Print Assumptions C35_result_of_2D_problem.

Theorem C35_result_of_3D_problem :
  forall p, exists blocks : list (residual pnp_vars),
  (forall x, map (fun f => f x) blocks = map (point_error (pnp_transform x)) (pnp3_correspondences p)) /\
  forall u solve cov r, optimizePnP3D u solve cov p = Ok r ->
    rigid (pnp_camera_to_target r) /\
    exists x s, solve blocks (pnp_start (pnp3_guess p)) = (x, s) /\
      pnp_converged r = term_convergence s /\
      pnp_camera_to_target r = pnp_transform x /\
      pnp_initial_cost_per_obs r = initial_cost s / INR (3 * List.length (pnp3_correspondences p)) /\
      pnp_final_cost_per_obs r = final_cost s / INR (3 * List.length (pnp3_correspondences p)) /\
      map (fun f => f x) blocks = map (point_error (pnp_camera_to_target r)) (pnp3_correspondences p).
Proof. exact pnp_result3. Qed.
Print Assumptions C35_result_of_3D_problem.

(** The solver starts at the guess, and the guess is returned if the solver does not move. *)
Theorem C35_starts_at_the_guess :
  forall T, rigid T -> pnp_transform (pnp_start T) = T.
Proof. exact pnp_start_stored. Qed.
Print Assumptions C35_starts_at_the_guess.

Theorem C35_unmoved_2D :
  forall u solve cov p r, stays solve -> optimizePnP u solve cov p = Ok r ->
  rigid (pnp_guess p) -> pnp_camera_to_target r = pnp_guess p.
Proof. exact pnp_unmoved2. Qed.
Print Assumptions C35_unmoved_2D.

Theorem C35_unmoved_3D :
  forall u solve cov p r, stays solve -> optimizePnP3D u solve cov p = Ok r ->
  rigid (pnp3_guess p) -> pnp_camera_to_target r = pnp3_guess p.
Proof. exact pnp_unmoved3. Qed.
Print Assumptions C35_unmoved_3D.

(** PnP returns a result whenever there is a correspondence and Ceres can compute the covariance;
    without correspondences it asks Ceres for the size of an unknown block, which aborts. *)
Theorem C35_succeeds_2D :
  forall u solve cov p,
  (forall bs, co_compute cov bs = true) -> (forall bs, co_get cov bs = true) ->
  (forall b i c j, co_cov cov b i c j = co_cov cov c j b i) -> pnp_correspondences p <> [] ->
  exists r, optimizePnP u solve cov p = Ok r.
Proof. exact pnp_succeeds2. Qed.
Print Assumptions C35_succeeds_2D.

Theorem C35_succeeds_3D :
  forall u solve cov p,
  (forall bs, co_compute cov bs = true) -> (forall bs, co_get cov bs = true) ->
  (forall b i c j, co_cov cov b i c j = co_cov cov c j b i) -> pnp3_correspondences p <> [] ->
  exists r, optimizePnP3D u solve cov p = Ok r.
Proof. exact pnp_succeeds3. Qed.
Print Assumptions C35_succeeds_3D.

Theorem C35_empty_aborts :
  forall u solve cov p, pnp_correspondences p = [] -> optimizePnP u solve cov p = UB.
Proof. exact pnp_empty2. Qed.
Print Assumptions C35_empty_aborts.

Theorem C35_empty_aborts_3D :
  forall u solve cov p, pnp3_correspondences p = [] -> optimizePnP3D u solve cov p = UB.
Proof. exact pnp_empty3. Qed.
Print Assumptions C35_empty_aborts_3D.

Example C35_two_points : forall u solve, exists r,
  optimizePnP u solve ex_cov_oracle
    (PnP2 (Intr 500 500 320 240) [Corr (V2 320 240) (V3 0 0 0); Corr (V2 420 240) (V3 (1/5) 0 0)]
       (Iso I3 (V3 0 0 1)) "camera_to_target") = Ok r.
Proof. exact ex_pnp_ok. Qed.
Example C35_two_points_3D : forall u solve, exists r,
  optimizePnP3D u solve ex_cov_oracle
    (PnP3 [Corr (V3 0 0 1) (V3 0 0 0); Corr (V3 (1/5) 0 1) (V3 (1/5) 0 0)] (Iso I3 (V3 0 0 1)) "camera_to_target") = Ok r.
Proof. exact ex_pnp3_ok. Qed.
