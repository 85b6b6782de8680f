(** C22: the circle residual and the reported circle. *)
From Coq Require Import Reals Arith List.
From Verif.Base Require Import Geom Outcome.
From Verif.Model Require Import Solver CircleFit.
From Verif.Spec Require Import CircleSpec.
From Verif.Proofs Require Import HandEyeProofs CircleFitProofs.
Import ListNotations.
Local Open Scope R_scope.

(** [cp_rsqrt] is the square root of the radius. *)
Theorem C22_zero_exactly_on_the_circle :
  forall x y p, circle_cost x y p = 0 <->
    on_circle (V2 (cp_x p) (cp_y p)) (cp_rsqrt p * cp_rsqrt p) (V2 x y).
Proof. exact circle_zero. Qed.
Print Assumptions C22_zero_exactly_on_the_circle.

Theorem C22_both_forms_agree :
  forall x y p, circle_cost x y p = circle_cost3 x y (cp_x p) (cp_y p) (cp_rsqrt p).
Proof. exact circle_forms. Qed.
Print Assumptions C22_both_forms_agree.

(** The solver gets one such residual per observation: the square of the radius less the square of the distance from the
    centre. The reported circle is the one the solver returns, and the reported costs are its costs per observation. *)
Theorem C22_fit_minimises_these_residuals :
  forall u cov p, exists blocks : list (residual circle_params),
  List.length blocks = List.length (cf_observations p) /\
  (forall k o, nth_error (cf_observations p) k = Some o ->
     exists f, nth_error blocks k = Some f /\
     forall x, let radius := cp_rsqrt x * cp_rsqrt x in
       f x = [radius ^ 2 - ((px o - cp_x x) ^ 2 + (py o - cp_y x) ^ 2)]) /\
  forall solve r, optimizeCircle u solve cov p = Ok r ->
    exists x s,
      solve blocks (CirP (cf_x_center_initial p) (cf_y_center_initial p) (sqrt (cf_radius_initial p))) = (x, s) /\
      cf_converged r = term_convergence s /\
      cf_x_center r = cp_x x /\ cf_y_center r = cp_y x /\ cf_radius r = cp_rsqrt x * cp_rsqrt x /\
      cf_initial_cost_per_obs r = initial_cost s / INR (List.length (cf_observations p)) /\
      cf_final_cost_per_obs r = final_cost s / INR (List.length (cf_observations p)).
Proof. exact circle_residuals. Qed.
Print Assumptions C22_fit_minimises_these_residuals.

Theorem C22_radius_never_negative :
  forall u solve cov p r, optimizeCircle u solve cov p = Ok r -> 0 <= cf_radius r.
Proof. exact circle_nonneg. Qed.
Print Assumptions C22_radius_never_negative.

Theorem C22_unmoved_circle :
  forall u solve cov p r, optimizeCircle u solve cov p = Ok r -> stays solve ->
  cf_x_center r = cf_x_center_initial p /\ cf_y_center r = cf_y_center_initial p /\
  cf_radius r = cf_radius_initial p.
Proof. exact circle_unmoved. Qed.
Print Assumptions C22_unmoved_circle.

(** A fit with an observation and a non-negative initial radius succeeds whenever Ceres can
    compute the covariance. *)
Theorem C22_fit_succeeds :
  forall u solve cov p, lists_blocks cov ->
  (forall bs, co_compute cov bs = true) -> (forall bs, co_get cov bs = true) ->
  (forall b i c j, co_cov cov b i c j = co_cov cov c j b i) ->
  0 <= cf_radius_initial p -> cf_observations p <> [] ->
  exists r, optimizeCircle u solve cov p = Ok r.
Proof. exact circle_succeeds. Qed.
Print Assumptions C22_fit_succeeds.

(** Without observations the fit ends in an exception. *)
Theorem C22_no_observations :
  forall u solve cov p, lists_blocks cov -> 0 <= cf_radius_initial p -> cf_observations p = [] ->
  optimizeCircle u solve cov p = Throw CovarianceException.
Proof. exact circle_empty. Qed.
Print Assumptions C22_no_observations.

Example C22_three_points : forall u solve, exists r,
  optimizeCircle u solve ex_cov_oracle (CirProb [V2 4 0; V2 0 4; V2 (-4) 0] 0 0 4) = Ok r.
Proof. exact ex_circle_ok. Qed.
