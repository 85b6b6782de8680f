(** C54: the covariance report of the circle fit. circle_fit.h documents its elements as
    [x, y, radius]. [co_cov] is the covariance of the optimized variables, which are
    x, y and the square root of the radius. *)
From Coq Require Import Reals Arith String List.
From Verif.Base Require Import Geom Outcome Matrix.
From Verif.Model Require Import Covariance Solver CircleFit.
From Verif.Spec Require Import CovarianceSpec CircleSpec.
From Verif.Proofs Require Import HandEyeProofs CircleFitProofs.
Import ListNotations.
Local Open Scope R_scope.

(** Full statement: [ent (covariance_matrix ..) i j = propagated 3 D .. i j] for all i, j, with
    D the derivative of the reported circle (x, y, radius) by the optimized variables.
    It fails for the radius. *)
Theorem C54_radius_covariance_refuted :
  forall u, exists solve cov p r D s,
  lists_blocks cov /\ (forall b i c j, co_cov cov b i c j = co_cov cov c j b i) /\
  optimizeCircle u solve cov p = Ok r /\ s * s = cf_radius r /\
  jacobian 3 circle_reported (three (cf_x_center r) (cf_y_center r) s) D /\
  ent (covariance_matrix (cf_covariance r)) 2 2 <>
  propagated 3 D (fun k l => co_cov cov key_circle k key_circle l) 2 2.
Proof. exact circle_covariance_refuted. Qed.
Print Assumptions C54_radius_covariance_refuted.

(** What holds: the entries of x and y are right, and every entry that involves the radius has
    to be multiplied by [2 * s] for each occurrence, where s is the square root of the radius. *)
Theorem C54_covariance_up_to_scale_partial :
  forall u solve cov p r D s, lists_blocks cov ->
  (forall b i c j, co_cov cov b i c j = co_cov cov c j b i) ->
  optimizeCircle u solve cov p = Ok r ->
  jacobian 3 circle_reported (three (cf_x_center r) (cf_y_center r) s) D ->
  forall i j, (i < 3)%nat -> (j < 3)%nat ->
    let scale k := if Nat.eqb k 2 then 2 * s else 1 in
    propagated 3 D (fun k l => co_cov cov key_circle k key_circle l) i j =
    scale i * scale j * ent (covariance_matrix (cf_covariance r)) i j.
Proof. exact circle_covariance_scaled. Qed.
Print Assumptions C54_covariance_up_to_scale_partial.

(** The report has three entries, named x, y and r in this order. *)
Theorem C54_names :
  forall u solve cov p r, lists_blocks cov ->
  (forall b i c j, co_cov cov b i c j = co_cov cov c j b i) ->
  optimizeCircle u solve cov p = Ok r ->
  map (fun q => fst (np_names q)) (standard_deviations (cf_covariance r)) = ["x"; "y"; "r"]%string /\
  rows (covariance_matrix (cf_covariance r)) = 3%nat /\ cols (covariance_matrix (cf_covariance r)) = 3%nat /\
  forall i j, (i < 3)%nat -> (j < 3)%nat ->
    ent (covariance_matrix (cf_covariance r)) i j = co_cov cov key_circle i key_circle j.
Proof. exact circle_covariance. Qed.
Print Assumptions C54_names.

Example C54_applies : forall u solve, exists r,
  optimizeCircle u solve ex_cov_oracle (CirProb [V2 4 0; V2 0 4; V2 (-4) 0] 0 0 4) = Ok r.
Proof. exact ex_circle_ok. Qed.
