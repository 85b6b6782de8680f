(** Circle fitting: rct_optimizations/include/rct_optimizations/circle_fit.h and
    rct_optimizations/src/rct_optimizations/circle_fit.cpp *)
From Coq Require Import Reals Arith ZArith String List.
From Verif.Base Require Import Geom Outcome Matrix.
From Verif.Model Require Import Covariance Solver.
Import ListNotations.
Local Open Scope R_scope.

(** The parameter block: circle_params[0..2] of circle_fit.cpp:13-16 *)
Record circle_params := CirP { cp_x : R; cp_y : R; cp_rsqrt : R }.

(** circle_fit.h:44-55, CircleDistCost::operator(), three size-1 blocks; [x_], [y_] are the
    members set at line 16 *)
Definition circle_cost3 (x_ y_ x_sample y_sample r_sqrt_sample : R) : R :=
  let r := r_sqrt_sample * r_sqrt_sample in
  let x_pos := x_ - x_sample in
  let y_pos := y_ - y_sample in
  r * r - x_pos * x_pos - y_pos * y_pos.

(** circle_fit.h:23-33, CircleDistCost::operator(), one size-3 block *)
Definition circle_cost (x_ y_ : R) (sample : circle_params) : R :=
  let r := cp_rsqrt sample * cp_rsqrt sample in
  let x_pos := x_ - cp_x sample in
  let y_pos := y_ - cp_y sample in
  r * r - x_pos * x_pos - y_pos * y_pos.

(** circle_fit.h:64-87, CircleFitProblem. The labels (line 86) are a constant member. *)
Record circle_problem := CirProb {
  cf_observations : list vec2;
  cf_x_center_initial : R;
  cf_y_center_initial : R;
  cf_radius_initial : R }.
Definition circle_labels : list string := ["x"; "y"; "r"]%string.

(** circle_fit.h:92-129, CircleFitResult *)
Record circle_result := CirRes {
  cf_converged : bool;
  cf_initial_cost_per_obs : R;
  cf_final_cost_per_obs : R;
  cf_covariance : cov_result;
  cf_x_center : R;
  cf_y_center : R;
  cf_radius : R }.

(** Key of the parameter block (its address in C++). *)
Definition key_circle : nat := 0.

(** circle_fit.cpp:5-52, optimize. sqrt of a negative initial radius (line 11) is NaN in C++,
    which R does not have: such a call is mapped to UB, about which nothing is claimed.
    The console output of line 38 is not modelled. *)
Definition optimizeCircle (u : nat -> nat -> R) (solve : solver circle_params) (cov : cov_oracle)
  (params : circle_problem) : res circle_result :=
  if Rlt_dec (cf_radius_initial params) 0 then UB
  else
    let x0 := CirP (cf_x_center_initial params) (cf_y_center_initial params)
                   (sqrt (cf_radius_initial params)) in
    let blocks : list (residual circle_params) :=
      fold_left (fun problem obs =>
                   (problem ++ [fun p => [circle_cost (px obs) (py obs) p]])%list)
                (cf_observations params) [] in
    let '(p, summary) := solve blocks x0 in
    let n := INR (num_residuals blocks x0) in
    let added := match blocks with [] => [] | _ => [(key_circle, 3%nat)] end in
    do c <- computeCovariance_names u (mk_cov_problem cov added)
              (insert_key key_circle circle_labels []) [];
    Ok (CirRes (term_convergence summary) (initial_cost summary / n) (final_cost summary / n) c
               (cp_x p) (cp_y p) (cp_rsqrt p * cp_rsqrt p)).
