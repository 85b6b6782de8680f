(** Proofs about circle fitting. *)
From Coq Require Import Reals Arith ZArith String List Lra Lia Permutation.
From Verif.Base Require Import Geom Outcome Matrix.
From Verif.Model Require Import Covariance Solver CircleFit.
From Verif.Spec Require Import CovarianceSpec CircleSpec.
From Verif.Proofs Require Import CovarianceProofs HandEyeProofs ListLemmas.
Import ListNotations.
Local Open Scope R_scope.

Lemma circle_forms x y p : circle_cost x y p = circle_cost3 x y (cp_x p) (cp_y p) (cp_rsqrt p).
Proof. reflexivity. Qed.

Lemma circle_zero x y p : circle_cost x y p = 0 <->
  on_circle (V2 (cp_x p) (cp_y p)) (cp_rsqrt p * cp_rsqrt p) (V2 x y).
Proof.
  unfold circle_cost, on_circle, dist2. cbn [px py].
  set (a := x - cp_x p). set (b := y - cp_y p). set (r := cp_rsqrt p * cp_rsqrt p).
  assert (Hr : 0 <= r) by (unfold r; apply Rle_0_sqr).
  split.
  - intros E. replace (a * a + b * b) with (r * r) by lra. apply sqrt_square, Hr.
  - intros <-. rewrite sqrt_sqrt; [ lra | ].
    pose proof (Rle_0_sqr a). pose proof (Rle_0_sqr b). unfold Rsqr in *. lra.
Qed.

Definition circle_blocks (obs : list vec2) : list (residual circle_params) :=
  map (fun o p => [circle_cost (px o) (py o) p]) obs.

Lemma circle_num obs p : num_residuals (circle_blocks obs) p = List.length obs.
Proof.
  unfold num_residuals, circle_blocks. induction obs as [|o r IH]; [ reflexivity | ].
  cbn [map flat_map List.app List.length]. f_equal. exact IH.
Qed.

Definition circle_start (p : circle_problem) : circle_params :=
  CirP (cf_x_center_initial p) (cf_y_center_initial p) (sqrt (cf_radius_initial p)).

Lemma circle_fields u solve cov p r : optimizeCircle u solve cov p = Ok r ->
  0 <= cf_radius_initial p /\
  exists x s, solve (circle_blocks (cf_observations p)) (circle_start p) = (x, s) /\
    cf_converged r = term_convergence s /\
    cf_x_center r = cp_x x /\ cf_y_center r = cp_y x /\ cf_radius r = cp_rsqrt x * cp_rsqrt x /\
    cf_initial_cost_per_obs r = initial_cost s / INR (List.length (cf_observations p)) /\
    cf_final_cost_per_obs r = final_cost s / INR (List.length (cf_observations p)) /\
    computeCovariance_names u
      (mk_cov_problem cov (match circle_blocks (cf_observations p) with [] => [] | _ => [(key_circle, 3%nat)] end))
      (insert_key key_circle circle_labels []) [] = Ok (cf_covariance r).
Proof.
  unfold optimizeCircle. destruct (Rlt_dec _ _) as [|Hr]; [ discriminate | ]. split; [ lra | ].
  revert H. rewrite (fold_left_push (fun o p => [circle_cost (px o) (py o) p]) _ []). cbn [List.app].
  fold (circle_blocks (cf_observations p)). fold (circle_start p).
  destruct (solve _ _) as [x s]. 
  destruct (computeCovariance_names _ _ _ _) as [c| |] eqn:Ec; cbn [bind]; try discriminate.
  intros [= <-]. exists x, s. cbn. rewrite circle_num. auto 10.
Qed.

Lemma circle_nonneg u solve cov p r : optimizeCircle u solve cov p = Ok r -> 0 <= cf_radius r.
Proof.
  intros E. destruct (circle_fields _ _ _ _ _ E) as (_ & x & s & _ & _ & _ & _ & -> & _). apply Rle_0_sqr.
Qed.

Lemma circle_unmoved u solve cov p r : optimizeCircle u solve cov p = Ok r -> stays solve ->
  cf_x_center r = cf_x_center_initial p /\ cf_y_center r = cf_y_center_initial p /\
  cf_radius r = cf_radius_initial p.
Proof.
  intros E St. destruct (circle_fields _ _ _ _ _ E) as (Hr & x & s & Es & _ & -> & -> & -> & _).
  pose proof (f_equal fst Es) as Ex. rewrite St in Ex. cbn [fst] in Ex. subst x. cbn.
  split; [ reflexivity | split; [ reflexivity | apply sqrt_sqrt, Hr ] ].
Qed.

Lemma circle_residuals u cov p : exists blocks : list (residual circle_params),
  List.length blocks = List.length (cf_observations p) /\
  (forall k o, nth_error (cf_observations p) k = Some o ->
     exists f, nth_error blocks k = Some f /\
     forall x, let radius := cp_rsqrt x * cp_rsqrt x in
       f x = [radius ^ 2 - ((px o - cp_x x) ^ 2 + (py o - cp_y x) ^ 2)]) /\
  forall solve r, optimizeCircle u solve cov p = Ok r ->
    exists x s, solve blocks (CirP (cf_x_center_initial p) (cf_y_center_initial p) (sqrt (cf_radius_initial p))) = (x, s) /\
      cf_converged r = term_convergence s /\
      cf_x_center r = cp_x x /\ cf_y_center r = cp_y x /\ cf_radius r = cp_rsqrt x * cp_rsqrt x /\
      cf_initial_cost_per_obs r = initial_cost s / INR (List.length (cf_observations p)) /\
      cf_final_cost_per_obs r = final_cost s / INR (List.length (cf_observations p)).
Proof.
  exists (circle_blocks (cf_observations p)). split; [ apply map_length | split ].
  - intros k o Ho. unfold circle_blocks. rewrite nth_error_map, Ho. eexists; split; [ reflexivity | ].
    intros x. unfold circle_cost. cbv zeta. apply (f_equal (fun e => [e])). ring.
  - intros solve r E. destruct (circle_fields _ _ _ _ _ E) as (_ & x & s & Es & H1 & H2 & H3 & H4 & Hi & Hf & _).
    exists x, s. auto 10.
Qed.

Lemma circle_succeeds u solve cov p : lists_blocks cov ->
  (forall bs, co_compute cov bs = true) -> (forall bs, co_get cov bs = true) ->
  (forall b i c j, co_cov cov b i c j = co_cov cov c j b i) ->
  0 <= cf_radius_initial p -> cf_observations p <> [] ->
  exists r, optimizeCircle u solve cov p = Ok r.
Proof.
  intros Hp Hc Hg Hs Hr Ho. unfold optimizeCircle. destruct (Rlt_dec _ _) as [|_]; [ lra | ].
  rewrite (fold_left_push (fun o p => [circle_cost (px o) (py o) p]) _ []). cbn [List.app].
  destruct (solve _ _) as [x s]. destruct (cf_observations p) as [|o os]; [ congruence | ]. cbn [map].
  unfold computeCovariance_names. set (pb := mk_cov_problem cov _).
  assert (Pm : Permutation [key_circle] (pb_blocks pb)) by apply Hp.
  apply Permutation_length_1_inv in Pm.
  destruct (covariance_ok u pb (pb_blocks pb) (insert_key key_circle circle_labels []) []) as (c & -> & _).
  - exact Hs.
  - rewrite Pm. split; [ reflexivity | split; [ | split; [ apply Hc | apply Hg ] ] ].
    intros b [<-|[]]. exists circle_labels. split; reflexivity.
  - cbn. eexists; reflexivity.
Qed.

Lemma circle_empty u solve cov p : lists_blocks cov -> 0 <= cf_radius_initial p -> cf_observations p = [] ->
  optimizeCircle u solve cov p = Throw CovarianceException.
Proof.
  intros Hp Hr Ho. unfold optimizeCircle. destruct (Rlt_dec _ _) as [|_]; [ lra | ]. rewrite Ho. cbn [fold_left].
  destruct (solve _ _) as [x s]. unfold computeCovariance_names. rewrite covariance_throw_count; [ reflexivity | ].
  cbn [pb_blocks mk_cov_problem]. rewrite <- (Permutation_length (Hp _)). cbn. discriminate.
Qed.

(** ** The covariance report *)
Lemma circle_covariance u solve cov p r : lists_blocks cov ->
  (forall b i c j, co_cov cov b i c j = co_cov cov c j b i) ->
  optimizeCircle u solve cov p = Ok r ->
  map (fun q => fst (np_names q)) (standard_deviations (cf_covariance r)) = ["x"; "y"; "r"]%string /\
  rows (covariance_matrix (cf_covariance r)) = 3%nat /\ cols (covariance_matrix (cf_covariance r)) = 3%nat /\
  forall i j, (i < 3)%nat -> (j < 3)%nat ->
    ent (covariance_matrix (cf_covariance r)) i j = co_cov cov key_circle i key_circle j.
Proof.
  intros Hp Hs E. destruct (circle_fields _ _ _ _ _ E) as (_ & x & s & _ & _ & _ & _ & _ & _ & _ & Ec).
  unfold computeCovariance_names in Ec.
  destruct (circle_blocks (cf_observations p)) as [|b bs].
  { rewrite covariance_throw_count in Ec; [ discriminate | ].
    cbn [pb_blocks mk_cov_problem]. rewrite <- (Permutation_length (Hp _)). cbn. discriminate. }
  set (pb := mk_cov_problem cov _) in *.
  assert (Pm : Permutation [key_circle] (pb_blocks pb)) by apply Hp.
  apply Permutation_length_1_inv in Pm. rewrite Pm in Ec.
  pose proof (covariance_ok_inv _ _ _ _ _ _ Ec) as Hi.
  destruct (covariance_ok u pb [key_circle] (insert_key key_circle circle_labels []) [] Hs Hi)
    as (c & E' & _ & H1 & H2 & H3).
  rewrite E' in Ec. injection Ec as <-.
  split; [ | split; [ exact H1 | split; [ exact H2 | ] ] ].
  - rewrite (covariance_sd_names u pb [key_circle] (insert_key key_circle circle_labels []) [] c Hs E').
    reflexivity.
  - intros i j Hi' Hj. rewrite H3 by assumption.
    do 3 (destruct i as [|i]; [ do 3 (destruct j as [|j]; [ reflexivity | ]); lia | ]). lia.
Qed.

Lemma jacobian_circle v : jacobian 3 circle_reported v
    (fun i k => if Nat.eqb i k then (match i with 2%nat => 2 * v 2%nat | _ => 1 end) else 0).
Proof.
    intros i k Hi Hk. unfold circle_reported, update.
    destruct i as [|[|[|i]]]; [ | | | lia ]; (destruct k as [|[|[|k]]]; [ | | | lia ]); cbn [Nat.eqb];
      try (apply derivable_pt_lim_const); try (apply derivable_pt_lim_id).
    replace (2 * v 2%nat) with (1 * v 2%nat + v 2%nat * 1) by ring.
    apply (derivable_pt_lim_mult id id); apply derivable_pt_lim_id.
Qed.
Lemma circle_jacobian v D : jacobian 3 circle_reported v D ->
  forall i k, (i < 3)%nat -> (k < 3)%nat ->
    D i k = if Nat.eqb i k then (match i with 2%nat => 2 * v 2%nat | _ => 1 end) else 0.
Proof.
  intros J.
  intros i k Hi Hk. eapply uniqueness_limite; [ apply (J i k Hi Hk) | apply (jacobian_circle v i k Hi Hk) ].
Qed.

Lemma circle_covariance_scaled u solve cov p r D s : lists_blocks cov ->
  (forall b i c j, co_cov cov b i c j = co_cov cov c j b i) ->
  optimizeCircle u solve cov p = Ok r ->
  jacobian 3 circle_reported (three (cf_x_center r) (cf_y_center r) s) D ->
  forall i j, (i < 3)%nat -> (j < 3)%nat ->
    let scale k := if Nat.eqb k 2 then 2 * s else 1 in
    propagated 3 D (fun k l => co_cov cov key_circle k key_circle l) i j =
    scale i * scale j * ent (covariance_matrix (cf_covariance r)) i j.
Proof.
  intros Hp Hs E J i j Hi Hj scale.
  destruct (circle_covariance _ _ _ _ _ Hp Hs E) as (_ & _ & _ & Hent). rewrite Hent by assumption.
  unfold propagated, rsum. rewrite !(circle_jacobian _ _ J) by (first [ assumption | lia ]). unfold scale.
  destruct i as [|[|[|i]]]; [ | | | lia ]; (destruct j as [|[|[|j]]]; [ | | | lia ]); cbn [Nat.eqb three]; ring.
Qed.

Definition ex_circle : circle_problem := CirProb [V2 4 0; V2 0 4; V2 (-4) 0] 0 0 4.
Definition ex_still : solver circle_params := fun _ x => (x, Summary true 0 0).
Lemma ex_circle_ok u solve : exists r, optimizeCircle u solve ex_cov_oracle ex_circle = Ok r.
Proof.
  apply circle_succeeds; try reflexivity; [ apply ex_oracle_lists | apply ex_oracle_sym | cbn; lra | discriminate ].
Qed.
Lemma circle_covariance_refuted u : exists solve cov p r D s,
  lists_blocks cov /\ (forall b i c j, co_cov cov b i c j = co_cov cov c j b i) /\
  optimizeCircle u solve cov p = Ok r /\ s * s = cf_radius r /\
  jacobian 3 circle_reported (three (cf_x_center r) (cf_y_center r) s) D /\
  ent (covariance_matrix (cf_covariance r)) 2 2 <>
  propagated 3 D (fun k l => co_cov cov key_circle k key_circle l) 2 2.
Proof.
  destruct (ex_circle_ok u ex_still) as (r & E).
  assert (St : stays ex_still) by (intros bl x; reflexivity).
  destruct (circle_unmoved _ _ _ _ _ E St) as (Hx & Hy & Hr). cbn in Hx, Hy, Hr.
  set (D := fun i k : nat => if Nat.eqb i k then (match i with 2%nat => 2 * 2 | _ => 1 end) else 0).
  assert (J : jacobian 3 circle_reported (three (cf_x_center r) (cf_y_center r) 2) D) by (apply (jacobian_circle (three _ _ 2))).
  exists ex_still, ex_cov_oracle, ex_circle, r, D, 2.
  split; [ apply ex_oracle_lists | split; [ apply ex_oracle_sym | split; [ exact E | split; [ lra | split; [ exact J | ] ] ] ] ].
  rewrite (circle_covariance_scaled _ _ _ _ _ D 2 ex_oracle_lists ex_oracle_sym E J 2 2) by lia.
  destruct (circle_covariance _ _ _ _ _ ex_oracle_lists ex_oracle_sym E) as (_ & _ & _ & Hent).
  rewrite (Hent 2%nat 2%nat) by lia. cbn. lra.
Qed.

