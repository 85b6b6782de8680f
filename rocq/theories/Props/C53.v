(** C53: kinematic calibration reports the parameters it optimizes. *)
From Coq Require Import Reals ZArith Sorted String List.
From Verif.Base Require Import Geom Outcome Matrix.
From Verif.Model Require Import Pose Covariance Solver HandEye DhChain LocalParam Kinematic.
From Verif.Spec Require Import FreezeSpec KinSpec KinReport.
From Verif.Proofs Require Import HandEyeProofs DhProofs LocalParamProofs KinematicProofs KinematicCall MoreExamples.
Import ListNotations.
Local Open Scope R_scope.

(** printOptimizationLabels: for every block its name and the labels of its elements that are not
    held constant, in order ([prints_free]). *)
Theorem C53_printed_labels :
  forall p names labels masks p',
  NoDup (keys (p_blocks p)) -> (forall b, In b (keys (p_blocks p)) -> bs_subset (p_state p b) = None) ->
  (forall b n, In (b, n) (p_blocks p) ->
     (exists nm, find_key b names = Some nm) /\
     (exists l, find_key b labels = Some l /\ length l = n) /\
     (exists m, find_key b masks = Some m /\ forall z, In z m -> (0 <= z < Z.of_nat n)%Z)) ->
  addSubsetParameterization p masks = Ok p' ->
  exists lines, printOptimizationLabels p' names labels masks = Ok lines /\
    Forall2 (prints_free p' names labels) (p_blocks p) lines.
Proof. exact prints_exactly_free. Qed.
Print Assumptions C53_printed_labels.

(** Full property: the covariance report of a calibration names exactly the elements that are not
    held constant. Proved if both chains have joints ([kin_optimize] is the common body of the two
    optimizations, see C48_common_body). *)
Theorem C53_reported_names_partial :
  forall u solve cov com blocks r, lists_blocks cov -> masks_fit com ->
  (forall b i c j, co_cov cov b i c j = co_cov cov c j b i) ->
  dof (kc_camera_chain com) <> 0%nat -> dof (kc_target_chain com) <> 0%nat ->
  kin_optimize u solve cov com blocks = Ok r ->
  exists free, NoDup free /\
    (forall k i, In (k, i) free <-> (k < 8)%nat /\ (i < block_size com k)%nat /\ ~ held com k i) /\
    reported_names r = map (fun '(k, i) => element_label com k i) free.
Proof. exact kin_reports_free. Qed.
Print Assumptions C53_reported_names_partial.

(** With a chain without joints the report lists four parameters that do not exist. *)
Theorem C53_reported_names_refuted :
  forall u solve w, exists r,
  kin_optimizePose6D u solve ex_cov_oracle (ex_kin fixed_chain [] []) w = Ok r /\
  (forall i, (i < 4)%nat -> held (ex_kin_common fixed_chain []) 0 i) /\
  firstn 4 (reported_names r) =
    ["camera_chain_placeholder_d"; "camera_chain_placeholder_theta";
     "camera_chain_placeholder_r"; "camera_chain_placeholder_alpha"]%string.
Proof. exact placeholder_reported. Qed.
Print Assumptions C53_reported_names_refuted.

Example C53_example : forall u solve w,
  exists r, kin_optimizePose6D u solve ex_cov_oracle (ex_kin ex_chain [3; 5]%Z [1; 1/2]) w = Ok r.
Proof. exact (fun u solve w => proj1 (ex_kin_ok u solve w)). Qed.
(** Three blocks: one with a mask, one that is constant and one that is free *)
Example C53_three_blocks : exists p', addSubsetParameterization three_blocks three_masks = Ok p' /\
  printOptimizationLabels p' three_names three_labels three_masks = Ok [("arm", ["d"]); ("slide", []); ("camera", ["x"; "y"])]%string.
Proof. exact three_printed. Qed.
Example C53_three_blocks_fit : NoDup (keys (p_blocks three_blocks)) /\ (forall b, In b (keys (p_blocks three_blocks)) -> bs_subset (p_state three_blocks b) = None) /\
  (forall b n, In (b, n) (p_blocks three_blocks) ->
     (exists nm, find_key b three_names = Some nm) /\ (exists l, find_key b three_labels = Some l /\ length l = n) /\
     (exists m, find_key b three_masks = Some m /\ forall z, In z m -> (0 <= z < Z.of_nat n)%Z)).
Proof. exact three_fits. Qed.
