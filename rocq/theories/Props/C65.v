(** C65: the verdict of the intrinsic validation tool. [runs i] is what Ceres does in the two pose estimations of the
    i-th used image. *)
From Coq Require Import Reals Arith List.
From Verif.Base Require Import Geom Outcome.
From Verif.Model Require Import Pose HandEye IntrinsicValidation DataSet ExampleTools.
From Verif.Spec Require Import StatSpec ToolSpec.
From Verif.Proofs Require Import LoopProofs SceneProofs ScenesProofs.
Import ListNotations.
Local Open Scope R_scope.

(** A verdict is on all images that show the target: the calibration is called valid exactly if the mean plus two standard
    deviations of the differences between the two halves of the target is at most 1 mm and at most 0.05 degrees. *)
Theorem C65_verdict :
  forall image features (v : vision image features) runs k T C (ps : list (image * iso)) b,
  validationTool v runs k T C (Some (data_of ps)) = Ok b ->
  exists sel vs, chosen (sees_shown v) ps sel /\ sel <> [] /\ List.length vs = List.length sel /\
    (forall i s d, nth_error sel i = Some s -> nth_error vs i = Some d ->
       measureVirtualTargetDiff (fst (runs i)) (snd (runs i)) (snd s) k (target_from_tool (snd (fst s)) C T) 1 = Ok d) /\
    let ds := map vr_positional_error vs in let angles := map vr_angular_error vs in
    (b = true <-> average ds + 2 * std_dev ds <= 1 / 1000 /\ average angles + 2 * std_dev angles <= 5 / 100 * PI / 180).
Proof. exact (fun image features => @validation_verdict image features). Qed.
Print Assumptions C65_verdict.

Theorem C65_sizes_differ_throws :
  forall image features (v : vision image features) runs k T C (ps : list (image * iso)) sel,
  (forall p, In p ps -> quiet v (fst p)) -> chosen (sees_shown v) ps sel ->
  (exists s s', In s sel /\ In s' sel /\ List.length (snd s) <> List.length (snd s')) ->
  validationTool v runs k T C (Some (data_of ps)) = Throw OptimizationException.
Proof. exact (fun image features => @validation_sizes image features). Qed.
Print Assumptions C65_sizes_differ_throws.

(** An image whose features cannot be paired with target points ends the tool. *)
Theorem C65_unpaired_features_end_the_loop :
  forall image features (v : vision image features) l1 (p : image * iso) l2 f e,
  (forall q, In q l1 -> quiet v (fst q)) ->
  find v (fst p) = Ok f -> none v f = false -> show_features v (fst p) f = Ok tt -> create v f = Throw e ->
  validationObservations v (data_of (l1 ++ p :: l2)) = Throw e.
Proof. exact (fun image features => @validation_stops image features). Qed.
Print Assumptions C65_unpaired_features_end_the_loop.

(** If no image shows the target the tool does not report that, it reads outside its list of observations. *)
Theorem C65_no_target_is_reported_refuted :
  forall image features (v : vision image features) runs k T C (ps : list (image * iso)),
  (forall p, In p ps -> quiet v (fst p)) -> (forall p cs, In p ps -> ~ sees_shown v p cs) ->
  validationTool v runs k T C (Some (data_of ps)) = UB.
Proof. exact (fun image features => @validation_no_target image features). Qed.
Print Assumptions C65_no_target_is_reported_refuted.

(** The scene of C61 gets a verdict, and is valid. *)
Example C65_scene : validationTool sc_vision (fun _ => (IntrinsicValidationProofs.ex_run, IntrinsicValidationProofs.ex_run)) sc_intr sc_target iso_id
  (Some (data_of sc_data)) = Ok true.
Proof. exact sc_validated. Qed.
Example C65_empty_scene : (forall p, In p [(None, iso_id)] -> quiet sc_vision (fst p)) /\
  (forall p cs, In p [(None, iso_id)] -> ~ sees_shown sc_vision p cs).
Proof. exact sc_dark. Qed.
