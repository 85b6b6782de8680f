(** C66: the noise qualification tool. [read] opens an image file. *)
From Coq Require Import Reals Arith String List.
From Verif.Base Require Import Geom Outcome.
From Verif.Model Require Import Pose HandEye Pnp IntrinsicValidation DataSet ExampleTools.
From Verif.Spec Require Import ToolSpec.
From Verif.Proofs Require Import LoopProofs SceneProofs ScenesProofs.
Import ListNotations.
Local Open Scope R_scope.

(** The property: there is one pose estimation for each listed image that shows the target, with the correspondences of
    that image. It fails: the image variable is static, so that only the first listed file is ever read. *)
Theorem C66_own_image_refuted :
  exists (v : vision (option iso) (list (correspondence vec2))) read names problems,
  noiseProblems v read sc_intr sc_target names = Ok problems /\
  forall sel, chosen (fun name cs => sees_shown v (read name, iso_id) cs) names sel ->
    problems <> map (fun s => PnP2 sc_intr (snd s) sc_target "camera_to_target") sel.
Proof. exact noise_refuted. Qed.
Print Assumptions C66_own_image_refuted.

(** What the tool does: either every listed file gives the pose estimation of the first one, or none at all. *)
Theorem C66_first_image_only :
  forall image features (v : vision image features) read k g first names problems,
  noiseProblems v read k g (first :: names) = Ok problems ->
  (exists cs, sees_shown v (read first, iso_id) cs /\
    problems = map (fun _ => PnP2 k cs g "camera_to_target") (first :: names)) \/
  ((forall cs, ~ sees_shown v (read first, iso_id) cs) /\ problems = []).
Proof. exact (fun image features => @noise_first image features). Qed.
Print Assumptions C66_first_image_only.

(** With a single file the property holds. *)
Theorem C66_own_image_partial :
  forall image features (v : vision image features) read k g name problems,
  noiseProblems v read k g [name] = Ok problems ->
  exists sel, chosen (fun name cs => sees_shown v (read name, iso_id) cs) [name] sel /\
    problems = map (fun s => PnP2 k (snd s) g "camera_to_target") sel.
Proof. exact (fun image features => @noise_single image features). Qed.
Print Assumptions C66_own_image_partial.

Example C66_two_files : exists problems, noiseProblems sc_vision (fun _ => Some iso_id) sc_intr sc_target ["a"; "b"]%string = Ok problems /\
  List.length problems = 2%nat.
Proof. exact sc_noise. Qed.
