(** C119: the messages of the checks. [says_mean], [says_exceeded], [says_list], [says_number]: what the lines of a message are;
    [ordinary_errors], [ordinary_stats]: numbers that doubles hold easily (Spec/MessageSpec.v). *)
From Coq Require Import Reals String List.
From Verif.Base Require Import Geom Outcome.
From Verif.Model Require Import Pose Solver HandEye Pnp IntrinsicValidation NoiseQualification DataSet ExampleTools CheckText.
From Verif.Spec Require Import PinHole HomographySpec StatSpec ValidationSpec ToolSpec UniqueSpec CheckSpec MessageSpec.
From Verif.Proofs Require Import NearCheckExamples IntrinsicValidationProofs.
From Verif.Proofs Require UniqueExamples SceneProofs CheckTextProofs CheckTextExamples.
Import ListNotations.
Local Open Scope R_scope.

(** The validation tool prints the means and standard deviations over the images that show the target, and a warning exactly if the
    calibration is out of tolerance. *)
Theorem C119_validation :
  forall image features (v : vision image features) runs k T C (ps : list (image * iso)) ms,
  validationMessages v runs k T C (Some (data_of ps)) = Ok ms ->
  exists sel vs, chosen (sees_shown v) ps sel /\ sel <> [] /\ List.length vs = List.length sel /\
    (forall i s d, nth_error sel i = Some s -> nth_error vs i = Some d ->
       measureVirtualTargetDiff (fst (runs i)) (snd (runs i)) (snd s) k (target_from_tool (snd (fst s)) C T) 1 = Ok d) /\
    let ds := map vr_positional_error vs in let angles := map vr_angular_error vs in
    let pos := average ds + 2 * std_dev ds in let ang := average angles + 2 * std_dev angles in
    (ordinary_errors ds -> ordinary_errors angles ->
     exists a b c, ms = [Info a; Info b; c] /\
      says_mean "Positional Error:" "m" a (average ds) (std_dev ds) /\ says_mean "Angular Error:" "rad" b (average angles) (std_dev angles) /\
      ((pos <= 1 / 1000 /\ ang <= 5 / 100 * PI / 180 /\ c = Info "Camera intrinsic calibration is valid!") \/
       (~ (pos <= 1 / 1000 /\ ang <= 5 / 100 * PI / 180) /\ exists t, c = Warn t /\ says_exceeded t pos (1 / 1000) ang (5 / 100 * PI / 180)))).
Proof. exact @CheckTextProofs.validation_says. Qed.
Print Assumptions C119_validation.

(** The last message is the verdict of C65, and there are messages exactly if there is a verdict. *)
Theorem C119_validation_verdict :
  forall image features (v : vision image features) runs k T C data,
  match validationMessages v runs k T C data with
  | Ok ms => exists a b, ms = [a; b; Info "Camera intrinsic calibration is valid!"%string] /\ validationTool v runs k T C data = Ok true \/
                         exists t, ms = [a; b; Warn t] /\ validationTool v runs k T C data = Ok false
  | Throw e => validationTool v runs k T C data = Throw e
  | UB => validationTool v runs k T C data = UB
  end.
Proof. exact @CheckTextProofs.messages_verdict. Qed.
Print Assumptions C119_validation_verdict.

(** Two halves fitted one metre apart. *)
Example C119_warning_example :
  exists a b t, validationMessages SceneProofs.sc_vision (fun _ => CheckTextExamples.ex_apart) SceneProofs.sc_intr SceneProofs.sc_target iso_id
    (Some (data_of SceneProofs.sc_data)) = Ok [Info a; Info b; Warn t] /\
  says_mean "Positional Error:" "m" a 1 0 /\ says_mean "Angular Error:" "rad" b 0 0 /\ says_exceeded t 1 (1 / 1000) 0 (5 / 100 * PI / 180).
Proof. exact CheckTextExamples.warned. Qed.

(** The scene of C65. *)
Example C119_valid_example :
  exists a b, validationMessages SceneProofs.sc_vision (fun _ => (ex_run, ex_run)) SceneProofs.sc_intr SceneProofs.sc_target iso_id
    (Some (data_of SceneProofs.sc_data)) = Ok [a; b; Info "Camera intrinsic calibration is valid!"%string].
Proof. exact CheckTextExamples.praised. Qed.

(** The noise tool prints its statistics, the lists with four digits. *)
Theorem C119_noise :
  forall s,
  ordinary_stats s -> exists a b c d, noiseMessages s = [Info "Camera to Target Noise Results"; Info a; Info b; Info c; Info d] /\
  says_list "Position mean (m)" a (three (ps_mean (ns_p_stat s))) /\ says_list "Position standard deviation (m)" b (three (ps_stdev (ns_p_stat s))) /\
  says_list "Quaternion mean (qx, qy, qz, qw)" c (four (qs_mean (ns_q_stat s))) /\ says_number "Quaternion standard deviation" d (qs_stdev (ns_q_stat s)).
Proof. exact CheckTextProofs.noise_messages. Qed.
Print Assumptions C119_noise.

(** The statistics of C118. *)
Example C119_noise_example :
  forall s,
  noiseTool ex_eyes (fun _ => quat_of_mat (lin CheckTextExamples.ex_first)) (fun _ => ex_still) CheckTextExamples.ex_files UniqueExamples.ex_k CheckTextExamples.ex_first ["a"; "b"]%string = Ok s -> ordinary_stats s.
Proof. exact CheckTextExamples.ex_noise_ordinary. Qed.
