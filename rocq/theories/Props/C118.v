(** C118: the noise tool and the noise between images. [read] opens an image file, [run] is one Ceres for all pose estimations;
    [right_for]: a right decomposition for the mean orientation (Spec/CheckSpec.v). *)
From Coq Require Import Reals String List.
From Verif.Base Require Import Geom Outcome.
From Verif.Model Require Import Pose Solver HandEye Pnp IntrinsicValidation NoiseQualification DataSet ExampleTools CheckText.
From Verif.Spec Require Import PinHole HomographySpec StatSpec ValidationSpec ToolSpec UniqueSpec CheckSpec MessageSpec.
From Verif.Proofs Require Import NearCheckExamples IntrinsicValidationProofs.
From Verif.Proofs Require UniqueExamples SceneProofs CheckTextProofs CheckTextExamples.
Import ListNotations.
Local Open Scope R_scope.

(** The property: what the tool reports as noise is the spread of the poses in the listed images. It fails: two files may be perfect
    pictures that determine poses half a metre apart, and whatever the solver, the deviations are zero. *)
Theorem C118_spread_is_seen_refuted :
  exists (v : vision (list (correspondence vec2)) (list (correspondence vec2))) read k T1 T2 cs1 cs2,
  fx k <> 0 /\ fy k <> 0 /\ rigid T1 /\ rigid T2 /\ norm (vsub (tr T1) (tr T2)) = 1 / 2 /\
  sees_shown v (read "a"%string, iso_id) cs1 /\ four_flat_points (map in_target cs1) /\ perfect_image k T1 cs1 /\
  sees_shown v (read "b"%string, iso_id) cs2 /\ four_flat_points (map in_target cs2) /\ perfect_image k T2 cs2 /\
  (exists svd run s, noiseTool v svd (fun _ => run) read k T1 ["a"; "b"]%string = Ok s) /\
  forall g svd run s, noiseTool v svd (fun _ => run) read k g ["a"; "b"]%string = Ok s ->
    (forall ps, noiseProblems v read k g ["a"; "b"]%string = Ok ps ->
       right_for svd (fun _ p => optimizePnP (run_u run) (run_solve run) (run_cov run) p) ps) ->
    ps_stdev (ns_p_stat s) = vzero /\ qs_stdev (ns_q_stat s) = 0.
Proof. exact CheckTextExamples.noise_spread_refuted. Qed.
Print Assumptions C118_spread_is_seen_refuted.

(** What the tool does report: the pose estimated from the first file, with deviations zero. The second file counts only in that there
    must be one. *)
Theorem C118_spread_is_seen_partial :
  forall image features (v : vision image features) svd run read k g names s,
  noiseTool v svd (fun _ => run) read k g names = Ok s ->
  (forall ps, noiseProblems v read k g names = Ok ps -> right_for svd (fun _ p => optimizePnP (run_u run) (run_solve run) (run_cov run) p) ps) ->
  exists first rest cs r, names = first :: rest /\ rest <> [] /\ sees_shown v (read first, iso_id) cs /\
    optimizePnP (run_u run) (run_solve run) (run_cov run) (PnP2 k cs g "camera_to_target") = Ok r /\ pnp_converged r = true /\
    ps_mean (ns_p_stat s) = tr (pnp_camera_to_target r) /\ same_rotation (quat_of_mat (lin (pnp_camera_to_target r))) (qs_mean (ns_q_stat s)) /\
    ps_stdev (ns_p_stat s) = vzero /\ qs_stdev (ns_q_stat s) = 0.
Proof. exact @CheckTextProofs.noise_tool_result. Qed.
Print Assumptions C118_spread_is_seen_partial.

(** The two files of the first theorem, with a solver that stays at the guess. *)
Example C118_example :
  exists s, noiseTool ex_eyes (fun _ => quat_of_mat (lin CheckTextExamples.ex_first)) (fun _ => ex_still) CheckTextExamples.ex_files UniqueExamples.ex_k CheckTextExamples.ex_first ["a"; "b"]%string = Ok s /\
  forall ps, noiseProblems ex_eyes CheckTextExamples.ex_files UniqueExamples.ex_k CheckTextExamples.ex_first ["a"; "b"]%string = Ok ps ->
    right_for (fun _ => quat_of_mat (lin CheckTextExamples.ex_first)) (fun _ p => optimizePnP (run_u ex_still) (run_solve ex_still) (run_cov ex_still) p) ps.
Proof. exact CheckTextExamples.ex_noise_runs. Qed.
