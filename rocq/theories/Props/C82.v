(** C82: what is printed of camera parameters, and what the kinematic calibration example prints. [stream], [stream4] and
    [to_string] are how numbers are written. The lines are those of the text ([lines_of], Spec/TextSpec.v); tables, fields and
    [whole_lines] are in Spec/ParamTextSpec.v. *)
From Coq Require Import Reals Ascii String List Sorted Permutation.
From Verif.Base Require Import Geom Outcome Matrix.
From Verif.Model Require Import Pose Covariance CovReport Serialization Kinematic KinematicExample ParamText.
From Verif.Spec Require Import CovarianceSpec TextSpec YamlSpec KinExampleSpec ParamTextSpec.
From Verif.Proofs Require Import CovarianceProofs TextProofs ParamTextProofs.
Import ListNotations.
Local Open Scope string_scope.

(** Every camera parameter is printed once, under its own name. *)
Theorem C82_camera_parameters :
  forall stream, (forall x, one_line (stream x)) -> (forall x, lacks tab_char (stream x)) ->
  forall k k1 k2 p1 p2 k3 title, one_line title ->
  exists l1 l2 l3,
    lines_of (printCameraIntrinsics stream k title) = [title ++ ":"; "Intr:"; l1; l2; ""] /\
    lines_of (printCameraDistortion stream k1 k2 p1 p2 k3 title) = [title ++ ":"; "Distortions:"; l3; ""] /\
    app (app (split tab_char l1) (split tab_char l2)) (split tab_char l3) =
    [field stream "fx" (fx k); field stream "fy" (fy k); field stream "cx" (cx k); field stream "cy" (cy k);
     field stream "k1" k1; field stream "k2" k2; field stream "p1" p1; field stream "p2" p2; field stream "k3" k3].
Proof. exact camera_fields. Qed.
Print Assumptions C82_camera_parameters.

(** A matrix is printed as a table of its coefficients. *)
Theorem C82_matrix :
  forall stream4, (forall x, one_line (stream4 x)) -> (forall x, lacks bar (stream4 x)) ->
  forall m, exists ls, shown stream4 m ls /\ whole_lines (format stream4 m ++ newline) ls.
Proof. exact table_text. Qed.
Print Assumptions C82_matrix.

(** The text of a result: convergence, the square roots of the costs, both poses, the offsets of the target chain, and the
    correlation coefficients above one half in magnitude, the largest first. *)
Theorem C82_results :
  forall stream stream4 to_string std_sort,
  (forall x, one_line (stream x)) -> (forall x, one_line (stream4 x)) -> (forall x, lacks bar (stream4 x)) ->
  (forall x, one_line (to_string x)) ->
  forall r, sort_contract std_sort -> Forall plain_names (correlation_coeffs (kr_covariance r)) ->
  (0 <= kr_initial_cost_per_obs r)%R -> (0 <= kr_final_cost_per_obs r)%R ->
  is_rot (lin (kr_camera_mount_to_camera r)) -> is_rot (lin (kr_target_mount_to_target r)) ->
  exists c0 c1 camera target offsets sel,
    (0 <= c0)%R /\ (c0 * c0 = kr_initial_cost_per_obs r)%R /\ (0 <= c1)%R /\ (c1 * c1 = kr_final_cost_per_obs r)%R /\
    shows_pose stream4 (kr_camera_mount_to_camera r) camera /\ shows_pose stream4 (kr_target_mount_to_target r) target /\
    shown stream4 (kr_target_chain_dh_offsets r) offsets /\
    (forall c, In c sel <-> In c (correlation_coeffs (kr_covariance r)) /\ (1 / 2 < Rabs (np_value c))%R) /\
    Permutation sel (filter (fun c => if Rlt_dec (1 / 2) (Rabs (np_value c)) then true else false) (correlation_coeffs (kr_covariance r))) /\
    StronglySorted (fun a b => (Rabs (np_value b) <= Rabs (np_value a))%R) sel /\
    whole_lines (printResults stream stream4 to_string std_sort r)
      (app [""; "Calibration " ++ (if kr_converged r then "did" else "did not") ++ " converge";
            "Initial cost per observation: " ++ stream c0; "Final cost per observation: " ++ stream c1;
            ""; "Camera mount to camera"]
      (app camera (app [""; "Target mount to target"] (app target (app [""; "DH parameter offsets"] (app offsets
      (app (warning_lines stream to_string (1 / 2) sel) [""]))))))).
Proof. exact results_text. Qed.
Print Assumptions C82_results.

(** The text of the whole example: both results, the statistics of each under its own heading, and the improvement in percent
    of the first over the second. *)
Theorem C82_example :
  forall stream stream4 to_string stream_opt std_sort,
  (forall x, one_line (stream x)) -> (forall x, one_line (stream_opt x)) ->
  forall load server f s1 s2 run1 run2 rep progress1 progress2 l1 l2 r1 r2,
  kinematicExample load server (Some f) s1 s2 run1 run2 = Ok (Some rep) ->
  whole_lines progress1 l1 -> whole_lines progress2 l2 ->
  whole_lines (printResults stream stream4 to_string std_sort (rp_optimal rep)) r1 ->
  whole_lines (printResults stream stream4 to_string std_sort (rp_static rep)) r2 ->
  let opt := rp_optimal_stats rep in let sta := rp_static_stats rep in
  exists a b c d,
    improvement (pos_mean sta) (pos_mean opt) a /\ improvement (pos_stdev sta) (pos_stdev opt) b /\
    improvement (rot_mean sta) (rot_mean opt) c /\ improvement (rot_stdev sta) (rot_stdev opt) d /\
    whole_lines (example_print stream stream4 to_string stream_opt std_sort progress1 progress2 rep)
      (app ["Starting kinematic calibration optimization..."] (app l1 (app r1
      (app ["DH calibration validation:"] (app (stats_lines stream opt) (app l2 (app r2
      (app ["Calibration validation - static DH parameters:"] (app (stats_lines stream sta)
       ["Percent improvement: calibration vs. nominal kinematic model";
        "Position: " ++ stream_opt a ++ "%"; "Position Std. Dev.: " ++ stream_opt b ++ "%";
        "Orientation: " ++ stream_opt c ++ "%"; "Orientation Std. Dev.: " ++ stream_opt d ++ "%"; ""]))))))))).
Proof. exact run_text. Qed.
Print Assumptions C82_example.

(** A way to write numbers that fits, what a matrix looks like with it, and a result that fits. A run of the example that ends is
    in C75. *)
Example C82_writes_numbers :
  (forall x, one_line (ex_stream x)) /\ (forall x, lacks tab_char (ex_stream x)) /\ (forall x, lacks bar (ex_stream x)).
Proof. exact ex_stream_fits. Qed.
Example C82_two_by_two : format ex_stream ex_matrix = "|   1|0.25|" ++ newline ++ "|0.25|   1|".
Proof. exact ex_format. Qed.
Example C82_result :
  sort_contract (@insertion_sort named_param) /\ Forall plain_names (correlation_coeffs (kr_covariance ex_results)) /\
  (0 <= kr_initial_cost_per_obs ex_results)%R /\ (0 <= kr_final_cost_per_obs ex_results)%R /\
  is_rot (lin (kr_camera_mount_to_camera ex_results)) /\ is_rot (lin (kr_target_mount_to_target ex_results)).
Proof. exact ex_results_fit. Qed.
