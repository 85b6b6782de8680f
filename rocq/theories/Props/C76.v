(** C76: the text of covariance results. [lines_of] (Spec/TextSpec.v) cuts a text into lines. How numbers are written is left open,
    but they are written on one line. *)
From Coq Require Import Reals Lra Ascii String List Sorted Permutation.
From Verif.Base Require Import Outcome Matrix.
From Verif.Model Require Import Covariance CovReport.
From Verif.Spec Require Import CovarianceSpec TextSpec.
From Verif.Proofs Require Import CovarianceProofs TextProofs.
Import ListNotations.
Local Open Scope string_scope.

(** The text has one line for every standard deviation, covariance and correlation coefficient, in order and under its heading. *)
Theorem C76_text_lists_everything :
  forall stream, (forall x, one_line (stream x)) ->
  forall r, Forall plain_names (standard_deviations r) -> Forall plain_names (covariances r) ->
    Forall plain_names (correlation_coeffs r) ->
  lines_of (cov_toString stream r) =
  (["Std. Devs."] ++ map (line_of stream) (standard_deviations r) ++
   [""; "Covariance"] ++ map (line_of stream) (covariances r) ++
   [""; "Correlation Coeffs."] ++ map (line_of stream) (correlation_coeffs r) ++ [""])%list.
Proof. exact cov_lines. Qed.
Print Assumptions C76_text_lists_everything.

(** The warning lists exactly the coefficients with a magnitude above the threshold, the largest first, or says that there are
    none. *)
Theorem C76_warning_lists_large :
  forall stream to_string, (forall x, one_line (stream x)) -> (forall x, one_line (to_string x)) ->
  forall std_sort r t, sort_contract std_sort -> Forall plain_names (correlation_coeffs r) ->
  exists sel, (forall c, In c sel <-> In c (correlation_coeffs r) /\ (t < Rabs (np_value c))%R) /\
    Permutation sel (filter (fun c => if Rlt_dec t (Rabs (np_value c)) then true else false) (correlation_coeffs r)) /\
    StronglySorted (fun a b => (Rabs (np_value b) <= Rabs (np_value a))%R) sel /\
    lines_of (printCorrelationCoeffAboveThreshold stream to_string std_sort r t) =
    match sel with
    | [] => ["No correlation coefficients with magnitude > " ++ to_string t; ""]
    | _ => app [""; "Correlation Coeff. > " ++ to_string t ++ ":"] (app (map (line_of stream) sel) [""])
    end.
Proof. exact print_lines. Qed.
Print Assumptions C76_warning_lists_large.

Example C76_plain : plain_names (NP ("camera_x", "camera_y") 1) /\ sort_contract (@insertion_sort named_param).
Proof. exact (conj text_plain insertion_sort_contract). Qed.
Example C76_example :
  lines_of (cov_toString (fun _ => "1") (CR [NP ("a", "a") 1; NP ("b", "b") 1] [NP ("a", "b") 1] [NP ("a", "b") 1]
     (Mat 0 0 (fun _ _ => 0%R)) (Mat 0 0 (fun _ _ => 0%R)))) =
  ["Std. Devs."; "a a 1"; "b b 1"; ""; "Covariance"; "a b 1"; ""; "Correlation Coeffs."; "a b 1"; ""].
Proof. exact text_example. Qed.
