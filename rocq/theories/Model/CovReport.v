(** Text of covariance results: rct_optimizations/include/rct_optimizations/covariance_types.h *)
From Coq Require Import Reals Ascii String List.
From Verif.Model Require Import Covariance.
Import ListNotations.
Local Open Scope string_scope.

(** std::string::c_str, read up to the terminating NUL *)
Fixpoint c_str (s : string) : string :=
  match s with
  | EmptyString => ""
  | String c r => if Ascii.eqb c Ascii.zero then "" else String c (c_str r)
  end.
(** "\n" *)
Definition newline : string := String (ascii_of_nat 10) "".

Section Text.
  (** [stream]: a double written to a std::stringstream; [to_string]: std::to_string *)
  Variables stream to_string : R -> string.
  (** covariance_types.h:27-32, NamedParam::toString *)
  Definition np_toString (p : named_param) : string :=
    c_str (fst (np_names p)) ++ " " ++ c_str (snd (np_names p)) ++ " " ++ stream (np_value p).
  (** The three loops of lines 78-94 and that of 112-115 *)
  Definition append_params (out : string) (l : list named_param) : string :=
    fold_left (fun out p => out ++ (np_toString p ++ newline)) l out.
  (** covariance_types.h:74-95, CovarianceResult::toString *)
  Definition cov_toString (r : cov_result) : string :=
    let out := "" ++ ("Std. Devs." ++ newline) in
    let out := append_params out (standard_deviations r) in
    let out := out ++ (newline ++ "Covariance" ++ newline) in
    let out := append_params out (covariances r) in
    let out := out ++ (newline ++ "Correlation Coeffs." ++ newline) in
    append_params out (correlation_coeffs r).
  (** covariance_types.h:102-117, printCorrelationCoeffAboveThreshold *)
  Definition printCorrelationCoeffAboveThreshold
    (std_sort : (named_param -> named_param -> bool) -> list named_param -> list named_param)
    (r : cov_result) (threshold : R) : string :=
    let above_thresh := getCorrelationCoeffOutsideThreshold std_sort r threshold in
    match above_thresh with
    | [] => "No correlation coefficients with magnitude > " ++ to_string threshold ++ newline
    | _ =>
        let out := newline ++ "Correlation Coeff. > " ++ to_string threshold ++ ":" ++ newline in
        append_params out above_thresh
    end.
End Text.
