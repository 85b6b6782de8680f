(** C18: computeCovariance. *)
From Coq Require Import Reals Arith ZArith String List.
From Verif.Base Require Import Outcome Matrix.
From Verif.Model Require Import Covariance.
From Verif.Spec Require Import CovarianceSpec.
From Verif.Proofs Require Import CovarianceProofs.
Import ListNotations.
Local Open Scope nat_scope.

(** [cov_inputs_ok pb blocks names]: as many name entries as blocks, every block's labels
    fit its size, and the solver's covariance computation succeeds. *)
Theorem C18_inputs_ok_meaning :
  forall pb blocks names, cov_inputs_ok pb blocks names <->
    List.length blocks = List.length names /\
    (forall b, In b blocks -> exists label,
        find_key b names = Some label /\ pb_size pb b = Some (List.length label)) /\
    pb_compute pb blocks = true /\ pb_get pb blocks = true.
Proof. exact (fun pb blocks names => conj (fun H => H) (fun H => H)). Qed.
Print Assumptions C18_inputs_ok_meaning.

(** With good inputs: the reported parameters are exactly the unmasked elements of the
    selected blocks in block then element order ([fr]), each under its own label, and the
    reported matrix holds the solver's covariances of those elements. The hypothesis on
    [pb_cov] is that the solver's covariance is symmetric. *)
Theorem C18_unmasked_parameters_reported :
  forall u pb blocks names masks,
  (forall b i c j, pb_cov pb b i c j = pb_cov pb c j b i) ->
  cov_inputs_ok pb blocks names ->
  let size b := match pb_size pb b with Some n => n | None => 0 end in
  let mask b := match find_key b masks with Some m => m | None => [] end in
  let label e := nth (snd e) (match find_key (fst e) names with Some l => l | None => [] end) ""%string in
  let fr := free_elems size mask blocks in
  exists r, computeCovariance u pb blocks names masks = Ok r /\
    computeCovarianceResults u (covariance_matrix r) (map label fr) = Ok r /\
    rows (covariance_matrix r) = List.length fr /\ cols (covariance_matrix r) = List.length fr /\
    forall p q, p < List.length fr -> q < List.length fr ->
      ent (covariance_matrix r) p q =
      pb_cov pb (fst (nth p fr (0, 0))) (snd (nth p fr (0, 0)))
                (fst (nth q fr (0, 0))) (snd (nth q fr (0, 0))).
Proof. exact covariance_ok. Qed.
Print Assumptions C18_unmasked_parameters_reported.

(** The reported standard deviations are named after exactly those elements. *)
Theorem C18_stdev_names :
  forall u pb blocks names masks r,
  (forall b i c j, pb_cov pb b i c j = pb_cov pb c j b i) ->
  computeCovariance u pb blocks names masks = Ok r ->
  let size b := match pb_size pb b with Some n => n | None => 0 end in
  let mask b := match find_key b masks with Some m => m | None => [] end in
  let label e := nth (snd e) (match find_key (fst e) names with Some l => l | None => [] end) ""%string in
  map (fun p => fst (np_names p)) (standard_deviations r) = map label (free_elems size mask blocks).
Proof. exact covariance_sd_names. Qed.
Print Assumptions C18_stdev_names.

(** It succeeds only on good inputs ... *)
Theorem C18_success_only_if :
  forall u pb blocks names masks r,
  computeCovariance u pb blocks names masks = Ok r -> cov_inputs_ok pb blocks names.
Proof. exact covariance_ok_inv. Qed.
Print Assumptions C18_success_only_if.

(** ... and each kind of bad input throws. *)
Theorem C18_throws_on_count_mismatch :
  forall u pb blocks names masks, List.length blocks <> List.length names ->
  computeCovariance u pb blocks names masks = Throw CovarianceException.
Proof. exact covariance_throw_count. Qed.
Print Assumptions C18_throws_on_count_mismatch.

Theorem C18_throws_on_label_mismatch :
  forall u pb blocks names masks,
  (forall b, In b blocks -> pb_size pb b <> None) ->
  (exists b, In b blocks /\ ~ exists label,
        find_key b names = Some label /\ pb_size pb b = Some (List.length label)) ->
  exists e, computeCovariance u pb blocks names masks = Throw e.
Proof. exact covariance_throw_labels. Qed.
Print Assumptions C18_throws_on_label_mismatch.

Theorem C18_throws_on_solver_failure :
  forall u pb blocks names masks,
  List.length blocks = List.length names ->
  (forall b, In b blocks -> exists label,
        find_key b names = Some label /\ pb_size pb b = Some (List.length label)) ->
  pb_compute pb blocks = false \/ pb_get pb blocks = false ->
  computeCovariance u pb blocks names masks = Throw CovarianceException.
Proof. exact covariance_throw_solver. Qed.
Print Assumptions C18_throws_on_solver_failure.

(** The overload without names: element i of the k-th selected block is called
    "block<k>_element<i>", and no two elements share a name. *)
Theorem C18_generated_names :
  forall u pb blocks masks, NoDup blocks -> (forall b, In b blocks -> pb_size pb b <> None) ->
  exists names,
    computeCovariance_blocks u pb blocks masks = computeCovariance u pb blocks names masks /\
    (pb_compute pb blocks = true -> pb_get pb blocks = true -> cov_inputs_ok pb blocks names) /\
    (forall k i n, k < List.length blocks -> pb_size pb (nth k blocks 0) = Some n -> i < n ->
       nth_error (match find_key (nth k blocks 0) names with Some l => l | None => [] end) i
       = Some (String.append "block" (String.append (to_string k)
                 (String.append "_element" (to_string i))))) .
Proof. exact generated_names_summary. Qed.
Print Assumptions C18_generated_names.

Theorem C18_generated_names_distinct :
  forall k i k' i', dummy_name k i = dummy_name k' i' -> k = k' /\ i = i'.
Proof. exact dummy_name_inj. Qed.
Print Assumptions C18_generated_names_distinct.

(** Two blocks, the second with its middle element masked (twice). *)
Example C18_example_inputs :
  cov_inputs_ok
    (CP [7; 3] (fun b => match b with 7 => Some 2 | 3 => Some 3 | _ => None end)
        (fun _ => true) (fun _ => true)
        (fun b i c j => if andb (Nat.eqb b c) (Nat.eqb i j) then 4%R else 0%R))
    [7; 3] [(3, ["a"; "b"; "c"]%string); (7, ["p"; "q"]%string)].
Proof. exact ex_inputs_ok. Qed.
Example C18_example_free :
  free_elems (fun b => match b with 7 => 2 | 3 => 3 | _ => 0 end)
             (fun b => match b with 3 => [1%Z; 1%Z] | _ => [] end) [7; 3]
  = [(7, 0); (7, 1); (3, 0); (3, 2)].
Proof. exact eq_refl. Qed.
