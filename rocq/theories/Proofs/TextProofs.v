(** The text of covariance results. *)
From Coq Require Import Reals Ascii String List Sorted Permutation.
From Verif.Base Require Import Outcome Matrix.
From Verif.Model Require Import Covariance CovReport.
From Verif.Spec Require Import CovarianceSpec TextSpec.
From Verif.Proofs Require Import CovarianceProofs.
Import ListNotations.
Local Open Scope string_scope.

Lemma append_assoc a b c : (a ++ b) ++ c = a ++ (b ++ c).
Proof. induction a; cbn; [ reflexivity | congruence ]. Qed.
Lemma append_nil a : a ++ "" = a.
Proof. induction a; cbn; congruence. Qed.
Lemma one_line_app a b : one_line a -> one_line b -> one_line (a ++ b).
Proof. induction a as [ | c a IH ]; cbn; [ auto | ]. intros (H1 & H2 & H3) Hb. auto. Qed.
Lemma lines_line a s : one_line a -> lines_of (a ++ newline ++ s) = a :: lines_of s.
Proof.
  induction a as [ | c a IH ]; intros H; [ reflexivity | ]. destruct H as (H1 & H2 & H3).
  change (String c a ++ newline ++ s) with (String c (a ++ newline ++ s)). cbn [lines_of].
  destruct (Ascii.eqb_spec c newline_char); [ contradiction | ]. rewrite IH by exact H3. reflexivity.
Qed.
Lemma c_str_plain s : one_line s -> c_str s = s.
Proof.
  induction s as [ | c s IH ]; cbn; [ reflexivity | ]. intros (H1 & H2 & H3).
  destruct (Ascii.eqb_spec c Ascii.zero); [ contradiction | ]. rewrite IH by exact H3. reflexivity.
Qed.
Section Text.
  Variables stream to_string : R -> string.
  Hypothesis Hs : forall x, one_line (stream x).
  Hypothesis Ht : forall x, one_line (to_string x).
  Lemma np_plain p : plain_names p -> np_toString stream p = line_of stream p.
  Proof. intros [A B]. unfold np_toString. rewrite !c_str_plain by assumption. reflexivity. Qed.
  Lemma line_plain p : plain_names p -> one_line (line_of stream p).
  Proof.
    intros [A B]. unfold line_of.
    assert (Sp : one_line " ") by (cbn; repeat split; discriminate).
    repeat (apply one_line_app; [ assumption | ]). apply Hs.
  Qed.
  Fixpoint params_text (l : list named_param) : string :=
    match l with [] => "" | p :: l => np_toString stream p ++ newline ++ params_text l end.
  Lemma append_text l out : append_params stream out l = out ++ params_text l.
  Proof.
    unfold append_params. revert out. induction l as [ | p l IH ]; intros out; cbn [fold_left params_text]; [ rewrite append_nil; reflexivity | ].
    rewrite IH, !append_assoc. reflexivity.
  Qed.
  Lemma params_lines l s : Forall plain_names l -> lines_of (params_text l ++ s) = (map (line_of stream) l ++ lines_of s)%list.
  Proof.
    intros H. induction H as [ | p l Hp Hl IH ]; [ reflexivity | ]. cbn [params_text map app]. rewrite !append_assoc, np_plain by exact Hp.
    rewrite lines_line by (apply line_plain, Hp). rewrite IH. reflexivity.
  Qed.
  Ltac plain := cbn; repeat split; discriminate.
  Lemma cov_lines r : Forall plain_names (standard_deviations r) -> Forall plain_names (covariances r) -> Forall plain_names (correlation_coeffs r) ->
    lines_of (cov_toString stream r) =
    (["Std. Devs."] ++ map (line_of stream) (standard_deviations r) ++
     [""; "Covariance"] ++ map (line_of stream) (covariances r) ++
     [""; "Correlation Coeffs."] ++ map (line_of stream) (correlation_coeffs r) ++ [""])%list.
  Proof.
    intros H1 H2 H3. unfold cov_toString. rewrite !append_text, !append_assoc. change ("" ++ ?x) with x.
    rewrite lines_line by plain. rewrite params_lines by exact H1. cbn [app]. f_equal. f_equal.
    change (newline ++ ?x) with ("" ++ newline ++ x) at 1. rewrite lines_line by plain. rewrite lines_line by plain.
    rewrite params_lines by exact H2. f_equal. f_equal. f_equal.
    change (newline ++ ?x) with ("" ++ newline ++ x) at 1. rewrite lines_line by plain. rewrite lines_line by plain.
    rewrite <- (append_nil (params_text _)). rewrite params_lines by exact H3. reflexivity.
  Qed.
  Lemma print_lines std_sort r t : sort_contract std_sort -> Forall plain_names (correlation_coeffs r) ->
    exists sel, (forall c, In c sel <-> In c (correlation_coeffs r) /\ (t < Rabs (np_value c))%R) /\
      Permutation sel (filter (fun c => if Rlt_dec t (Rabs (np_value c)) then true else false) (correlation_coeffs r)) /\
      StronglySorted (fun a b => (Rabs (np_value b) <= Rabs (np_value a))%R) sel /\
      lines_of (printCorrelationCoeffAboveThreshold stream to_string std_sort r t) =
      match sel with
      | [] => ["No correlation coefficients with magnitude > " ++ to_string t; ""]
      | _ => app [""; "Correlation Coeff. > " ++ to_string t ++ ":"] (app (map (line_of stream) sel) [""])
      end.
  Proof.
    intros Hc Hp. destruct (threshold_summary std_sort Hc r t) as ((kept & Pm & ->) & Hin & Hsort).
    eexists. split; [ exact Hin | ]. split; [ symmetry; exact Pm | ]. split; [ exact Hsort | ].
    unfold printCorrelationCoeffAboveThreshold.
    assert (Pl : Forall plain_names (getCorrelationCoeffOutsideThreshold std_sort r t)).
    { apply Forall_forall. intros c Hc'. apply Hin in Hc' as [Hc' _]. rewrite Forall_forall in Hp. apply Hp, Hc'. }
    destruct (getCorrelationCoeffOutsideThreshold std_sort r t) as [ | p l ].
    - rewrite <- (append_nil newline), <- append_assoc.
      rewrite lines_line; [ reflexivity | ]. apply one_line_app; [ plain | apply Ht ].
    - rewrite append_text, !append_assoc. change (newline ++ ?x) with ("" ++ newline ++ x) at 1. rewrite lines_line by plain.
      assert (E : "Correlation Coeff. > " ++ to_string t ++ ":" ++ newline ++ params_text (p :: l) =
              ("Correlation Coeff. > " ++ to_string t ++ ":") ++ newline ++ params_text (p :: l)) by (rewrite !append_assoc; reflexivity).
      rewrite E. rewrite lines_line; [ | apply one_line_app; [ plain | apply one_line_app; [ apply Ht | plain ] ] ].
      rewrite <- (append_nil (params_text _)), params_lines by exact Pl. reflexivity.
  Qed.
End Text.
Lemma text_plain : plain_names (NP ("camera_x", "camera_y") 1).
Proof. split; cbn; repeat split; discriminate. Qed.
Lemma text_example :
  lines_of (cov_toString (fun _ => "1") (CR [NP ("a", "a") 1; NP ("b", "b") 1] [NP ("a", "b") 1] [NP ("a", "b") 1]
     (Mat 0 0 (fun _ _ => 0%R)) (Mat 0 0 (fun _ _ => 0%R)))) =
  ["Std. Devs."; "a a 1"; "b b 1"; ""; "Covariance"; "a b 1"; ""; "Correlation Coeffs."; "a b 1"; ""].
Proof. reflexivity. Qed.
