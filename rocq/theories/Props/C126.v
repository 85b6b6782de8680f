(** C126: the program that tries the circle finder. [begins_with_number s z]: the text [s] starts with the number [z]
    (Spec/FinderTestSpec.v); [imread], [find], [show], [what]: the image of a path, the finder, the display and the texts of exceptions. *)
From Coq Require Import Reals ZArith String List.
From Verif.Base Require Import Geom Outcome.
From Verif.Model Require Import Targets Covariance FinderTest.
From Verif.Spec Require Import FinderTestSpec.
From Verif.Proofs Require FinderTestProofs.
Import ListNotations.
Local Open Scope Z_scope.

(** With numbers of rows and columns that are positive ints, the program says how many features were found, or why none were. *)
Theorem C126_runs :
  forall (image : Type) (imread : string -> image) (find : circle_grid -> image -> res features)
    (show : circle_grid -> image -> features -> res unit) (what : exn -> string) r c rows cols,
  begins_with_number r rows -> begins_with_number c cols -> 0 < rows < 2 ^ 31 -> 0 < cols < 2 ^ 31 ->
  forall path, let target := CG (Z.to_nat rows) (Z.to_nat cols) (1 / 100)%R in
  (forall obs, find target (imread path) = Ok obs -> show target (imread path) obs = Ok tt ->
     test_main imread find show what [path; r; c] = Returned 0 ("Grid observed: Found " ++ Covariance.to_string (List.length obs) ++ " features!" ++ newline)%string) /\
  (forall e, find target (imread path) = Throw e -> e <> XmlRpcException ->
     test_main imread find show what [path; r; c] = Returned 0 (what e ++ newline)%string).
Proof. exact @FinderTestProofs.positive_sizes. Qed.
Print Assumptions C126_runs.

(** With three arguments the status is zero in all cases in which the program returns, found or not. *)
Theorem C126_status :
  forall (image : Type) (imread : string -> image) (find : circle_grid -> image -> res features)
    (show : circle_grid -> image -> features -> res unit) (what : exn -> string) path r c out status,
  test_main imread find show what [path; r; c] = Returned status out -> status = 0.
Proof. exact @FinderTestProofs.status_zero. Qed.
Print Assumptions C126_status.

(** With another number of arguments it prints how to use it and returns one. *)
Theorem C126_usage :
  forall (image : Type) (imread : string -> image) (find : circle_grid -> image -> res features)
    (show : circle_grid -> image -> features -> res unit) (what : exn -> string) args,
  List.length args <> 3%nat -> test_main imread find show what args = Returned 1 usage.
Proof. exact @FinderTestProofs.wrong_arguments. Qed.
Print Assumptions C126_usage.

(** Sizes that are no number, zero, or no int end the program. *)
Theorem C126_aborts :
  forall (image : Type) (imread : string -> image) (find : circle_grid -> image -> res features)
    (show : circle_grid -> image -> features -> res unit) (what : exn -> string) path r c,
  (forall z, begins_with_number r z -> z < - 2 ^ 31 \/ z = 0 \/ 2 ^ 31 <= z) \/ (forall z, begins_with_number c z -> z < - 2 ^ 31 \/ z = 0 \/ 2 ^ 31 <= z) ->
  test_main imread find show what [path; r; c] = Aborted.
Proof. exact @FinderTestProofs.bad_sizes. Qed.
Print Assumptions C126_aborts.

(** Sizes are read from the start of the text; what follows the digits is ignored. *)
Theorem C126_numbers :
  forall s z,
  stoi s = Some z <-> begins_with_number s z /\ - 2 ^ 31 <= z < 2 ^ 31.
Proof. exact FinderTestProofs.stoi_reads. Qed.
Print Assumptions C126_numbers.

(** Two texts with numbers. *)
Example C126_numbers_example :
  begins_with_number " 12x" 12 /\ begins_with_number "-3" (-3).
Proof. exact FinderTestProofs.begins_example. Qed.

(** A finder that finds two features. *)
Example C126_run_example :
  test_main (image := unit) (fun _ => tt) (fun t _ => if Nat.eqb (cg_rows t) 5 then Ok [(0%nat, [V2 1 2]); (1%nat, [V2 3 2])] else Throw RuntimeError) (fun _ _ _ => Ok tt)
  (fun _ => "no grid"%string) ["image.png"; "5"; "7"]%string = Returned 0 ("Grid observed: Found 2 features!" ++ newline)%string.
Proof. exact FinderTestProofs.run_example. Qed.
