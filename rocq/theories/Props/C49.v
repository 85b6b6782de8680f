(** C49 Titles are printed centred between bars of the same width. *)
From Coq Require Import ZArith String List.
From Verif.Model Require Import Print.
From Verif.Spec Require Import PrintSpec.
From Verif.Proofs Require Import PrintProofs.
Import ListNotations.
Local Open Scope string_scope.

(** For every title and width: three lines of the same width, at least the requested one and at most one more than needed, the title in the exact middle with as many stars on both sides, at least three. *)
Theorem C49_title_layout : forall title width, exists bar side, printTitle title width = [bar; side ++ " " ++ title ++ " " ++ side; bar] /\
  only_stars bar /\ only_stars side /\ (3 <= String.length side)%nat /\ String.length (side ++ " " ++ title ++ " " ++ side) = String.length bar /\
  (width <= Z.of_nat (String.length bar) <= Z.max width (Z.of_nat (String.length title) + 8) + 1)%Z.
Proof. exact title_layout. Qed.
Print Assumptions C49_title_layout.
Example C49_even : printTitle "Pose" 14 = ["**************"; "**** Pose ****"; "**************"].
Proof. reflexivity. Qed.
Example C49_odd : printTitle "Poses" 14 = ["***************"; "**** Poses ****"; "***************"].
Proof. reflexivity. Qed.
Example C49_wide : printTitle "Calibration" 4 = ["*******************"; "*** Calibration ***"; "*******************"].
Proof. reflexivity. Qed.
