(** C104: numbers written to a YAML file with 17 digits are read back exactly; with fewer they are close. *)
From Coq Require Import Reals ZArith String.
From Flocq Require Import Core BinarySingleNaN.
From Verif.Base Require Import Float.
From Verif.Model Require Import NumberText.
From Verif.Spec Require Import PoseTextSpec.
From Verif.Proofs Require Import NumberTextProofs PoseTextProofs.
Local Open Scope string_scope.

(** Every finite double, also subnormal ones and negative zero, comes back from a text of 17 digits or more. *)
Theorem C104_same_number : forall p x, (17 <= p)%nat -> is_finite x = true ->
  exists t, number_text p x = Some t /\ read_number t = Some x.
Proof. exact same_number. Qed.
Print Assumptions C104_same_number.

(** With [p] digits the sign is kept and the value is off by at most one unit of the last digit. *)
Theorem C104_near : forall p x, (1 <= p)%nat -> is_finite x = true -> (Rabs (B2R x) < 2 ^ 1023)%R ->
  exists t y, number_text p x = Some t /\ read_number t = Some y /\ is_finite y = true /\ Bsign y = Bsign x /\ near_digits p x y.
Proof. exact near_written. Qed.
Print Assumptions C104_near.

(** 16 digits, which older versions of yaml-cpp write, are not enough. *)
Theorem C104_sixteen_digits : exists x t y, is_finite x = true /\ number_text 16 x = Some t /\ read_number t = Some y /\ y <> x.
Proof. exact sixteen_not_enough. Qed.
Print Assumptions C104_sixteen_digits.

Example C104_tenth : number_text 17 tenth = Some "0.10000000000000001" /\ number_text 16 tenth = Some "0.1".
Proof. exact tenth_text. Qed.
Example C104_small : number_text 17 (dnum (-3) (-40)) = Some "-2.7284841053187847e-12".
Proof. exact small_text. Qed.
