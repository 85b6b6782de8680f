(** Numbers at the start of a text. *)
From Coq Require Import ZArith String Ascii List.
From Verif.Model Require Import NumberText FinderTest.
Import ListNotations.
Local Open Scope Z_scope.

(** A number written with these decimal digits *)
Definition number_text (ds : list Z) : string := fold_right (fun d s => String (digit d) s) EmptyString ds.
Definition number_value (ds : list Z) : Z := fold_left (fun a d => 10 * a + d) ds 0.
Definition decimal_digits (ds : list Z) : Prop := ds <> [] /\ Forall (fun d => 0 <= d <= 9) ds.
Definition no_digit_first (s : string) : Prop := forall d r, 0 <= d <= 9 -> s <> String (digit d) r.
(** Tabulators, ends of lines and pages, spaces *)
Definition blanks (s : string) : Prop := Forall (fun c => In (nat_of_ascii c) [9; 10; 11; 12; 13; 32]%nat) (list_ascii_of_string s).
(** Blanks, a sign or none, digits, and anything else after them *)
Definition begins_with_number (s : string) (z : Z) : Prop :=
  exists b sign ds rest, s = (b ++ sign ++ number_text ds ++ rest)%string /\ blanks b /\ decimal_digits ds /\ no_digit_first rest /\
    (sign = ""%string /\ z = number_value ds \/ sign = "+"%string /\ z = number_value ds \/ sign = "-"%string /\ z = - number_value ds).
