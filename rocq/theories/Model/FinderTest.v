(** The program that tries the circle finder on an image: rct_image_tools/src/target_finder_tests.cpp (tft.cpp) *)
From Coq Require Import Reals ZArith Bool String Ascii List.
From Verif.Base Require Import Geom Outcome.
From Verif.Model Require Import NumberText Targets Plugins.
From Verif.Model Require Covariance.
Import ListNotations.
Local Open Scope Z_scope.
Local Open Scope string_scope.

(** isspace in the C locale *)
Definition is_space (c : ascii) : bool :=
  let n := Z.of_N (N_of_ascii c) in (Z.eqb n 32 || (Z.leb 9 n && Z.leb n 13))%bool.
Fixpoint skip_space (s : string) : string :=
  match s with String c r => if is_space c then skip_space r else s | EmptyString => s end.
(** std::stoi, which is strtol to the base 10: None is std::invalid_argument or std::out_of_range. *)
Definition stoi (s : string) : option Z :=
  let '(neg, s) := read_sign (skip_space s) in
  let '(m, count, _) := read_digits 0 0 s in
  let z := if neg then - m else m in
  if Z.eqb count 0 then None else if (Z.leb (- 2 ^ 31) z && Z.ltb z (2 ^ 31))%bool then Some z else None.

(** How the program ends: with a status after writing something, or with an exception that nobody catches, a failed assertion or
    undefined behaviour. *)
Inductive ending := Returned (status : Z) (out : string) | Aborted.
Definition newline : string := String (ascii_of_nat 10) EmptyString.
(** tft.cpp:9-10 *)
Definition usage : string := "Usage: rosrun rct_image_tools rct_image_tools_test <PATH_TO_IMAGE_FILE> <NUM_ROWS> <NUM_COLS>" ++ newline.
(** XmlRpc::XmlRpcException is no std::exception. *)
Definition is_std (e : exn) : bool := match e with XmlRpcException => false | _ => true end.

Section Test.
  (** The image of a path (imread), finding and showing (tft.cpp:31, 35-39) with a target, and the texts of exceptions *)
  Context {image : Type} (imread : string -> image) (find : circle_grid -> image -> res features)
    (show : circle_grid -> image -> features -> res unit) (what : exn -> string).
  (** tft.cpp:5-47, main, with the arguments after the name of the program *)
  Definition test_main (args : list string) : ending :=
    match args with
    | [path; r; c] =>
        match stoi r, stoi c with
        | Some rows, Some cols =>
            let m := imread path in
            let target := CG (to_unsigned rows) (to_unsigned cols) (1 / 100)%R in
            (* modified_circle_grid_finder.cpp:401-402 *)
            if (Nat.eqb (cg_cols target) 0 || Nat.eqb (cg_rows target) 0)%bool then Aborted else
            match find target m with
            | Ok obs =>
                let found := "Grid observed: Found " ++ Covariance.to_string (List.length obs) ++ " features!" ++ newline in
                match show target m obs with
                | Ok _ => Returned 0 found
                | Throw e => if is_std e then Returned 0 (found ++ what e ++ newline) else Aborted
                | UB => Aborted
                end
            | Throw e => if is_std e then Returned 0 (what e ++ newline) else Aborted
            | UB => Aborted
            end
        | _, _ => Aborted
        end
    | _ => Returned 1 usage
    end.
End Test.
