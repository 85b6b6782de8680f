(** The text of a number in a file: what [node["x"] = val.x()] (rct_optimizations/include/rct_optimizations/serialization/eigen.h:62-70)
    puts into a YAML file and [node["x"].as<FloatT>()] (eigen.h:78-86) gets out of it.
    yaml-cpp writes a double to a stream with a fixed number of significant digits [p] (16 up to version 0.6.2, 17 after
    that) in the style of printf's %g, and reads it from a stream, which takes the nearest double. *)
From Coq Require Import ZArith List String Ascii.
From Flocq Require Import Core BinarySingleNaN.
From Verif.Base Require Import Float.
Import ListNotations.
Local Open Scope string_scope.
Local Open Scope bool_scope.
Local Open Scope Z_scope.

Definition ten : radix := Build_radix 10 eq_refl.

(** ** Decimal digits of a positive number m * 2^e, which is the fraction n / d *)
Definition fraction (m : positive) (e : Z) : Z * Z :=
  if 0 <=? e then (Zpos m * 2 ^ e, 1) else (Zpos m, 2 ^ (- e)).
(** The fraction times 10^k *)
Definition times10 (n d k : Z) : Z * Z := if 0 <=? k then (n * 10 ^ k, d) else (n, d * 10 ^ (- k)).
(** The largest e with 10^e <= n / d *)
Definition decimal_exponent (n d : Z) : Z :=
  let g := Zdigits ten n - Zdigits ten d in
  let '(n', d') := times10 n d (- g) in if d' <=? n' then g else g - 1.
(** The integer nearest to n / d, the even one of two *)
Definition nearest_even (n d : Z) : Z :=
  let q := n / d in
  match 2 * (n mod d) ?= d with
  | Lt => q
  | Gt => q + 1
  | Eq => if Z.even q then q else q + 1
  end.
(** [p] digits as one integer k, and the exponent e of the first one: the number is k * 10^(e - p + 1) *)
Definition decimal (p n d : Z) : Z * Z :=
  let e := decimal_exponent n d in
  let '(n', d') := times10 n d (p - 1 - e) in
  let k := nearest_even n' d' in
  if k =? 10 ^ p then (10 ^ (p - 1), e + 1) else (k, e).

(** ** The text *)
Definition digit (d : Z) : ascii := ascii_of_N (48 + Z.to_N d).
(** The last [count] digits of k *)
Fixpoint digits (count : nat) (k : Z) : string :=
  match count with
  | O => ""
  | S c => digits c (k / 10) ++ String (digit (k mod 10)) ""
  end.
(** Without the zeros at the end *)
Fixpoint strip (s : string) : string :=
  match s with
  | EmptyString => EmptyString
  | String c r =>
      match strip r with
      | EmptyString => if (c =? "0")%char then EmptyString else String c EmptyString
      | t => String c t
      end
  end.
Fixpoint zeros (count : nat) : string := match count with O => "" | S c => String "0" (zeros c) end.
Definition with_point (whole part : string) : string :=
  match strip part with EmptyString => whole | t => whole ++ String "." t end.
(** The exponent has two digits or more *)
Definition exponent_text (e : Z) : string :=
  String "e" (String (if e <? 0 then "-"%char else "+"%char) (digits (Nat.max 2 (Z.to_nat (Zdigits ten (Z.abs e)))) (Z.abs e))).
Definition substr (from len : nat) (s : string) : string := String.substring from len s.
Definition decimal_text (p : nat) (k e : Z) : string :=
  let ds := digits p k in
  if (-4 <=? e) && (e <? Z.of_nat p)
  then if 0 <=? e
       then with_point (substr 0 (Z.to_nat e + 1) ds) (substr (Z.to_nat e + 1) (p - (Z.to_nat e + 1)) ds)
       else with_point "0" (zeros (Z.to_nat (- e - 1)) ++ ds)
  else with_point (substr 0 1 ds) (substr 1 (p - 1) ds) ++ exponent_text e.
(** [stream << x] with precision [p]. Infinities and NaN, whose text depends on the version, are not considered. *)
Definition number_text (p : nat) (x : f64) : option string :=
  match x with
  | B754_zero s => Some ((if s then "-" else "") ++ "0")%string
  | B754_finite s m e _ =>
      let '(n, d) := fraction m e in
      let '(k, e10) := decimal (Z.of_nat p) n d in
      Some ((if s then "-" else "") ++ decimal_text p k e10)%string
  | _ => None
  end.

(** ** Reading: [stream >> x], with nothing left after it *)
Definition digit_of (c : ascii) : option Z :=
  let n := Z.of_N (N_of_ascii c) in if (48 <=? n) && (n <=? 57) then Some (n - 48) else None.
(** The digits in front: their value after [acc], how many, and the rest *)
Fixpoint read_digits (acc count : Z) (s : string) : Z * Z * string :=
  match s with
  | String c r => match digit_of c with
                  | Some d => read_digits (10 * acc + d) (count + 1) r
                  | None => (acc, count, s)
                  end
  | EmptyString => (acc, count, s)
  end.
Definition read_sign (s : string) : bool * string :=
  match s with
  | String c r => if (c =? "-")%char then (true, r) else if (c =? "+")%char then (false, r) else (false, s)
  | EmptyString => (false, s)
  end.
(** Sign, integer and exponent: the number is m * 10^e. Spaces and hexadecimal numbers, which streams accept too, are left out. *)
Definition read_decimal (s : string) : option (bool * Z * Z) :=
  let '(neg, s) := read_sign s in
  let '(m, n1, s) := read_digits 0 0 s in
  let '(m, n2, s) := match s with
                     | String c r => if (c =? ".")%char then read_digits m 0 r else (m, 0, s)
                     | EmptyString => (m, 0, s)
                     end in
  if n1 + n2 =? 0 then None else
  match s with
  | EmptyString => Some (neg, m, - n2)
  | String c r =>
      if ((c =? "e")%char || (c =? "E")%char)%bool then
        let '(eneg, r) := read_sign r in
        let '(x, n3, r) := read_digits 0 0 r in
        if n3 =? 0 then None else
        match r with EmptyString => Some (neg, m, (if eneg then - x else x) - n2) | _ => None end
      else None
  end.
(** The double nearest to the fraction n / d *)
Definition nearest_double (neg : bool) (n d : positive) : f64 :=
  SF2B _ (proj1 (@Bdiv_correct_aux 53 1024 prec64 emax64 mode_NE neg n 0 false d 0)).
Definition decimal_double (neg : bool) (m e : Z) : f64 :=
  match times10 m 1 e with
  | (Zpos n, Zpos d) => nearest_double neg n d
  | _ => B754_zero neg
  end.
(** A number too large for a double is a failure to read *)
Definition read_number (s : string) : option f64 :=
  match read_decimal s with
  | Some (neg, m, e) => let x := decimal_double neg m e in if is_finite x then Some x else None
  | None => None
  end.
