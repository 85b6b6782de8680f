(** IEEE 754 arithmetic of [double] and [float]: rounding to nearest, ties to even, one rounding per operation (no fused
    multiply-add, no extended precision). The operations are those of Flocq's BinarySingleNaN: values are signed zeros,
    infinities, NaN (without payload) and finite numbers. *)
From Coq Require Import ZArith Reals.
From Flocq Require Import Core BinarySingleNaN.

(** double: 53 bits of precision, largest exponent 1024; float: 24 bits and 128 *)
Definition f64 := binary_float 53 1024.
Definition f32 := binary_float 24 128.

Definition prec64 : Prec_gt_0 53 := eq_refl.
Definition emax64 : Prec_lt_emax 53 1024 := eq_refl.
Definition prec32 : Prec_gt_0 24 := eq_refl.
Definition emax32 : Prec_lt_emax 24 128 := eq_refl.

Definition dadd (x y : f64) : f64 := @Bplus 53 1024 prec64 emax64 mode_NE x y.
Definition dsub (x y : f64) : f64 := @Bminus 53 1024 prec64 emax64 mode_NE x y.
Definition dmul (x y : f64) : f64 := @Bmult 53 1024 prec64 emax64 mode_NE x y.
Definition ddiv (x y : f64) : f64 := @Bdiv 53 1024 prec64 emax64 mode_NE x y.
Definition dsqrt (x : f64) : f64 := @Bsqrt 53 1024 prec64 emax64 mode_NE x.
Definition dabs (x : f64) : f64 := Babs x.
Definition fsub (x y : f32) : f32 := @Bminus 24 128 prec32 emax32 mode_NE x y.

(** Comparisons: false if one side is not a number *)
Definition deq (x y : f64) : bool := Beqb x y.
Definition dlt (x y : f64) : bool := Bltb x y.
Definition dle (x y : f64) : bool := Bleb x y.

(** The double nearest to m * 2^e, and to an integer *)
Definition dnum (m e : Z) : f64 := @binary_normalize 53 1024 prec64 emax64 mode_NE m e false.
Definition dint (m : Z) : f64 := dnum m 0.
(** Conversion of a float to double, which is exact: the number m * 2^e again *)
Definition widen (x : f32) : f64 :=
  match x with
  | B754_zero s => B754_zero s
  | B754_infinity s => B754_infinity s
  | B754_nan => B754_nan
  | B754_finite s m e _ => @binary_normalize 53 1024 prec64 emax64 mode_NE (cond_Zopp s (Zpos m)) e s
  end.

Definition dval (x : f64) : R := B2R x.
Definition fval (x : f32) : R := B2R x.
Definition dfin (x : f64) : bool := is_finite x.
Definition ffin (x : f32) : bool := is_finite x.
