(** The number types of the cost functors. Every functor is a template over its number type: the solver evaluates it on
    doubles for residuals and on ceres::Jet for residuals with derivatives (ceres/jet.h, ceres/internal/autodiff.h). *)
From Coq Require Import Reals List Bool.
From Verif.Base Require Import Geom.
Import ListNotations.
Local Open Scope R_scope.

(** What the functors need of a number type. [lit] is T(double); [gt], [is_zero] are > and == T(0); [eps] is
    std::numeric_limits<T>::epsilon(). *)
Record num := Num {
  T : Type;
  lit : R -> T;
  add : T -> T -> T;
  sub : T -> T -> T;
  mul : T -> T -> T;
  div : T -> T -> T;
  opp : T -> T;
  nsqrt : T -> T;
  nsin : T -> T;
  ncos : T -> T;
  nabs : T -> T;
  natan2 : T -> T -> T;
  gt : T -> T -> bool;
  is_zero : T -> bool;
  is_nan : T -> bool;
  eps : T }.

(** double, as elsewhere in the model: the reals. *)
Definition real_num : num :=
  Num R (fun x => x) Rplus Rminus Rmult Rdiv Ropp sqrt sin cos Rabs atan2
    (fun a b => if Rlt_dec b a then true else false) (fun a => if Req_EM_T a 0 then true else false) (fun _ => false) DBL_EPS.

(** A derivative: unlike values, derivatives that are not finite are kept track of. *)
Inductive ext := Fin (x : R) | Inf (negative : bool) | NaN.
Definition xopp (a : ext) : ext := match a with Fin x => Fin (- x) | Inf n => Inf (negb n) | NaN => NaN end.
Definition xadd (a b : ext) : ext :=
  match a, b with
  | Fin x, Fin y => Fin (x + y)
  | NaN, _ | _, NaN => NaN
  | Inf n, Inf m => if eqb n m then Inf n else NaN
  | Inf n, Fin _ | Fin _, Inf n => Inf n
  end.
Definition xsub (a b : ext) : ext := xadd a (xopp b).
Definition inf_times (n : bool) (x : R) : ext :=
  if Req_EM_T x 0 then NaN else if Rlt_dec x 0 then Inf (negb n) else Inf n.
Definition xmul (a b : ext) : ext :=
  match a, b with
  | Fin x, Fin y => Fin (x * y)
  | NaN, _ | _, NaN => NaN
  | Inf n, Inf m => Inf (xorb n m)
  | Inf n, Fin x | Fin x, Inf n => inf_times n x
  end.
(** 1 / x; one over zero is an infinity *)
Definition xinv (x : R) : ext := if Req_EM_T x 0 then Inf false else Fin (/ x).

(** ceres/jet.h, Jet<double, N>. [jv] is indexed by parameter block and element instead of 0..N-1. The value is a real; a
    division by zero or the root of a negative number, which no theorem allows, would not be one. *)
Record jet := Jet { ja : R; jv : nat * nat -> ext }.
Definition jet_lit (x : R) : jet := Jet x (fun _ => Fin 0).
Definition jet_add (f g : jet) : jet := Jet (ja f + ja g) (fun d => xadd (jv f d) (jv g d)).
Definition jet_sub (f g : jet) : jet := Jet (ja f - ja g) (fun d => xsub (jv f d) (jv g d)).
Definition jet_mul (f g : jet) : jet :=
  Jet (ja f * ja g) (fun d => xadd (xmul (Fin (ja f)) (jv g d)) (xmul (jv f d) (Fin (ja g)))).
Definition jet_div (f g : jet) : jet :=
  let g_a_inverse := xinv (ja g) in
  let f_a_by_g_a := xmul (Fin (ja f)) g_a_inverse in
  Jet (ja f / ja g) (fun d => xmul (xsub (jv f d) (xmul f_a_by_g_a (jv g d))) g_a_inverse).
Definition jet_opp (f : jet) : jet := Jet (- ja f) (fun d => xopp (jv f d)).
Definition jet_sqrt (f : jet) : jet :=
  let tmp := sqrt (ja f) in
  let two_a_inverse := xinv (2 * tmp) in
  Jet tmp (fun d => xmul (jv f d) two_a_inverse).
Definition jet_sin (f : jet) : jet := Jet (sin (ja f)) (fun d => xmul (Fin (cos (ja f))) (jv f d)).
Definition jet_cos (f : jet) : jet := Jet (cos (ja f)) (fun d => xmul (Fin (- sin (ja f))) (jv f d)).
Definition jet_abs (f : jet) : jet := if Rlt_dec (ja f) 0 then jet_opp f else f.
Definition jet_atan2 (g f : jet) : jet :=
  let tmp := xinv (ja f * ja f + ja g * ja g) in
  Jet (atan2 (ja g) (ja f)) (fun d => xmul tmp (xadd (xmul (Fin (- ja g)) (jv f d)) (xmul (Fin (ja f)) (jv g d)))).
(** Comparisons only look at the value. *)
Definition jet_gt (f g : jet) : bool := if Rlt_dec (ja g) (ja f) then true else false.
Definition jet_is_zero (f : jet) : bool := if Req_EM_T (ja f) 0 then true else false.
(** ceres::IsNaN: the value or one of the N derivatives. [dirs] are the parameters that the jets are differentiated by: all
    of them (AutoDiffCostFunction), or a few at a time (DynamicAutoDiffCostFunction). *)
Definition jet_is_nan (dirs : list (nat * nat)) (f : jet) : bool :=
  existsb (fun d => match jv f d with NaN => true | _ => false end) dirs.
(** [e]: std::numeric_limits<Jet>::epsilon(). Older versions of Ceres do not specialise it, so it is Jet(), which is zero;
    newer ones return that of double. *)
Definition jet_num (e : R) (dirs : list (nat * nat)) : num :=
  Num jet jet_lit jet_add jet_sub jet_mul jet_div jet_opp jet_sqrt jet_sin jet_cos jet_abs jet_atan2 jet_gt jet_is_zero
    (jet_is_nan dirs) (jet_lit e).
(** ceres/internal/autodiff.h, Make1stOrderPerturbation: parameter (b, i) with derivative 1 by itself *)
Definition seed (x : nat -> nat -> R) : nat -> nat -> jet := fun b i =>
  Jet (x b i) (fun d => Fin (if andb (Nat.eqb (fst d) b) (Nat.eqb (snd d) i) then 1 else 0)).
