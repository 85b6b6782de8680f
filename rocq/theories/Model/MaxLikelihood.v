(** Maximum-likelihood prior: rct_optimizations/include/rct_optimizations/maximum_likelihood.h *)
From Coq Require Import Reals Arith List.
From Verif.Base Require Import Outcome Matrix.
Import ListNotations.
Local Open Scope R_scope.

Record max_likelihood := ML { ml_mean : matrix; ml_stdev : matrix }.

(** maximum_likelihood.h:20-24, constructor: compares the numbers of elements *)
Definition MaximumLikelihood (mean_ stdev_ : matrix) : res max_likelihood :=
  if Nat.eqb (rows mean_ * cols mean_) (rows stdev_ * cols stdev_)
  then Ok (ML mean_ stdev_)
  else Throw OptimizationException.

(** maximum_likelihood.h:26-36, operator(). Parameter and residual are column-major
    rows x cols arrays; element (i, j) is at j * rows + i. Subtracting or dividing Eigen
    arrays of different dimensions fails an assertion. A zero standard deviation gives an
    infinite or NaN residual in C++, which is not modelled: the theorems assume it away. *)
Definition ml_residual (ml : max_likelihood) (parameter : nat -> R) : res (list R) :=
  let mean := ml_mean ml in
  let stdev := ml_stdev ml in
  if andb (Nat.eqb (rows mean) (rows stdev)) (Nat.eqb (cols mean) (cols stdev)) then
    let r := rows mean in
    Ok (flat_map (fun j => map (fun i => (parameter (j * r + i)%nat - ent mean i j) / ent stdev i j)
                               (seq 0 r)) (seq 0 (cols mean)))
  else UB.
