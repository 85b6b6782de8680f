(** Independent vocabulary for the covariance properties. *)
From Coq Require Import Reals Arith ZArith String List Sorted Permutation.
From Verif.Base Require Import Geom Matrix.
From Verif.Model Require Import Covariance.
Import ListNotations.
Local Open Scope R_scope.

(** x^T C x over the first n indices. *)
Fixpoint rsum (n : nat) (f : nat -> R) : R :=
  match n with O => 0 | S k => rsum k f + f k end.
Definition quad_form (n : nat) (C : nat -> nat -> R) (x : nat -> R) : R :=
  rsum n (fun i => rsum n (fun j => x i * C i j * x j)).

(** A covariance matrix: symmetric and positive semi-definite. *)
Definition covariance_like (m : matrix) : Prop :=
  rows m = cols m /\
  (forall i j, (i < rows m)%nat -> (j < rows m)%nat -> ent m i j = ent m j i) /\
  (forall x, 0 <= quad_form (rows m) (ent m) x).

(** Standard deviation of parameter i. *)
Definition stdev (m : matrix) (i : nat) : R := sqrt (ent m i i).

(** The index pairs i < j < n in row-major order. *)
Definition pair_lt (p q : nat * nat) : Prop :=
  (fst p < fst q)%nat \/ (fst p = fst q /\ (snd p < snd q)%nat).
Definition upper_pairs (n : nat) (l : list (nat * nat)) : Prop :=
  StronglySorted pair_lt l /\
  (forall i j, In (i, j) l <-> (i < j < n)%nat).

(** The unmasked elements of the selected blocks, in block then element order. *)
Definition free_elems (size : nat -> nat) (mask : nat -> list Z) (blocks : list nat)
  : list (nat * nat) :=
  flat_map (fun b =>
    filter (fun e => negb (existsb (Z.eqb (Z.of_nat (snd e))) (mask b)))
           (map (fun i => (b, i)) (seq 0 (size b)))) blocks.

(** What std::sort guarantees for a strict weak order: a permutation in which no later
    element compares before an earlier one. *)
Definition strict_weak_order {A} (lt : A -> A -> bool) : Prop :=
  (forall a, lt a a = false) /\
  (forall a b c, lt a b = true -> lt b c = true -> lt a c = true) /\
  (forall a b c, lt a b = false -> lt b a = false ->
                 lt b c = false -> lt c b = false -> lt a c = false /\ lt c a = false).
Definition sort_contract {A} (sort : (A -> A -> bool) -> list A -> list A) : Prop :=
  forall lt l, strict_weak_order lt ->
    Permutation l (sort lt l) /\ StronglySorted (fun a b => lt b a = false) (sort lt l).

(** There is one label for each of the block's numbers. *)
Definition labels_fit (pb : cov_problem) (names : amap (list string)) (b : nat) : Prop :=
  exists label, find_key b names = Some label /\ pb_size pb b = Some (List.length label).
(** Blocks with labels that fit, whose covariance is computed. *)
Definition cov_inputs_ok (pb : cov_problem) (blocks : list nat) (names : amap (list string)) : Prop :=
  List.length blocks = List.length names /\
  (forall b, In b blocks -> labels_fit pb names b) /\
  pb_compute pb blocks = true /\ pb_get pb blocks = true.
