(** Which elements of a problem are held constant, and which a mask map lists. *)
From Coq Require Import ZArith List.
From Verif.Base Require Import Matrix.
From Verif.Model Require Import LocalParam.

(** Element [i] of block [b] is held constant. *)
Definition frozen (p : problem) (b i : nat) : Prop :=
  bs_constant (p_state p b) = true \/ exists m, bs_subset (p_state p b) = Some m /\ In (Z.of_nat i) m.
(** Index [i] is listed for block [b]. *)
Definition listed (masks : amap (list Z)) (b i : nat) : Prop :=
  exists m, find_key b masks = Some m /\ In (Z.of_nat i) m.
