(** C14: masked parameters are exactly the frozen ones. *)
From Coq Require Import ZArith List.
From Verif.Base Require Import Outcome Matrix.
From Verif.Model Require Import LocalParam.
From Verif.Spec Require Import FreezeSpec.
From Verif.Proofs Require Import LocalParamProofs.
Import ListNotations.

(** If every listed index is inside its block, the listed elements become constant and no
    others do. Masks may be unsorted, contain duplicates, cover whole blocks or mention
    blocks that are not in the problem; blocks may already be constant. *)
Theorem C14_listed_exactly_frozen :
  forall p masks, NoDup (keys (p_blocks p)) ->
  (forall b, In b (keys (p_blocks p)) -> bs_subset (p_state p b) = None) ->
  (forall b n, In (b, n) (p_blocks p) ->
     forall m z, find_key b masks = Some m -> In z m -> (0 <= z < Z.of_nat n)%Z) ->
  exists p', addSubsetParameterization p masks = Ok p' /\ p_blocks p' = p_blocks p /\
    (forall b n i, In (b, n) (p_blocks p) -> (i < n)%nat ->
       (frozen p' b i <-> frozen p b i \/ listed masks b i)).
Proof. exact subset_exact. Qed.
Print Assumptions C14_listed_exactly_frozen.

(** Full property: the call throws whenever a listed index is outside its block. Proved for
    masks without negative entries (and then it throws only if so). *)
Theorem C14_out_of_range_throws_partial :
  forall p masks, NoDup (keys (p_blocks p)) ->
  (forall b, In b (keys (p_blocks p)) -> bs_subset (p_state p b) = None) ->
  (forall b n m z, In (b, n) (p_blocks p) -> find_key b masks = Some m -> In z m -> (0 <= z)%Z) ->
  (addSubsetParameterization p masks = Throw OptimizationException <->
   exists b n m z, In (b, n) (p_blocks p) /\ find_key b masks = Some m /\ In z m /\ (Z.of_nat n <= z)%Z).
Proof. exact subset_throws_iff. Qed.
Print Assumptions C14_out_of_range_throws_partial.

(** With a negative index the call can succeed and freeze an element that is not listed. *)
Theorem C14_out_of_range_throws_refuted :
  exists p masks p', NoDup (keys (p_blocks p)) /\
    (forall b, In b (keys (p_blocks p)) -> bs_subset (p_state p b) = None) /\
    (exists b n m z, In (b, n) (p_blocks p) /\ find_key b masks = Some m /\ In z m /\
       ~ (0 <= z < Z.of_nat n)%Z) /\
    addSubsetParameterization p masks = Ok p' /\
    exists b n i, In (b, n) (p_blocks p) /\ (i < n)%nat /\
      ~ listed masks b i /\ ~ frozen p b i /\ frozen p' b i.
Proof. exact negative_index_accepted. Qed.
Print Assumptions C14_out_of_range_throws_refuted.

(** Or abort the process. *)
Theorem C14_negative_index_aborts :
  exists p masks, NoDup (keys (p_blocks p)) /\
    (forall b, In b (keys (p_blocks p)) -> bs_subset (p_state p b) = None) /\
    addSubsetParameterization p masks = UB.
Proof. exact negative_index_aborts. Qed.
Print Assumptions C14_negative_index_aborts.

(** Two blocks, one partly masked with a repeated index, one masked completely. *)
Example C14_example :
  let p := Problem [(3, 4); (5, 2)] (fun _ => fresh_block) in
  let masks := [(3, [2; 0; 2]%Z); (5, [1; 0]%Z)] in
  (forall b n, In (b, n) (p_blocks p) ->
     forall m z, find_key b masks = Some m -> In z m -> (0 <= z < Z.of_nat n)%Z) /\
  exists p', addSubsetParameterization p masks = Ok p' /\
    p_state p' 3 = BS false (Some [0; 2]%Z) /\ p_state p' 5 = BS true None.
Proof. exact ex_masks. Qed.
