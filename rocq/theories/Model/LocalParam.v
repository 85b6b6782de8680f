(** Local parameterizations:
    rct_optimizations/include/rct_optimizations/local_parameterization.h *)
From Coq Require Import Reals ZArith List.
From Verif.Base Require Import Geom Outcome Matrix.
Import ListNotations.
Local Open Scope R_scope.

(** local_parameterization.h:51-77, EigenQuaternionPlus. [x] and the result are stored as
    (x, y, z, w); the product is q_delta * x. *)
Definition quaternion_plus (x : quat) (delta : vec3) : quat :=
  let norm_delta := sqrt (vx delta * vx delta + vy delta * vy delta + vz delta * vz delta) in
  let q_delta :=
    if Rlt_dec 0 norm_delta then
      let sin_delta_by_delta := sin norm_delta / norm_delta in
      Q (cos norm_delta) (sin_delta_by_delta * vx delta) (sin_delta_by_delta * vy delta)
        (sin_delta_by_delta * vz delta)
    else Q 1 (vx delta) (vy delta) (vz delta) in
  qmul q_delta x.

(** State of a ceres::Problem parameter block: held constant as a whole
    (SetParameterBlockConstant), and the constant indices of its SubsetParameterization. *)
Record block_state := BS { bs_constant : bool; bs_subset : option (list Z) }.
Definition fresh_block : block_state := BS false None.

(** A ceres::Problem: its blocks in GetParameterBlocks order with their sizes, and their
    states. *)
Record problem := Problem {
  p_blocks : list (nat * nat);
  p_state : nat -> block_state }.
Definition set_state (p : problem) (b : nat) (s : block_state) : problem :=
  Problem (p_blocks p) (fun k => if Nat.eqb k b then s else p_state p k).

(** ceres::Problem::SetParameterBlockConstant *)
Definition SetParameterBlockConstant (p : problem) (b : nat) : res problem :=
  match find_key b (p_blocks p) with
  | None => UB     (* CHECK: parameter block not found *)
  | Some _ => Ok (set_state p b (BS true (bs_subset (p_state p b))))
  end.
(** ceres::Problem::IsParameterBlockConstant *)
Definition IsParameterBlockConstant (p : problem) (b : nat) : res bool :=
  match find_key b (p_blocks p) with
  | None => UB     (* CHECK: parameter block not found *)
  | Some _ => Ok (bs_constant (p_state p b))
  end.
(** ceres::SubsetParameterization's constructor and ceres::Problem::SetParameterization:
    CHECKs that the (sorted, unique) indices lie in [0, size), and that the block has no
    parameterization yet. *)
Definition SetSubsetParameterization (p : problem) (b size : nat) (mask : list Z) : res problem :=
  if forallb (fun z => andb (0 <=? z)%Z (z <? Z.of_nat size)%Z) mask then
    match bs_subset (p_state p b) with
    | Some _ => UB
    | None => Ok (set_state p b (BS (bs_constant (p_state p b)) (Some mask)))
    end
  else UB.

(** std::sort on vector<int>: the sorted rearrangement is unique, so any algorithm will do *)
Fixpoint insert_z (z : Z) (l : list Z) : list Z :=
  match l with
  | [] => [z]
  | a :: r => if (z <=? a)%Z then z :: l else a :: insert_z z r
  end.
Definition sort_z (l : list Z) : list Z := fold_right insert_z [] l.
(** std::unique + erase: drops elements equal to their predecessor *)
Fixpoint unique_z (l : list Z) : list Z :=
  match l with
  | a :: ((b :: _) as r) => if (a =? b)%Z then unique_z r else a :: unique_z r
  | _ => l
  end.
(** *std::max_element on a non-empty range *)
Definition max_z (l : list Z) : Z :=
  match l with
  | [] => 0%Z   (* not reached *)
  | a :: r => fold_left Z.max r a
  end.
(** static_cast<std::size_t>(int), 64-bit size_t *)
Definition size_t_of_int (z : Z) : Z := if (z <? 0)%Z then (2 ^ 64 + z)%Z else z.

(** local_parameterization.h:96-133, loop body for one parameter block *)
Definition subset_step (param_masks : amap (list Z)) (p : problem) (blk : nat * nat) : res problem :=
  let '(b, block_size) := blk in
  match find_key b param_masks with
  | None => Ok p
  | Some mask =>
      if Nat.ltb 0 (length mask) then
        let mask := unique_z (sort_z mask) in
        if (Z.of_nat block_size <=? size_t_of_int (max_z mask))%Z
        then Throw OptimizationException
        else if Nat.leb block_size (length mask)
        then SetParameterBlockConstant p b
        else SetSubsetParameterization p b block_size mask
      else Ok p
  end.

(** local_parameterization.h:88-135, addSubsetParameterization *)
Definition addSubsetParameterization (p : problem) (param_masks : amap (list Z)) : res problem :=
  match param_masks with
  | [] => Ok p
  | _ => foldM (subset_step param_masks) (p_blocks p) p
  end.
