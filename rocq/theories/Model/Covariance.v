(** Covariance post-processing: rct_optimizations/src/rct_optimizations/covariance_analysis.cpp
    and rct_optimizations/include/rct_optimizations/covariance_types.h *)
From Coq Require Import Reals Arith ZArith String DecimalString List.
From Verif.Base Require Import Geom Outcome Matrix.
Import ListNotations.
Local Open Scope R_scope.

(** covariance_analysis.cpp:19-34, body of the inner loop. [sigma_i] is declared
    outside the loop over j, so the assignment at line 28 persists to later j. *)
Definition corr_step (cov : matrix) (i : nat) (st : R * matrix) (j : nat) : R * matrix :=
  let '(sigma_i, out) := st in
  let sigma_j := sqrt (Rabs (ent cov j j)) in
  if Nat.eqb i j
  then (sigma_i, set_ent out i j sigma_i)
  else
    let sigma_i := if Rlt_dec sigma_i DBL_EPS then 1 else sigma_i in
    let sigma_j := if Rlt_dec sigma_j DBL_EPS then 1 else sigma_j in
    (sigma_i, set_ent out i j (ent cov i j / (sigma_i * sigma_j))).

(** covariance_analysis.cpp:15-35, body of the outer loop *)
Definition corr_row (cov : matrix) (out : matrix) (i : nat) : matrix :=
  let sigma_i := sqrt (Rabs (ent cov i i)) in
  snd (fold_left (corr_step cov i) (seq 0 (rows cov)) (sigma_i, out)).

(** covariance_analysis.cpp:6-38, computeCorrelationsFromCovariance. [uninit] is the
    content of the freshly allocated, uninitialised output matrix (line 13). *)
Definition computeCorrelationsFromCovariance (uninit : nat -> nat -> R) (cov : matrix) : res matrix :=
  if negb (Nat.eqb (rows cov) (cols cov)) then Throw CovarianceException
  else
    let num_vars := rows cov in
    Ok (fold_left (corr_row cov) (seq 0 num_vars) (Mat num_vars num_vars uninit)).

(** covariance_types.h:15-33, NamedParam *)
Record named_param := NP { np_names : string * string; np_value : R }.

(** covariance_types.h:40-51, CovarianceResult *)
Record cov_result := CR {
  standard_deviations : list named_param;
  correlation_coeffs : list named_param;
  covariances : list named_param;
  covariance_matrix : matrix;
  correlation_matrix : matrix }.

(** covariance_analysis.cpp:63-86, body of the inner loop of computeCovarianceResults;
    the three lists are the vectors being pushed to. parameter_names[] is unchecked. *)
Definition cov_results_step (corr cov : matrix) (names : list string) (row : nat)
  (st : list named_param * list named_param * list named_param) (col : nat)
  : res (list named_param * list named_param * list named_param) :=
  let '(sds, ccs, cvs) := st in
  let value := ent corr row col in
  if Nat.eqb row col then
    do n <- idx names row;
    Ok (sds ++ [NP (n, EmptyString) value], ccs, cvs)%list
  else
    do nr <- idx names row;
    do nc <- idx names col;
    Ok (sds, ccs ++ [NP (nr, nc) value], cvs ++ [NP (nr, nc) (ent cov row col)])%list.

(** covariance_analysis.cpp:40-91, computeCovarianceResults. [col_start] (line 60, 87)
    equals [row] at the start of each iteration. *)
Definition computeCovarianceResults (uninit : nat -> nat -> R) (cov : matrix) (names : list string)
  : res cov_result :=
  do corr <- computeCorrelationsFromCovariance uninit cov;
  do st <- foldM (fun st_cs row =>
                    let '(st, col_start) := st_cs in
                    do st' <- foldM (cov_results_step corr cov names row)
                                    (seq col_start (rows corr - col_start)) st;
                    Ok (st', S col_start))
                 (seq 0 (rows corr)) (([], [], []), 0%nat);
  let '((sds, ccs, cvs), _) := st in
  Ok (CR sds ccs cvs cov corr).

(** What covariance analysis needs from ceres::Problem and ceres::Covariance.
    [pb_blocks]: GetParameterBlocks; [pb_size]: ParameterBlockSize ([None]: the block is
    not in the problem, a failed CHECK);
    [pb_compute]: Covariance::Compute's return value;
    [pb_get]: GetCovarianceMatrix's return value;
    [pb_cov b i c j]: the covariance of element i of block b and element j of block c. *)
Record cov_problem := CP {
  pb_blocks : list nat;
  pb_size : nat -> option nat;
  pb_compute : list nat -> bool;
  pb_get : list nat -> bool;
  pb_cov : nat -> nat -> nat -> nat -> R }.

Definition blockSize (pb : cov_problem) (b : nat) : res nat :=
  match pb_size pb b with Some n => Ok n | None => UB end.

(** Ceres' documented layout of GetCovarianceMatrix: rows and columns are the elements
    of the blocks in the given order, stored row-major. *)
Definition ceres_elems (pb : cov_problem) (blocks : list nat) : list (nat * nat) :=
  flat_map (fun b => map (fun i => (b, i))
                         (seq 0 (match pb_size pb b with Some n => n | None => 0 end))) blocks.
Definition ceres_cov_data (pb : cov_problem) (blocks : list nat) (k : nat) : R :=
  let el := ceres_elems pb blocks in
  let n := length el in
  let '(b, i) := nth (k / n) el (0%nat, 0%nat) in
  let '(c, j) := nth (k mod n) el (0%nat, 0%nat) in
  pb_cov pb b i c j.

(** covariance_analysis.cpp:174: std::find of a size_t in a vector<int>. The int is
    converted to size_t, so a negative entry never equals an index below 2^31. *)
Definition in_mask (masks : list Z) (i : nat) : bool :=
  existsb (fun m => Z.eqb m (Z.of_nat i)) masks.

(** covariance_analysis.cpp:172-179, inner loop for one block *)
Definition tangent_step (label : list string) (masks : list Z) (offset : nat)
  (st : list nat * list string) (i : nat) : res (list nat * list string) :=
  let '(indices, labels) := st in
  if in_mask masks i then Ok (indices, labels)
  else do l <- at_ label i; Ok (indices ++ [(offset + i)%nat], labels ++ [l])%list.

(** covariance_analysis.cpp:154-182, loop body over the selected blocks *)
Definition block_step (pb : cov_problem) (param_names : amap (list string)) (param_masks : amap (list Z))
  (st : nat * (list nat * list string)) (b : nat) : res (nat * (list nat * list string)) :=
  let '(n_params_in_selected, tan) := st in
  do block_size <- blockSize pb b;
  match find_key b param_names with
  | None => Throw OutOfRange
  | Some label =>
      if negb (Nat.eqb block_size (length label)) then Throw CovarianceException
      else
        let masks := match find_key b param_masks with Some m => m | None => [] end in
        do tan' <- foldM (tangent_step label masks n_params_in_selected) (seq 0 block_size) tan;
        Ok ((n_params_in_selected + block_size)%nat, tan')
  end.

(** covariance_analysis.cpp:140-208, computeCovariance with explicit blocks and names.
    cov_matrix is column-major while Ceres fills it row-major (line 191), so its
    entry (r, c) is element c*n + r of the data. *)
Definition computeCovariance (uninit : nat -> nat -> R) (pb : cov_problem) (blocks : list nat)
  (param_names : amap (list string)) (param_masks : amap (list Z)) : res cov_result :=
  if negb (Nat.eqb (length blocks) (length param_names)) then Throw CovarianceException
  else
    do st <- foldM (block_step pb param_names param_masks) blocks (0%nat, ([], []));
    let '(n, (indices, labels)) := st in
    if negb (pb_compute pb blocks) then Throw CovarianceException
    else if negb (pb_get pb blocks) then Throw CovarianceException
    else
      let data := ceres_cov_data pb blocks in
      let cov_matrix := fun r c => data (c * n + r)%nat in
      let tangent := Mat (length labels) (length labels)
                         (fun r c => cov_matrix (nth r indices 0%nat) (nth c indices 0%nat)) in
      computeCovarianceResults uninit tangent labels.

(** covariance_analysis.cpp:126-138, all blocks of the problem, explicit names *)
Definition computeCovariance_names (uninit : nat -> nat -> R) (pb : cov_problem)
  (param_names : amap (list string)) (param_masks : amap (list Z)) : res cov_result :=
  computeCovariance uninit pb (pb_blocks pb) param_names param_masks.

(** std::to_string on a non-negative integer *)
Definition to_string (n : nat) : string := NilZero.string_of_uint (Nat.to_uint n).

(** covariance_analysis.cpp:118 *)
Definition dummy_name (block_index i : nat) : string :=
  String.append "block" (String.append (to_string block_index)
    (String.append "_element" (to_string i))).

(** covariance_analysis.cpp:105-124, explicit blocks, generated names *)
Definition computeCovariance_blocks (uninit : nat -> nat -> R) (pb : cov_problem) (blocks : list nat)
  (param_masks : amap (list Z)) : res cov_result :=
  do names <- foldM (fun acc kb =>
                let '(block_index, b) := kb in
                do size <- blockSize pb b;
                Ok (insert_key b (map (dummy_name block_index) (seq 0 size)) acc))
              (combine (seq 0 (length blocks)) blocks) [];
  computeCovariance uninit pb blocks names param_masks.

(** covariance_analysis.cpp:93-103, all blocks, generated names *)
Definition computeCovariance_all (uninit : nat -> nat -> R) (pb : cov_problem)
  (param_masks : amap (list Z)) : res cov_result :=
  computeCovariance_blocks uninit pb (pb_blocks pb) param_masks.

(** covariance_types.h:58-68, getCorrelationCoeffOutsideThreshold. std::sort is a
    parameter: a function of the comparator and the range. [cmp a b] stands for the
    lambda of line 66, abs(a.value) > abs(b.value). *)
Definition cmp_abs (a b : named_param) : bool :=
  if Rlt_dec (Rabs (np_value b)) (Rabs (np_value a)) then true else false.
Definition getCorrelationCoeffOutsideThreshold
  (std_sort : (named_param -> named_param -> bool) -> list named_param -> list named_param)
  (r : cov_result) (threshold : R) : list named_param :=
  let out := fold_left (fun out corr =>
                          if Rlt_dec threshold (Rabs (np_value corr)) then (out ++ [corr])%list else out)
                       (correlation_coeffs r) [] in
  std_sort cmp_abs out.
