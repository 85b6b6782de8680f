(** Computations in [double] and [float] as the machine does them (Base/Float.v). Everywhere else doubles are real numbers. *)
From Coq Require Import ZArith List.
From Verif.Base Require Import Float.
Import ListNotations.

Record dvec3 := DV3 { dx : f64; dy : f64; dz : f64 }.
Record dvec2 := DV2 { du : f64; dv : f64 }.
(** rct_optimizations/types.h:13-28, CameraIntrinsics *)
Record dintrinsics := DIntr { dfx : f64; dfy : f64; dcx : f64; dcy : f64 }.

(** ceres_math_utilities.h:36-61, projectPoint for arrays, with T = double *)
Definition projectPoint64 (intr : dintrinsics) (point : dvec3) : dvec2 :=
  let xp1 := dx point in
  let yp1 := dy point in
  let zp1 := dz point in
  let '(xp, yp) := if deq zp1 (dint 0) then (xp1, yp1) else (ddiv xp1 zp1, ddiv yp1 zp1) in
  DV2 (dadd (dmul (dfx intr) xp) (dcx intr)) (dadd (dmul (dfy intr) yp) (dcy intr)).

(** 1.e-10, rounded to double *)
Definition d1em10 : f64 := dnum 7737125245533627 (-86).
(** Eigen: sum of three products. The order of the two additions depends on version and flags: [left] says which. *)
Definition dsum3 (left : bool) (a b c : f64) : f64 := if left then dadd (dadd a b) c else dadd a (dadd b c).
(** ceres_math_utilities.h:63-91, projectPoint for Eigen vectors, with T = double. The test is
    [std::abs(point.z() - T(0.0) > T(1.e-10))]: the absolute value is taken of the comparison. *)
Definition projectPointEigen64 (left : bool) (intr : dintrinsics) (point : dvec3) : dvec2 :=
  let '(x, y) := if dlt d1em10 (dsub (dz point) (dint 0)) then (ddiv (dx point) (dz point), ddiv (dy point) (dz point))
                 else (dx point, dy point) in
  DV2 (dsum3 left (dmul (dfx intr) x) (dmul (dint 0) y) (dmul (dcx intr) (dint 1)))
      (dsum3 left (dmul (dint 0) x) (dmul (dfy intr) y) (dmul (dcy intr) (dint 1))).

(** rct_image_tools circle_detector.h:10-17, the parameters for the thresholds *)
Record dthresholds := DThr { d_minThreshold : f32; d_maxThreshold : f32; d_nThresholds : nat }.
(** circle_detector.cpp:245-257, the i-th threshold. The difference of the two floats is a float. A whole number above
    2^53 is rounded when it becomes a double. *)
Definition threshold64 (params : dthresholds) (i : nat) : f64 :=
  let threshold_range := widen (fsub (d_maxThreshold params) (d_minThreshold params)) in
  if Nat.ltb (d_nThresholds params) 2
  then dadd (widen (d_minThreshold params)) (ddiv threshold_range (dint 2))
  else dadd (widen (d_minThreshold params))
            (dmul (ddiv (dint (Z.of_nat i)) (dint (Z.of_nat (d_nThresholds params - 1)))) threshold_range).

(** Boost.Accumulators with mean and variance as in Model/Accumulator.v, in double precision. Counts become doubles. *)
Record daccumulator := DAcc { dacc_count : nat; dacc_sum : f64; dacc_immediate_mean : f64; dacc_variance : f64 }.
Definition dacc_empty : daccumulator := DAcc 0 (dint 0) (dint 0) (dint 0).
Definition dacc_push (a : daccumulator) (x : f64) : daccumulator :=
  let cnt := S (dacc_count a) in
  let s := dadd (dacc_sum a) x in
  let mean := ddiv (dadd (dmul (dacc_immediate_mean a) (dint (Z.of_nat (cnt - 1)))) x) (dint (Z.of_nat cnt)) in
  let var :=
    if Nat.ltb 1 cnt then
      let tmp := dsub x mean in
      dadd (ddiv (dmul (dacc_variance a) (dint (Z.of_nat (cnt - 1)))) (dint (Z.of_nat cnt)))
           (ddiv (dmul tmp tmp) (dint (Z.of_nat (cnt - 1))))
    else dacc_variance a in
  DAcc cnt s mean var.
(** [ba::mean] *)
Definition dacc_mean (a : daccumulator) : f64 := ddiv (dacc_sum a) (dint (Z.of_nat (dacc_count a))).
(** noise_qualification.cpp:105-106, camera_intrinsic_calibration_validation.cpp:108-109: [ba::mean] and
    [std::sqrt(ba::variance(...))] of the samples *)
Definition mean64 (samples : list f64) : f64 := dacc_mean (fold_left dacc_push samples dacc_empty).
Definition stdev64 (samples : list f64) : f64 := dsqrt (dacc_variance (fold_left dacc_push samples dacc_empty)).

(** covariance_analysis.cpp:15-34 in double precision: an element of the diagonal, and one off the diagonal, from the covariance
    of i and j and those on the diagonal *)
Definition correlation_diagonal64 (c_ii : f64) : f64 := dsqrt (dabs c_ii).
Definition correlation64 (c_ij c_ii c_jj : f64) : f64 :=
  let sigma_i := dsqrt (dabs c_ii) in
  let sigma_j := dsqrt (dabs c_jj) in
  let epsilon := dnum 1 (-52) in
  let sigma_i := if dlt sigma_i epsilon then dint 1 else sigma_i in
  let sigma_j := if dlt sigma_j epsilon then dint 1 else sigma_j in
  ddiv c_ij (dmul sigma_i sigma_j).

(** modified_circle_grid_target.cpp:41-60, createPoints. The factors are size_t, below 2^32, and become doubles. rows + 1 and rows * cols
    are computed with 32 bits; the model is of targets where they fit. *)
Definition createPoints64 (rows cols : nat) (spacing : f64) : list dvec3 :=
  flat_map (fun i =>
      let y := dmul (dint (Z.of_nat (rows - i))) spacing in
      map (fun j => let x := dmul (dint (Z.of_nat j)) spacing in DV3 x y (dint 0)) (seq 0 cols))
    (seq 1 rows).
(** modified_circle_grid_target.cpp:10-18, operator==; the epsilon of double is 2^-52. *)
Definition circle_grid_eqb64 (rows cols : nat) (spacing : f64) (rows' cols' : nat) (spacing' : f64) : bool :=
  (Nat.eqb rows rows' && Nat.eqb cols cols' && dlt (dabs (dsub spacing spacing')) (dnum 1 (-52)))%bool.
