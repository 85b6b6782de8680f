(** C127: the points of a circle grid in double precision. [layout], [grid_point]: Spec/TargetSpec.v; [nearest_double], [countable_target],
    [ordinary_spacing], [unit64]: Spec/FloatSpec.v. *)
From Coq Require Import ZArith Reals List.
From Verif.Base Require Import Geom Float.
From Verif.Model Require Import FloatCode.
From Verif.Spec Require Import TargetSpec FloatSpec.
From Verif.Proofs Require FloatTarget.
Import ListNotations.
Local Open Scope R_scope.

(** All coordinates are the doubles nearest to the exact ones, with a relative error of 2^-53 at most. Points of a column have
    exactly the same x, points of a row the same y, and all lie in the plane z = 0. *)
Theorem C127_nearest :
  forall rows cols s,
  countable_target rows cols -> ordinary_spacing s ->
  exists x y : nat -> f64,
    map point_of (createPoints64 rows cols s) = layout rows cols (fun r c => V3 (dval (x c)) (dval (y r)) 0) /\
    (forall p, In p (createPoints64 rows cols s) -> finite_point p) /\
    (forall c, (c < cols)%nat -> nearest_double (x c) (INR c * dval s) /\
       Rabs (dval (x c) - INR c * dval s) <= unit64 * (INR c * Rabs (dval s))) /\
    (forall r, (r < rows)%nat -> nearest_double (y r) (INR (rows - 1 - r) * dval s) /\
       Rabs (dval (y r) - INR (rows - 1 - r) * dval s) <= unit64 * (INR (rows - 1 - r) * Rabs (dval s))).
Proof. exact FloatTarget.points64. Qed.
Print Assumptions C127_nearest.

(** Seven rows of five circles, one centimetre apart. *)
Example C127_example :
  countable_target 7 5 /\ ordinary_spacing FloatTarget.centimetre /\ dval FloatTarget.centimetre <> 0 /\ Rabs (dval FloatTarget.centimetre - 1 / 100) <= two_to (-59) /\
  List.length (createPoints64 7 5 FloatTarget.centimetre) = 35%nat.
Proof. exact FloatTarget.spacing_example. Qed.

(** No two points of a target coincide, unless the spacing is zero. *)
Theorem C127_distinct :
  forall rows cols s,
  countable_target rows cols -> ordinary_spacing s -> dval s <> 0 ->
  NoDup (map point_of (createPoints64 rows cols s)).
Proof. exact FloatTarget.points64_distinct. Qed.
Print Assumptions C127_distinct.

(** The steps between any two points are the steps of the grid up to 2^-20 of the spacing, less than a millionth. *)
Theorem C127_steps :
  forall rows cols s r c r' c' p q,
  countable_target rows cols -> ordinary_spacing s ->
  (r < rows)%nat -> (c < cols)%nat -> (r' < rows)%nat -> (c' < cols)%nat ->
  nth_error (createPoints64 rows cols s) (r * cols + c) = Some p -> nth_error (createPoints64 rows cols s) (r' * cols + c') = Some q ->
  Rabs (dval (dx q) - dval (dx p) - (INR c' - INR c) * dval s) <= two_to (-20) * Rabs (dval s) /\
  Rabs (dval (dy q) - dval (dy p) - (INR r - INR r') * dval s) <= two_to (-20) * Rabs (dval s) /\
  (c' = c -> dx q = dx p) /\ (r' = r -> dy q = dy p).
Proof. exact FloatTarget.points64_steps. Qed.
Print Assumptions C127_steps.

(** Spacings of at most 21 binary digits give exactly the points of the grid. *)
Theorem C127_exact :
  forall rows cols s m e,
  countable_target rows cols -> ordinary_spacing s ->
  (Z.abs m <= 2 ^ 21)%Z -> (-1074 <= e)%Z -> dval s = IZR m * two_to e ->
  map point_of (createPoints64 rows cols s) = layout rows cols (grid_point rows (dval s)).
Proof. exact FloatTarget.points64_exact. Qed.
Print Assumptions C127_exact.

(** A spacing of a quarter. *)
Example C127_exact_example :
  countable_target 7 5 /\ ordinary_spacing FloatTarget.quarter /\ dval FloatTarget.quarter = IZR 1 * two_to (-2).
Proof. exact FloatTarget.quarter_example. Qed.

(** Targets that compare equal have the same size, and spacings less than 2^-52 apart. *)
Theorem C127_equal_close :
  forall rows cols s rows' cols' s',
  ordinary_spacing s -> ordinary_spacing s' ->
  circle_grid_eqb64 rows cols s rows' cols' s' = true -> rows = rows' /\ cols = cols' /\ Rabs (dval s - dval s') < two_to (-52).
Proof. exact FloatTarget.eqb64_close. Qed.
Print Assumptions C127_equal_close.

(** Conversely up to the rounding of the difference. *)
Theorem C127_close_equal :
  forall rows cols s s',
  ordinary_spacing s -> ordinary_spacing s' ->
  Rabs (dval s - dval s') <= two_to (-52) - two_to (-105) -> circle_grid_eqb64 rows cols s rows cols s' = true.
Proof. exact FloatTarget.eqb64_yes. Qed.
Print Assumptions C127_close_equal.

(** Spacings of one or more compare equal only if they are the same. *)
Theorem C127_equal_large :
  forall rows cols s rows' cols' s',
  ordinary_spacing s -> ordinary_spacing s' -> 1 <= dval s -> 1 <= dval s' ->
  circle_grid_eqb64 rows cols s rows' cols' s' = true <-> rows = rows' /\ cols = cols' /\ dval s = dval s'.
Proof. exact FloatTarget.eqb64_large. Qed.
Print Assumptions C127_equal_large.

(** Two targets with different, tiny spacings compare equal; targets with the spacings 1 and 1.5 do not. *)
Example C127_equal_example :
  (ordinary_spacing (dnum 1 (-60)) /\ ordinary_spacing (dnum 1 (-70)) /\ Rabs (dval (dnum 1 (-60)) - dval (dnum 1 (-70))) <= two_to (-52) - two_to (-105) /\
   circle_grid_eqb64 7 5 (dnum 1 (-60)) 7 5 (dnum 1 (-70)) = true) /\
  (ordinary_spacing (dnum 1 0) /\ ordinary_spacing (dnum 3 (-1)) /\ 1 <= dval (dnum 1 0) /\ 1 <= dval (dnum 3 (-1)) /\
   circle_grid_eqb64 7 5 (dnum 1 0) 7 5 (dnum 3 (-1)) = false).
Proof. exact FloatTarget.equal_example. Qed.
