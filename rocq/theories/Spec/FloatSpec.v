(** Vocabulary for computations in double precision. *)
From Coq Require Import ZArith Reals List Bool.
From Flocq Require Import Core.
From Verif.Base Require Import Geom Float.
From Verif.Model Require Import Pose FloatCode.
Import ListNotations.
Local Open Scope R_scope.

(** A power of two *)
Definition two_to (k : Z) : R := bpow radix2 k.
(** The relative error of one rounding to double, and to float *)
Definition unit64 : R := two_to (-53).
Definition unit32 : R := two_to (-24).
(** The smallest positive double *)
Definition least64 : R := two_to (-1074).

(** The values of doubles as real numbers *)
Definition point_of (p : dvec3) : vec3 := V3 (dval (dx p)) (dval (dy p)) (dval (dz p)).
Definition pixel_of (q : dvec2) : vec2 := V2 (dval (du q)) (dval (dv q)).
Definition intrinsics_of (k : dintrinsics) : intrinsics := Intr (dval (dfx k)) (dval (dfy k)) (dval (dcx k)) (dval (dcy k)).
(** No infinities and no NaN *)
Definition finite_point (p : dvec3) : Prop := dfin (dx p) = true /\ dfin (dy p) = true /\ dfin (dz p) = true.
Definition finite_pixel (q : dvec2) : Prop := dfin (du q) = true /\ dfin (dv q) = true.
Definition finite_intrinsics (k : dintrinsics) : Prop :=
  dfin (dfx k) = true /\ dfin (dfy k) = true /\ dfin (dcx k) = true /\ dfin (dcy k) = true.
(** Far from overflow: intrinsics and the direction of the point are below 2^400. *)
Definition moderate (k : intrinsics) (p : vec3) : Prop :=
  Rabs (fx k) <= two_to 400 /\ Rabs (fy k) <= two_to 400 /\ Rabs (cx k) <= two_to 400 /\ Rabs (cy k) <= two_to 400 /\
  Rabs (vx p / vz p) <= two_to 400 /\ Rabs (vy p / vz p) <= two_to 400.

(** Float parameters for thresholds: from a lower to an upper bound, far from overflow, and at least two of them (at most 2^52) *)
Definition threshold_bounds (p : dthresholds) : Prop :=
  ffin (d_minThreshold p) = true /\ ffin (d_maxThreshold p) = true /\
  fval (d_minThreshold p) <= fval (d_maxThreshold p) /\
  Rabs (fval (d_minThreshold p)) <= two_to 100 /\ Rabs (fval (d_maxThreshold p)) <= two_to 100.
Definition many_thresholds (p : dthresholds) : Prop := (2 <= Z.of_nat (d_nThresholds p) <= 2 ^ 52)%Z.
(** The i-th of n evenly spaced numbers from a to b *)
Definition evenly (a b : R) (n i : nat) : R := a + INR i / INR (n - 1) * (b - a).

(** Numbers of size at most M that differ by at most D *)
Definition spread (M D : R) (l : list R) : Prop :=
  (forall x, In x l -> Rabs x <= M) /\ (forall x y, In x l -> In y l -> Rabs (x - y) <= D).
(** Samples whose spread is well above the resolution of doubles, far from over- and underflow *)
Definition resolved (M D : R) (samples : list f64) : Prop :=
  (forall x, In x samples -> dfin x = true) /\ spread M D (map dval samples) /\
  two_to (-500) <= D <= 2 * M /\ M <= two_to 400 /\ 1024 * INR (length samples) * unit64 * M <= D.

(** No double is nearer to x. *)
Definition nearest_double (d : f64) (x : R) : Prop :=
  dfin d = true /\ forall other : f64, dfin other = true -> Rabs (dval d - x) <= Rabs (dval other - x).
(** A spacing that is a number, and not so large that a coordinate of the target overflows. *)
Definition ordinary_spacing (s : f64) : Prop := dfin s = true /\ Rabs (dval s) <= two_to 990.
(** A target whose rows, columns and points can be counted with 32 bits. *)
Definition countable_target (rows cols : nat) : Prop :=
  (Z.of_nat (rows + 1) < 2 ^ 32 /\ Z.of_nat cols < 2 ^ 32 /\ Z.of_nat (rows * cols) < 2 ^ 32)%Z.
