(** What a target finder configuration says. *)
From Coq Require Import Reals ZArith String List.
From Verif.Base Require Import Geom.
From Verif.Model Require Import Yaml CircleDetector Targets.
From Verif.Spec Require Import YamlSpec.
Local Open Scope R_scope.
Local Open Scope string_scope.

(** A whole number of 32 bits. *)
Definition int_at (key : string) (n : yaml) (z : Z) : Prop := has key n (YInt z) /\ (- 2 ^ 31 <= z < 2 ^ 31)%Z.
(** A whole number of 64 bits; a negative one counts down from 2^64. *)
Definition size_at (key : string) (n : yaml) (c : nat) : Prop :=
  exists z, has key n (YInt z) /\ (0 <= z < 2 ^ 64 /\ Z.of_nat c = z \/ - 2 ^ 64 < z < 0 /\ Z.of_nat c = z + 2 ^ 64)%Z.
Definition bool_at (key : string) (n : yaml) (b : bool) : Prop := has key n (YBool b).
(** The colour, modulo 256. *)
Definition color_at (key : string) (n : yaml) (c : nat) : Prop := exists z, int_at key n z /\ Z.of_nat c = (z mod 256)%Z.

(** All parameters of the circle detector. *)
Definition says_detector (n : yaml) (p : circle_params) : Prop :=
  size_at "nThresholds" n (nThresholds p) /\ number_at "minThreshold" n (minThreshold p) /\ number_at "maxThreshold" n (maxThreshold p) /\
  size_at "minRepeatability" n (minRepeatability p) /\ number_at "circleInclusionRadius" n (circleInclusionRadius p) /\
  number_at "maxRadiusDiff" n (maxRadiusDiff p) /\ number_at "maxAverageEllipseError" n (maxAverageEllipseError p) /\
  bool_at "filterByColor" n (filterByColor p) /\ color_at "circleColor" n (circleColor p) /\
  bool_at "filterByArea" n (filterByArea p) /\ number_at "minArea" n (minArea p) /\ number_at "maxArea" n (maxArea p) /\
  bool_at "filterByCircularity" n (filterByCircularity p) /\ number_at "minCircularity" n (minCircularity p) /\ number_at "maxCircularity" n (maxCircularity p) /\
  bool_at "filterByInertia" n (filterByInertia p) /\ number_at "minInertiaRatio" n (minInertiaRatio p) /\ number_at "maxInertiaRatio" n (maxInertiaRatio p) /\
  bool_at "filterByConvexity" n (filterByConvexity p) /\ number_at "minConvexity" n (minConvexity p) /\ number_at "maxConvexity" n (maxConvexity p).
(** The parameters of a detector that was given none. The largest values of ratios are the largest float,
    (2^24 - 1) 2^104. *)
Definition default_detector (p : circle_params) : Prop :=
  minThreshold p = 50 /\ maxThreshold p = 220 /\ nThresholds p = 18%nat /\ minRepeatability p = 3%nat /\
  circleInclusionRadius p = 5 /\ maxRadiusDiff p = 5 /\ maxAverageEllipseError p = 2 / 100 /\
  filterByColor p = true /\ circleColor p = 0%nat /\ filterByArea p = true /\ minArea p = 25 /\ maxArea p = 5000 /\
  filterByCircularity p = false /\ minCircularity p = 8 / 10 /\ maxCircularity p = (2 ^ 24 - 1) * 2 ^ 104 /\
  filterByInertia p = false /\ minInertiaRatio p = 3 / 10 /\ maxInertiaRatio p = (2 ^ 24 - 1) * 2 ^ 104 /\
  filterByConvexity p = true /\ minConvexity p = 95 / 100 /\ maxConvexity p = (2 ^ 24 - 1) * 2 ^ 104.
(** The detector parameters of a configuration: the written ones if they are complete, else the default ones. *)
Definition detector_of (config : yaml) (p : circle_params) : Prop :=
  (exists n, has "circle_detector_params" config n /\ says_detector n p) \/
  default_detector p /\ ~ exists n q, has "circle_detector_params" config n /\ says_detector n q.
(** The dimensions of a circle grid. *)
Definition says_circle_grid (config : yaml) (rows cols : Z) (spacing : R) : Prop :=
  int_at "rows" config rows /\ int_at "cols" config cols /\ number_at "spacing" config spacing.
(** The dimensions of a ChArUco board. *)
Definition says_charuco (config : yaml) (rows cols : Z) (chessboard_dim aruco_marker_dim : R) (dictionary : Z) : Prop :=
  int_at "cols" config cols /\ int_at "rows" config rows /\ number_at "chessboard_dim" config chessboard_dim /\
  number_at "aruco_marker_dim" config aruco_marker_dim /\ int_at "dictionary" config dictionary.
