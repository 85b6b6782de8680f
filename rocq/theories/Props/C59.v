(** C59: target finder plugins are configured as written. *)
From Coq Require Import Reals ZArith String List.
From Verif.Base Require Import Geom Outcome.
From Verif.Model Require Import Yaml CircleDetector Targets Loaders Plugins.
From Verif.Spec Require Import YamlSpec LoaderSpec PluginSpec.
From Verif.Proofs Require Import PluginProofs.
Import ListNotations.
Local Open Scope R_scope.
Local Open Scope string_scope.

(** A circle grid finder is made exactly when rows, columns and spacing are written and the grid is not empty.
    It has the written dimensions, as 32-bit unsigned numbers, and the written or the default parameters. *)
Theorem C59_circle_grid : forall config f, init_circle config = Ok f <->
  exists rows cols spacing, says_circle_grid config rows cols spacing /\ rows <> 0%Z /\ cols <> 0%Z /\
    detector_of config (cf_params f) /\ cg_spacing (cf_target f) = spacing /\
    Z.of_nat (cg_rows (cf_target f)) = (rows mod 2 ^ 32)%Z /\ Z.of_nat (cg_cols (cf_target f)) = (cols mod 2 ^ 32)%Z.
Proof. exact init_circle_iff. Qed.
Print Assumptions C59_circle_grid.

(** The detector parameters are read completely or not at all. *)
Theorem C59_detector : forall n p, loadCircleDetectorParams n = Ok p <-> says_detector n p.
Proof. exact detector_iff. Qed.
Print Assumptions C59_detector.
Theorem C59_detector_reported : forall n, (exists p, loadCircleDetectorParams n = Ok p) \/ loadCircleDetectorParams n = Throw RuntimeError.
Proof. exact re_detector. Qed.
Print Assumptions C59_detector_reported.

(** A missing or malformed dimension is reported. *)
Theorem C59_reported : forall config, (~ exists rows cols spacing, says_circle_grid config rows cols spacing) -> init_circle config = Throw YamlException.
Proof. exact init_circle_fails. Qed.
Print Assumptions C59_reported.

(** A grid written with no rows or no columns is not reported as an exception: an assertion fails. *)
Theorem C59_empty_grid : forall config rows cols spacing, says_circle_grid config rows cols spacing -> (rows = 0 \/ cols = 0)%Z -> init_circle config = UB.
Proof. exact init_circle_zero. Qed.
Print Assumptions C59_empty_grid.

(** A ChArUco board is created with exactly the written numbers, whatever the library makes of them. *)
Theorem C59_charuco : forall T (create : Z -> Z -> R -> R -> Z -> res T) config t, init_charuco create config = Ok t <->
  exists rows cols a b dict, says_charuco config rows cols a b dict /\ create rows cols a b dict = Ok t.
Proof. exact @init_charuco_ok. Qed.
Print Assumptions C59_charuco.

(** The parameters of the ROS node reach the target: through the conversion to YAML, then the plugin. *)
Theorem C59_from_parameters : forall v config rows cols spacing, toYAML v = Ok config ->
  member "rows" v (XInt rows) -> member "cols" v (XInt cols) -> member "spacing" v (XDouble spacing) ->
  (0 < rows < 2 ^ 31)%Z -> (0 < cols < 2 ^ 31)%Z -> exists f, init_circle config = Ok f /\ cf_target f = CG (Z.to_nat rows) (Z.to_nat cols) spacing.
Proof. exact from_param. Qed.
Print Assumptions C59_from_parameters.

(** A configuration without detector parameters, one with a single bad one and a negative number of rows. *)
Example C59_default : init_circle (YMap [("rows", YInt 7); ("cols", YInt 5); ("spacing", YReal 0.025)]) = Ok (CF (CG 7 5 0.025) default_params).
Proof. reflexivity. Qed.
Example C59_incomplete :
  init_circle (YMap [("rows", YInt 7); ("cols", YInt 5); ("spacing", YReal 0.025); ("circle_detector_params", YMap [("nThresholds", YInt 3)])]) =
  Ok (CF (CG 7 5 0.025) default_params).
Proof. reflexivity. Qed.
Example C59_written :
  says_detector (YMap [("nThresholds", YInt 9); ("minThreshold", YInt 10); ("maxThreshold", YInt 200); ("minRepeatability", YInt 2);
    ("circleInclusionRadius", YReal 4); ("maxRadiusDiff", YReal 5); ("maxAverageEllipseError", YReal 0.5); ("filterByColor", YBool true); ("circleColor", YInt 300);
    ("filterByArea", YBool false); ("minArea", YReal 1); ("maxArea", YReal 2); ("filterByCircularity", YBool false); ("minCircularity", YReal 3); ("maxCircularity", YReal 4);
    ("filterByInertia", YBool true); ("minInertiaRatio", YReal 5); ("maxInertiaRatio", YReal 6); ("filterByConvexity", YBool true); ("minConvexity", YReal 7); ("maxConvexity", YReal 8)])
    {| nThresholds := 9; minThreshold := 10; maxThreshold := 200; minRepeatability := 2; circleInclusionRadius := 4; maxRadiusDiff := 5; maxAverageEllipseError := 0.5;
       filterByColor := true; circleColor := 44; filterByArea := false; minArea := 1; maxArea := 2; filterByCircularity := false; minCircularity := 3; maxCircularity := 4;
       filterByInertia := true; minInertiaRatio := 5; maxInertiaRatio := 6; filterByConvexity := true; minConvexity := 7; maxConvexity := 8 |}.
Proof. apply detector_iff. reflexivity. Qed.
Example C59_negative : exists f, init_circle (YMap [("rows", YInt (-1)); ("cols", YInt 5); ("spacing", YReal 0.025)]) = Ok f /\ Z.of_nat (cg_rows (cf_target f)) = (2 ^ 32 - 1)%Z.
Proof. exact negative_rows. Qed.
