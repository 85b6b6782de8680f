(** Target finder plugins: rct_ros_tools/src/target_loader_plugins.cpp (tlp.cpp) *)
From Coq Require Import Reals ZArith String List.
From Verif.Base Require Import Geom Outcome.
From Verif.Model Require Import Yaml CircleDetector Targets.
Import ListNotations.
Local Open Scope R_scope.

(** rct_image_tools/include/rct_image_tools/circle_detector.h:10-64, the default parameters. [float_max] is
    numeric_limits<float>::max(); decimal floats are taken as written. *)
Definition float_max : R := (2 - / 2 ^ 23) * 2 ^ 127.
Definition default_params : circle_params := {|
  minThreshold := 50; maxThreshold := 220; nThresholds := 18;
  minRepeatability := 3; circleInclusionRadius := 5; maxRadiusDiff := 5;
  maxAverageEllipseError := 2 / 100;
  filterByColor := true; circleColor := 0;
  filterByArea := true; minArea := 25; maxArea := 5000;
  filterByCircularity := false; minCircularity := 8 / 10; maxCircularity := float_max;
  filterByInertia := false; minInertiaRatio := 3 / 10; maxInertiaRatio := float_max;
  filterByConvexity := true; minConvexity := 95 / 100; maxConvexity := float_max |}.

(** tlp.cpp:12-30, getMember: both kinds of YAML exceptions become a std::runtime_error. *)
Definition getMember {A} (d : decoder A) (n : yaml) (key : string) : res A :=
  match (do v <- field key n; as_ d v) with Throw YamlException => Throw RuntimeError | x => x end.
Definition get_size (n : yaml) (key : string) : res nat :=
  do z <- getMember (decode_unsigned 64) n key; Ok (Z.to_nat z).
Definition get_float (n : yaml) (key : string) : res R := getMember decode_double n key.
Definition get_bool (n : yaml) (key : string) : res bool := getMember decode_bool n key.

(** tlp.cpp:38-70, loadCircleDetectorParams. The colour is an int that is cut to an unsigned short and then to
    an unsigned char. *)
Definition loadCircleDetectorParams (node : yaml) : res circle_params :=
  do nThresholds <- get_size node "nThresholds";
  do minThreshold <- get_float node "minThreshold";
  do maxThreshold <- get_float node "maxThreshold";
  do minRepeatability <- get_size node "minRepeatability";
  do circleInclusionRadius <- get_float node "circleInclusionRadius";
  do maxRadiusDiff <- get_float node "maxRadiusDiff";
  do maxAverageEllipseError <- get_float node "maxAverageEllipseError";
  do filterByColor <- get_bool node "filterByColor";
  do color <- getMember decode_int node "circleColor";
  let circleColor := Z.to_nat ((color mod 2 ^ 16) mod 2 ^ 8)%Z in
  do filterByArea <- get_bool node "filterByArea";
  do minArea <- get_float node "minArea";
  do maxArea <- get_float node "maxArea";
  do filterByCircularity <- get_bool node "filterByCircularity";
  do minCircularity <- get_float node "minCircularity";
  do maxCircularity <- get_float node "maxCircularity";
  do filterByInertia <- get_bool node "filterByInertia";
  do minInertiaRatio <- get_float node "minInertiaRatio";
  do maxInertiaRatio <- get_float node "maxInertiaRatio";
  do filterByConvexity <- get_bool node "filterByConvexity";
  do minConvexity <- get_float node "minConvexity";
  do maxConvexity <- get_float node "maxConvexity";
  Ok (CircleParams minThreshold maxThreshold nThresholds minRepeatability circleInclusionRadius maxRadiusDiff
        maxAverageEllipseError filterByColor circleColor filterByArea minArea maxArea
        filterByCircularity minCircularity maxCircularity filterByInertia minInertiaRatio maxInertiaRatio
        filterByConvexity minConvexity maxConvexity).

(** The finder that a circle grid plugin creates: its target and parameters *)
Record circle_finder := CF { cf_target : circle_grid; cf_params : circle_params }.
(** rct_image_tools/src/rct_image_tools/modified_circle_grid_finder.cpp:397-403, the constructor of the finder
    and its assertions *)
Definition make_finder (target : circle_grid) (p : circle_params) : res circle_finder :=
  if (Nat.eqb (cg_cols target) 0 || Nat.eqb (cg_rows target) 0)%bool then UB else Ok (CF target p).
(** int to unsigned *)
Definition to_unsigned (z : Z) : nat := Z.to_nat (z mod 2 ^ 32).
(** tlp.cpp:81-101, ModifiedCircleGridTargetFinderPlugin::init. A missing "circle_detector_params" is an
    undefined node, in which nothing is found. *)
Definition init_circle (config : yaml) : res circle_finder :=
  do v <- field "rows" config; do rows <- as_int v;
  do v <- field "cols" config; do cols <- as_int v;
  do v <- field "spacing" config; do spacing <- as_double v;
  let target := CG (to_unsigned rows) (to_unsigned cols) spacing in
  let node := match field "circle_detector_params" config with Ok n => n | _ => YNull end in
  match loadCircleDetectorParams node with
  | Ok p => make_finder target p
  | Throw _ => make_finder target default_params
  | UB => UB
  end.

(** tlp.cpp:109-119, CharucoGridTargetFinderPlugin::init, up to the arguments of CharucoGridTarget in its
    order: rows, cols, the two lengths and the dictionary. What OpenCV makes of them, and which of them it
    refuses, is [create]. *)
Definition init_charuco {T} (create : Z -> Z -> R -> R -> Z -> res T) (config : yaml) : res T :=
  do v <- field "cols" config; do cols <- as_int v;
  do v <- field "rows" config; do rows <- as_int v;
  do v <- field "chessboard_dim" config; do chessboard_dim <- as_double v;
  do v <- field "aruco_marker_dim" config; do aruco_marker_dim <- as_double v;
  do v <- field "dictionary" config; do dictionary <- as_int v;
  create rows cols chessboard_dim aruco_marker_dim dictionary.
