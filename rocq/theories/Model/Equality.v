(** Equality operators: rct_optimizations/include/rct_optimizations/types.h (types.h),
    rct_optimizations/include/rct_optimizations/extrinsic_hand_eye.h (he.h),
    rct_image_tools/src/rct_image_tools/aruco_grid_target.cpp and charuco_grid_target.cpp *)
From Coq Require Import Reals List Bool Arith.
From Verif.Base Require Import Geom Outcome Matrix.
From Verif.Model Require Import Pose HandEye Kinematic Targets.
Import ListNotations.
Local Open Scope R_scope.

(** Eigen (3.3): NumTraits<double>::dummy_precision() *)
Definition dummy_precision : R := / 10 ^ 12.
(** [cwiseAbs2().sum()] *)
Definition abs2_sum (v : list R) : R := fold_right (fun x s => x * x + s) 0 v.
Definition difference (a b : list R) : list R := map (fun p => fst p - snd p) (combine a b).
(** Eigen (3.3): DenseBase::isApprox (Fuzzy.h, isApprox_selector) for arguments of one size *)
Definition isApprox (a b : list R) : bool :=
  if Rle_dec (abs2_sum (difference a b)) (dummy_precision * dummy_precision * Rmin (abs2_sum a) (abs2_sum b))
  then true else false.
(** The same for vectors of dynamic size: with different sizes an assertion fails, or past it memory outside
    the shorter vector is read. *)
Definition isApprox_dynamic (a b : list R) : res bool :=
  if Nat.eqb (length a) (length b) then Ok (isApprox a b) else UB.

Definition coeffs2 (v : vec2) : list R := [px v; py v].
Definition coeffs3 (v : vec3) : list R := [vx v; vy v; vz v].
(** Eigen (3.3): an Isometry3d stores the 4 x 4 matrix, and Transform::isApprox compares it *)
Definition coeffs_iso (T : iso) : list R :=
  let m := lin T in
  [m00 m; m10 m; m20 m; 0; m01 m; m11 m; m21 m; 0; m02 m; m12 m; m22 m; 0; vx (tr T); vy (tr T); vz (tr T); 1].

(** std::vector's operator== *)
Fixpoint list_eqb {A} (eqb : A -> A -> bool) (a b : list A) : bool :=
  match a, b with
  | [], [] => true
  | x :: a', y :: b' => eqb x y && list_eqb eqb a' b'
  | _, _ => false
  end.
Definition real_eqb (x y : R) : bool := if Req_EM_T x y then true else false.

(** types.h:27, CameraIntrinsics *)
Definition intrinsics_eqb (a b : intrinsics) : bool :=
  list_eqb real_eqb [fx a; fy a; cx a; cy a] [fx b; fy b; cx b; cy b].
(** types.h:74-77, Correspondence; [coeffs] are the coefficients of an image point *)
Definition corr_eqb {I} (coeffs : I -> list R) (a b : correspondence I) : bool :=
  isApprox (coeffs (in_image a)) (coeffs (in_image b)) && isApprox (coeffs3 (in_target a)) (coeffs3 (in_target b)).
(** types.h:120-124, Observation *)
Definition obs_eqb {I} (coeffs : I -> list R) (a b : observation I) : bool :=
  isApprox (coeffs_iso (to_camera_mount a)) (coeffs_iso (to_camera_mount b)) &&
  isApprox (coeffs_iso (to_target_mount a)) (coeffs_iso (to_target_mount b)) &&
  list_eqb (corr_eqb coeffs) (correspondence_set a) (correspondence_set b).
(** [x && y] where the operands may fail *)
Definition and_then (x : res bool) (y : res bool) : res bool := do b <- x; if b then y else Ok false.
(** types.h:146-150, KinematicObservation. The correspondences are compared with themselves. *)
Definition kin_obs_eqb {I} (coeffs : I -> list R) (a b : kin_observation I) : res bool :=
  and_then (and_then (isApprox_dynamic (ko_camera_chain_joints a) (ko_camera_chain_joints b))
                     (isApprox_dynamic (ko_target_chain_joints a) (ko_target_chain_joints b)))
           (Ok (list_eqb (corr_eqb coeffs) (ko_correspondence_set a) (ko_correspondence_set a))).
(** types.h:179-183, KinematicMeasurement *)
Definition kin_meas_eqb (a b : kin_measurement) : res bool :=
  and_then (and_then (Ok (isApprox (coeffs_iso (km_camera_to_target a)) (coeffs_iso (km_camera_to_target b))))
                     (isApprox_dynamic (km_camera_chain_joints a) (km_camera_chain_joints b)))
           (isApprox_dynamic (km_target_chain_joints a) (km_target_chain_joints b)).
(** he.h:37-42, ExtrinsicHandEyeProblem2D3D *)
Definition problem2D3D_eqb (a b : he_problem2D3D) : bool :=
  list_eqb (obs_eqb coeffs2) (h2_observations a) (h2_observations b) && intrinsics_eqb (h2_intr a) (h2_intr b) &&
  isApprox (coeffs_iso (h2_target_guess a)) (coeffs_iso (h2_target_guess b)) &&
  isApprox (coeffs_iso (h2_camera_guess a)) (coeffs_iso (h2_camera_guess b)).
(** he.h:55-60, ExtrinsicHandEyeProblem3D3D *)
Definition problem3D3D_eqb (a b : he_problem3D3D) : bool :=
  list_eqb (obs_eqb coeffs3) (h3_observations a) (h3_observations b) &&
  isApprox (coeffs_iso (h3_target_guess a)) (coeffs_iso (h3_target_guess b)) &&
  isApprox (coeffs_iso (h3_camera_guess a)) (coeffs_iso (h3_camera_guess b)).

(** numeric_limits<float>::epsilon() *)
Definition float_epsilon : R := / 2 ^ 23.
(** The parts of an ArUco or ChArUco target that its equality looks at: the size of the grid, two lengths
    (marker length and separation, or marker and square length; the subtraction of floats is taken as exact)
    and the points by ID *)
Record board_target (P : Type) := BT {
  bt_width : nat; bt_height : nat; bt_length1 : R; bt_length2 : R; bt_points : amap P }.
Arguments BT {P}. Arguments bt_width {P}. Arguments bt_height {P}. Arguments bt_length1 {P}.
Arguments bt_length2 {P}. Arguments bt_points {P}.
Definition near_float (a b : R) : bool := if Rlt_dec (Rabs (a - b)) float_epsilon then true else false.
Definition vec3_eqb (a b : vec3) : bool := list_eqb real_eqb (coeffs3 a) (coeffs3 b).
(** std::map's operator== *)
Definition map_eqb {P} (eqb : P -> P -> bool) (a b : amap P) : bool :=
  list_eqb (fun x y => Nat.eqb (fst x) (fst y) && eqb (snd x) (snd y)) a b.
(** aruco_grid_target.cpp:49-62, ArucoGridTarget *)
Definition aruco_eqb (a b : board_target (list vec3)) : bool :=
  Nat.eqb (bt_width b) (bt_width a) && Nat.eqb (bt_height b) (bt_height a) &&
  near_float (bt_length1 b) (bt_length1 a) && near_float (bt_length2 b) (bt_length2 a) &&
  map_eqb (list_eqb vec3_eqb) (bt_points b) (bt_points a).
(** charuco_grid_target.cpp:45-58, CharucoGridTarget *)
Definition charuco_eqb (a b : board_target vec3) : bool :=
  map_eqb vec3_eqb (bt_points b) (bt_points a) &&
  near_float (bt_length1 b) (bt_length1 a) && near_float (bt_length2 b) (bt_length2 a) &&
  Nat.eqb (bt_width b) (bt_width a) && Nat.eqb (bt_height b) (bt_height a).
