(** YAML conversions: rct_optimizations/include/rct_optimizations/serialization/ *)
From Coq Require Import Reals ZArith String List.
From Verif.Base Require Import Geom Outcome.
From Verif.Model Require Import Pose Covariance HandEye DhChain Yaml.
Import ListNotations.
Local Open Scope R_scope.

(** eigen.h:13-19 and 21-27, Vector2 *)
Definition encode_vec2 (v : vec2) : yaml := YMap [("x", YReal (px v)); ("y", YReal (py v))]%string.
Definition decode_vec2 : decoder vec2 := fun node =>
  do n <- field "x" node; do x <- as_double n;
  do n <- field "y" node; do y <- as_double n;
  Ok (Some (V2 x y)).

(** eigen.h:35-42 and 44-51, Vector3 *)
Definition encode_vec3 (v : vec3) : yaml :=
  YMap [("x", YReal (vx v)); ("y", YReal (vy v)); ("z", YReal (vz v))]%string.
Definition decode_vec3 : decoder vec3 := fun node =>
  do n <- field "x" node; do x <- as_double n;
  do n <- field "y" node; do y <- as_double n;
  do n <- field "z" node; do z <- as_double n;
  Ok (Some (V3 x y z)).

(** eigen.h:59-73 and 75-91, Isometry. [Translation * Quaternion] converts the quaternion to a matrix
    without normalising it. *)
Definition encode_iso (val : iso) : yaml :=
  let quat := quat_of_mat (lin val) in
  YMap [("x", YReal (vx (tr val))); ("y", YReal (vy (tr val))); ("z", YReal (vz (tr val)));
        ("qw", YReal (qw quat)); ("qx", YReal (qx quat)); ("qy", YReal (qy quat)); ("qz", YReal (qz quat))]%string.
Definition decode_iso : decoder iso := fun node =>
  do n <- field "x" node; do x <- as_double n;
  do n <- field "y" node; do y <- as_double n;
  do n <- field "z" node; do z <- as_double n;
  do n <- field "qw" node; do w <- as_double n;
  do n <- field "qx" node; do i <- as_double n;
  do n <- field "qy" node; do j <- as_double n;
  do n <- field "qz" node; do k <- as_double n;
  Ok (Some (Iso (q_matrix (Q w i j k)) (V3 x y z))).

(** types.h:14-22 and 24-35, CameraIntrinsics *)
Definition encode_intr (k : intrinsics) : yaml :=
  YMap [("cx", YReal (cx k)); ("cy", YReal (cy k)); ("fx", YReal (fx k)); ("fy", YReal (fy k))]%string.
Definition decode_intr : decoder intrinsics := fun node =>
  if negb (Nat.eqb (ysize node) 4) then Ok None else
  do n <- field "cx" node; do cx <- as_double n;
  do n <- field "cy" node; do cy <- as_double n;
  do n <- field "fx" node; do fx <- as_double n;
  do n <- field "fy" node; do fy <- as_double n;
  Ok (Some (Intr fx fy cx cy)).

(** types.h:43-49 and 51-60, Correspondence; [ei] and [di] convert the position in the image *)
Definition encode_corr {I} (ei : I -> yaml) (c : correspondence I) : yaml :=
  YMap [("in_image", ei (in_image c)); ("in_target", encode_vec3 (in_target c))]%string.
Definition decode_corr {I} (di : decoder I) : decoder (correspondence I) := fun node =>
  if negb (Nat.eqb (ysize node) 2) then Ok None else
  do n <- field "in_image" node; do i <- as_ di n;
  do n <- field "in_target" node; do t <- as_ decode_vec3 n;
  Ok (Some (Corr i t)).

(** types.h:68-75 and 77-87, Observation *)
Definition encode_obs {I} (ei : I -> yaml) (o : observation I) : yaml :=
  YMap [("correspondences", encode_seq (encode_corr ei) (correspondence_set o));
        ("to_target_mount", encode_iso (to_target_mount o)); ("to_camera_mount", encode_iso (to_camera_mount o))]%string.
Definition decode_obs {I} (di : decoder I) : decoder (observation I) := fun node =>
  if negb (Nat.eqb (ysize node) 3) then Ok None else
  do n <- field "correspondences" node; do cs <- as_ (decode_seq (decode_corr di)) n;
  do n <- field "to_target_mount" node; do t <- as_ decode_iso n;
  do n <- field "to_camera_mount" node; do c <- as_ decode_iso n;
  Ok (Some (Obs cs c t)).

(** problems.h:24-34 and 36-49, ExtrinsicHandEyeProblem2D3D. The decoded problem has the default labels. *)
Definition encode_problem2D3D (p : he_problem2D3D) : yaml :=
  YMap [("intr", encode_intr (h2_intr p));
        ("camera_mount_to_camera_guess", encode_iso (h2_camera_guess p));
        ("target_mount_to_target_guess", encode_iso (h2_target_guess p));
        ("observations", encode_seq (encode_obs encode_vec2) (h2_observations p))]%string.
Definition decode_problem2D3D : decoder he_problem2D3D := fun node =>
  if negb (Nat.eqb (ysize node) 4) then Ok None else
  do n <- field "intr" node; do k <- as_ decode_intr n;
  do n <- field "camera_mount_to_camera_guess" node; do c <- as_ decode_iso n;
  do n <- field "target_mount_to_target_guess" node; do t <- as_ decode_iso n;
  do n <- field "observations" node; do os <- as_ (decode_seq (decode_obs decode_vec2)) n;
  Ok (Some (HEP2 os k t c default_he_labels)).

(** problems.h:57-66 and 68-80, ExtrinsicHandEyeProblem3D3D *)
Definition encode_problem3D3D (p : he_problem3D3D) : yaml :=
  YMap [("camera_mount_to_camera_guess", encode_iso (h3_camera_guess p));
        ("target_mount_to_target_guess", encode_iso (h3_target_guess p));
        ("observations", encode_seq (encode_obs encode_vec3) (h3_observations p))]%string.
Definition decode_problem3D3D : decoder he_problem3D3D := fun node =>
  if negb (Nat.eqb (ysize node) 3) then Ok None else
  do n <- field "camera_mount_to_camera_guess" node; do c <- as_ decode_iso n;
  do n <- field "target_mount_to_target_guess" node; do t <- as_ decode_iso n;
  do n <- field "observations" node; do os <- as_ (decode_seq (decode_obs decode_vec3)) n;
  Ok (Some (HEP3 os t c default_he_labels)).

(** Eigen (3.3): MatrixBase::eulerAngles(2, 1, 0). The angles turn about Z, Y and X. *)
Definition eulerAngles210 (m : mat3) : vec3 :=
  let res0 := atan2 (m10 m) (m00 m) in
  let c2 := norm2 (V2 (m22 m) (m21 m)) in
  let '(res0, res1) :=
    if Rlt_dec res0 0 then (res0 + PI, atan2 (- m20 m) (- c2)) else (res0, atan2 (- m20 m) c2) in
  let s1 := sin res0 in
  let c1 := cos res0 in
  let res2 := atan2 (s1 * m02 m - c1 * m12 m) (c1 * m11 m - s1 * m01 m) in
  V3 res0 res1 res2.
(** [v.reverse()] *)
Definition vreverse (v : vec3) : vec3 := V3 (vz v) (vy v) (vx v).

(** problems.h:8-14, toIsometry. Eigen multiplies from the left: each AngleAxis is converted to a matrix and
    multiplied with the linear part. *)
Definition toIsometry (trans euler_zyx : vec3) : iso :=
  Iso (mmul (mmul (aa_matrix (vz euler_zyx) unitZ) (aa_matrix (vy euler_zyx) unitY)) (aa_matrix (vx euler_zyx) unitX)) trans.

(** problems.h:87-102 and 104-122, ExtrinsicHandEyeResult. [rotation()] is the linear part. The covariance is
    not written; a decoded result has an empty one. *)
Definition encode_result (r : he_result) : yaml :=
  YMap [("converged", YBool (he_converged r));
        ("initial_cost_per_obs", YReal (he_initial_cost_per_obs r));
        ("final_cost_per_obs", YReal (he_final_cost_per_obs r));
        ("target_mount_to_target_pos", encode_vec3 (tr (he_target_mount_to_target r)));
        ("camera_mount_to_camera_pos", encode_vec3 (tr (he_camera_mount_to_camera r)));
        ("target_mount_to_target_rpy", encode_vec3 (vreverse (eulerAngles210 (lin (he_target_mount_to_target r)))));
        ("camera_mount_to_camera_rpy", encode_vec3 (vreverse (eulerAngles210 (lin (he_camera_mount_to_camera r)))))]%string.
Definition decode_result (no_covariance : cov_result) : decoder he_result := fun node =>
  if negb (Nat.eqb (ysize node) 7) then Ok None else
  do n <- field "converged" node; do converged <- as_bool n;
  do n <- field "initial_cost_per_obs" node; do initial <- as_double n;
  do n <- field "final_cost_per_obs" node; do final <- as_double n;
  do n <- field "target_mount_to_target_pos" node; do tpos <- as_ decode_vec3 n;
  do n <- field "target_mount_to_target_rpy" node; do trpy <- as_ decode_vec3 n;
  do n <- field "camera_mount_to_camera_pos" node; do cpos <- as_ decode_vec3 n;
  do n <- field "camera_mount_to_camera_rpy" node; do crpy <- as_ decode_vec3 n;
  Ok (Some (HER converged initial final (toIsometry tpos (vreverse trpy)) (toIsometry cpos (vreverse crpy)) no_covariance)).

(** types.h:94-125, DHTransform. [seed] is the uninitialised random seed; the limits are the defaults of
    dh_chain.h:122, 124. *)
Definition decode_dh_transform (text : yaml -> string) (seed : nat) : decoder dh_transform := fun n =>
  do v <- field "type" n; do t <- as_unsigned 32 v;
  do type <- match t with 0%Z => Ok LINEAR | 1%Z => Ok REVOLUTE | _ => Throw RuntimeError end;
  do v <- field "d" n; do d <- as_double v;
  do v <- field "theta" n; do theta <- as_double v;
  do v <- field "r" n; do r <- as_double v;
  do v <- field "alpha" n; do alpha <- as_double v;
  do v <- field "joint_name" n; do name <- as_string text v;
  Ok (Some (DHT (V4 d theta r alpha) type PI (- PI) name seed)).

(** types.h:132-145, DHChain; [seeds] are the uninitialised random seeds *)
Definition decode_dh_chain (text : yaml -> string) (seeds : nat -> nat) : decoder dh_chain := fun n =>
  do v <- field "base_transform" n; do base <- as_ decode_iso v;
  do ts <- field "dh_transforms" n;
  do transforms <- mapM (fun i => do v <- item i ts; as_ (decode_dh_transform text (seeds i)) v) (seq 0 (ysize ts));
  Ok (Some (DHChain transforms base)).
