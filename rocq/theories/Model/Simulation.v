(** Simulated data for trying out the calibrations, all in rct_optimizations/test:
    include/rct_optimizations_tests/utilities.h (cited as [uh]), src/utilities.cpp ([uc]), src/pose_generator.cpp ([pg]),
    src/observation_creator.cpp ([oc]), src/dh_chain_observation_creator.cpp ([dc]) *)
From Coq Require Import Reals ZArith String List.
From Verif.Base Require Import Geom Outcome Matrix.
From Verif.Model Require Import Pose Solver HandEye DhChain Kinematic Covariance.
Import ListNotations.
Local Open Scope R_scope.

(** [uh]:15-20, Camera *)
Record sim_camera := SimCamera { sim_intr : intrinsics; sim_width : Z; sim_height : Z }.

(** [uc]:8-22, makeKinectCamera *)
Definition makeKinectCamera : sim_camera := SimCamera (Intr 550 550 320 240) 640 480.

(** Arithmetic on unsigned int, which has 32 bits *)
Definition u32 (z : Z) : Z := Z.modulo z (2 ^ 32).

(** [uh]:36-62, Target: members and the constructor with three arguments. [reserve] changes no values. *)
Record sim_target := SimTarget { sim_points : list vec3; sim_origin_idx : Z; sim_center : vec3 }.
Definition mk_target (rows cols : nat) (spacing : R) : sim_target :=
  let r := Z.of_nat rows in
  let c := Z.of_nat cols in
  let center := V3 (IZR (u32 (r - 1)) * spacing / 2) (IZR (u32 (c - 1)) * spacing / 2) 0 in
  let last := Z.to_nat (u32 (r + 1)) in
  let points :=
    fold_left (fun points i =>
        let y := IZR (u32 (r - Z.of_nat i)) * spacing in
        fold_left (fun points j =>
            let x := INR j * spacing in
            (points ++ [V3 x y 0])%list)
          (seq 0 cols) points)
      (seq 1 (last - 1)) [] in
  SimTarget points (u32 (u32 (r - 1) * c)) center.

(** [pg]:8-20, lookAt *)
Definition lookAt (origin eye up : vec3) : iso :=
  let z := normalized (vsub eye origin) in
  let x := normalized (cross z up) in
  let y := normalized (cross z x) in
  Iso (M3 (vx x) (vx y) (vx z)
          (vy x) (vy y) (vy z)
          (vz x) (vz y) (vz z)) origin.

(** Eigen 3.3, VectorXd::LinSpaced(size, low, high)(i); a single value is [high] *)
Definition LinSpaced (size : nat) (low high : R) (i : nat) : R :=
  match size with
  | 1%nat => high
  | _ => if Nat.eqb i (size - 1) then high else low + INR i * ((high - low) / INR (size - 1))
  end.

(** A pose generator: the poses [generate] gives for a target pose *)
Definition pose_generator := iso -> list iso.

(** [pg]:43-55, 76-82 and 106-112: the camera at [position] in the target frame, oriented *)
Definition oriented (z_rot : R) (target_offset target_origin : iso) (position : vec3) : iso :=
  let camera := iso_mul target_origin (iso_trans position) in
  iso_mul (iso_mul target_offset (lookAt (tr camera) (tr target_origin) (V3 1 0 0)))
          (iso_rot (aa_matrix z_rot unitZ)).

(** [pg]:23-62, HemispherePoseGenerator::generate *)
Definition hemisphere_generate (r : R) (theta_cnt phi_cnt : nat) (z_rot : R) (target_offset : iso) : pose_generator :=
  fun target_origin =>
  fold_left (fun camera_positions theta_it =>
      fold_left (fun camera_positions phi_it =>
          let theta_cur := LinSpaced theta_cnt 0 PI theta_it in
          let phi_cur := LinSpaced phi_cnt 0 PI phi_it in
          let position := V3 (r * cos theta_cur * sin phi_cur) (r * sin theta_cur * sin phi_cur) (r * cos phi_cur) in
          (camera_positions ++ [oriented z_rot target_offset target_origin position])%list)
        (seq 0 phi_cnt) camera_positions)
    (seq 0 theta_cnt) [].

(** [pg]:65-89, ConicalPoseGenerator::generate. Without poses [dt] is a division by zero in C++ and not used. *)
Definition conical_generate (r h : R) (n_poses : nat) (z_rot : R) (target_offset : iso) : pose_generator :=
  fun target_origin =>
  let dt := 2 * PI / INR n_poses in
  fold_left (fun camera_positions i =>
      let position := V3 (r * cos (INR i * dt)) (r * sin (INR i * dt)) h in
      (camera_positions ++ [oriented z_rot target_offset target_origin position])%list)
    (seq 0 n_poses) [].

(** [pg]:92-118, GridPoseGenerator::generate *)
Definition grid_generate (spacing h : R) (grid_side : nat) (z_rot : R) (target_offset : iso) : pose_generator :=
  fun target_origin =>
  let end_point := IZR (u32 (Z.of_nat grid_side - 1)) / 2 * spacing in
  let grid_coords := LinSpaced grid_side (-1 * end_point) end_point in
  fold_left (fun camera_positions i =>
      fold_left (fun camera_positions j =>
          let position := V3 (grid_coords i) (grid_coords j) h in
          (camera_positions ++ [oriented z_rot target_offset target_origin position])%list)
        (seq 0 grid_side) camera_positions)
    (seq 0 grid_side) [].

(** [pg]:121-129, RandomZRotPoseGenerator::generate. [g] is the state of its random numbers, [uniform] as in
    Model/DhChain.v. The loop variable is a copy of each pose: what it holds in the end is not used. *)
Definition random_z_generate {G} (uniform : R -> R -> G -> R * G) (pg : pose_generator) (z_rot_min z_rot_max : R)
  (g : G) (target_origin : iso) : res (list iso * G) :=
  if Rle_dec z_rot_min z_rot_max
  then
    let poses := pg target_origin in
    let '(_, g) :=
      fold_left (fun '(_, g) pose =>
          let '(angle, g) := uniform z_rot_min z_rot_max g in
          let pose := iso_mul pose (iso_rot (aa_matrix angle unitZ)) in
          (pose, g))
        poses (iso_id, g) in
    Ok (poses, g)
  else UB.   (* std::uniform_real_distribution requires min <= max *)

(** [oc]:5-16, projectAndTest *)
Definition projectAndTest (pt_in_camera : vec3) (camera : sim_camera) : bool * vec2 :=
  let pt_in_image := projectPoint_arr (sim_intr camera) pt_in_camera in
  let outside :=
    if Rlt_dec (px pt_in_image) 0 then true
    else if Rlt_dec (IZR (sim_width camera)) (px pt_in_image) then true
    else if Rlt_dec (py pt_in_image) 0 then true
    else if Rlt_dec (IZR (sim_height camera)) (py pt_in_image) then true
    else false in
  (negb outside, pt_in_image).

(** [oc]:22-54, getCorrespondences with a camera *)
Definition getCorrespondences2D (camera_pose target_pose : iso) (camera : sim_camera) (target : sim_target)
  (require_all : bool) : res (list (correspondence vec2)) :=
  let camera_to_target := iso_mul (iso_inv camera_pose) target_pose in
  foldM (fun correspondences point =>
      let pt_in_camera := iso_app camera_to_target point in
      let '(inside, in_image) := projectAndTest pt_in_camera camera in
      if Rlt_dec 0 (vz pt_in_camera)
      then
        if inside then Ok (correspondences ++ [Corr in_image point])%list
        else if require_all then Throw RuntimeError else Ok correspondences
      else if require_all then Throw RuntimeError else Ok correspondences)
    (sim_points target) [].

(** [oc]:56-74, getCorrespondences without a camera *)
Definition getCorrespondences3D (camera_pose target_pose : iso) (target : sim_target) : list (correspondence vec3) :=
  let camera_to_target := iso_mul (iso_inv camera_pose) target_pose in
  fold_left (fun correspondences pt => (correspondences ++ [Corr (iso_app camera_to_target pt) pt])%list)
    (sim_points target) [].

(** [oc]:76-115, createObservations with a camera *)
Definition createObservations2D (camera : sim_camera) (target : sim_target) (pose_generators : list pose_generator)
  (true_target_mount_to_target true_camera_mount_to_camera camera_base_to_target_base : iso)
  : res (list (observation vec2)) :=
  let camera_poses :=
    fold_left (fun camera_poses (generate : pose_generator) =>
      (camera_poses ++ generate true_target_mount_to_target)%list) pose_generators [] in
  foldM (fun observations target_to_camera_pose =>
      let to_target_mount := iso_id in
      let to_camera_mount :=
        iso_mul (iso_mul (iso_mul (iso_mul camera_base_to_target_base to_target_mount) true_target_mount_to_target)
                  target_to_camera_pose)
                (iso_inv true_camera_mount_to_camera) in
      let camera_base_to_camera := iso_mul to_camera_mount true_camera_mount_to_camera in
      let camera_base_to_target :=
        iso_mul (iso_mul camera_base_to_target_base to_target_mount) true_target_mount_to_target in
      do cs <- getCorrespondences2D camera_base_to_camera camera_base_to_target camera target false;
      Ok (observations ++ [Obs cs to_camera_mount to_target_mount])%list)
    camera_poses [].

(** [oc]:117-155, createObservations without a camera *)
Definition createObservations3D (target : sim_target) (pose_generators : list pose_generator)
  (true_target_mount_to_target true_camera_mount_to_camera camera_base_to_target_base : iso)
  : list (observation vec3) :=
  let camera_poses :=
    fold_left (fun camera_poses (generate : pose_generator) =>
      (camera_poses ++ generate true_target_mount_to_target)%list) pose_generators [] in
  fold_left (fun observations target_to_camera_pose =>
      let to_target_mount := iso_id in
      let to_camera_mount :=
        iso_mul (iso_mul (iso_mul (iso_mul camera_base_to_target_base to_target_mount) true_target_mount_to_target)
                  target_to_camera_pose)
                (iso_inv true_camera_mount_to_camera) in
      let camera_base_to_camera := iso_mul to_camera_mount true_camera_mount_to_camera in
      let camera_base_to_target :=
        iso_mul (iso_mul camera_base_to_target_base to_target_mount) true_target_mount_to_target in
      let cs := getCorrespondences3D camera_base_to_camera camera_base_to_target target in
      (observations ++ [Obs cs to_camera_mount to_target_mount])%list)
    camera_poses [].

Section chains.
  (** The random numbers of createUniformlyRandomPose, as in Model/DhChain.v; [static] is their state *)
  Variable G : Type.
  Variable seeded : nat -> G.
  Variable uniform : R -> R -> G -> R * G.

  (** [dc]:8-35, createKinematicObservations without a camera *)
  Definition createKinematicObservations3D (to_camera_chain to_target_chain : dh_chain)
    (true_mount_to_camera true_mount_to_target camera_base_to_target_base : iso) (target : sim_target) (n : nat)
    (static : option G) : res (list (kin_observation vec3) * option G) :=
    foldM (fun '(observations, st) (_ : nat) =>
        do (camera_chain_joints, st) <- createUniformlyRandomPose seeded uniform to_camera_chain st;
        do (target_chain_joints, st) <- createUniformlyRandomPose seeded uniform to_target_chain st;
        do to_camera_mount <- getFK0 to_camera_chain camera_chain_joints;
        do to_target_mount <- getFK0 to_target_chain target_chain_joints;
        let cs := getCorrespondences3D (iso_mul to_camera_mount true_mount_to_camera)
                    (iso_mul (iso_mul camera_base_to_target_base to_target_mount) true_mount_to_target) target in
        Ok ((observations ++ [KObs camera_chain_joints target_chain_joints cs])%list, st))
      (seq 0 n) ([], static).

  (** [dc]:54-66 and 152-164, the joint values replaced by the poses of the chains *)
  Definition to_cartesian {I} (to_camera_chain to_target_chain : dh_chain) (kin_obs_set : list (kin_observation I))
    : res (list (observation I)) :=
    foldM (fun obs_set (kin_obs : kin_observation I) =>
        do to_camera_mount <- getFK0 to_camera_chain (ko_camera_chain_joints kin_obs);
        do to_target_mount <- getFK0 to_target_chain (ko_target_chain_joints kin_obs);
        Ok (obs_set ++ [Obs (ko_correspondence_set kin_obs) to_camera_mount to_target_mount])%list)
      kin_obs_set [].

  (** [dc]:37-67, createObservations for chains, without a camera *)
  Definition chainObservations3D (to_camera_chain to_target_chain : dh_chain)
    (true_mount_to_camera true_mount_to_target camera_base_to_target_base : iso) (target : sim_target) (n : nat)
    (static : option G) : res (list (observation vec3) * option G) :=
    do (kin_obs_set, st) <- createKinematicObservations3D to_camera_chain to_target_chain true_mount_to_camera
                              true_mount_to_target camera_base_to_target_base target n static;
    do obs_set <- to_cartesian to_camera_chain to_target_chain kin_obs_set;
    Ok (obs_set, st).

  (** [dc]:84-120, the loop of createKinematicObservations with a camera; [remaining] is max_attempts - attempts.
      getCorrespondences does not throw without require_all, so the [continue] of line 109 is not reached. *)
  Fixpoint kin_attempts (to_camera_chain to_target_chain : dh_chain)
    (true_mount_to_camera true_mount_to_target camera_base_to_target_base : iso) (target : sim_target)
    (camera : sim_camera) (n : nat) (remaining : nat) (observations : list (kin_observation vec2)) (correspondences : nat)
    (st : option G) : res (list (kin_observation vec2) * nat * option G) :=
    match remaining with
    | O => Ok (observations, correspondences, st)
    | S remaining =>
        if Nat.ltb correspondences (n * length (sim_points target))
        then
          do (camera_chain_joints, st) <- createUniformlyRandomPose seeded uniform to_camera_chain st;
          do (target_chain_joints, st) <- createUniformlyRandomPose seeded uniform to_target_chain st;
          do to_camera_mount <- getFK0 to_camera_chain camera_chain_joints;
          do to_target_mount <- getFK0 to_target_chain target_chain_joints;
          let base_to_camera := iso_mul to_camera_mount true_mount_to_camera in
          let base_to_target := iso_mul (iso_mul camera_base_to_target_base to_target_mount) true_mount_to_target in
          let camera_z := col2 (lin base_to_camera) in
          let target_z := col2 (lin base_to_target) in
          let dp := dot camera_z target_z in
          let again := kin_attempts to_camera_chain to_target_chain true_mount_to_camera true_mount_to_target
                         camera_base_to_target_base target camera n remaining in
          if Rlt_dec dp (- (2 / 10))
          then
            match getCorrespondences2D base_to_camera base_to_target camera target false with
            | Ok [] => again observations correspondences st
            | Ok cs => again (observations ++ [KObs camera_chain_joints target_chain_joints cs])%list
                             (correspondences + length cs)%nat st
            | Throw _ => UB   (* not reached *)
            | UB => UB
            end
          else again observations correspondences st
        else Ok (observations, correspondences, st)
    end.

  (** [dc]:83 *)
  Definition max_attempts : nat := Z.to_nat 10000.

  (** [dc]:69-131, createKinematicObservations with a camera. The loop ends with attempts <= max_attempts, so the first
      half of the condition of line 122 is false. n * target.points.size() is taken not to exceed 64 bits. *)
  Definition createKinematicObservations2D (to_camera_chain to_target_chain : dh_chain)
    (true_mount_to_camera true_mount_to_target camera_base_to_target_base : iso) (target : sim_target)
    (camera : sim_camera) (n : nat) (static : option G) : res (list (kin_observation vec2) * option G) :=
    do (observations, correspondences, st) <-
      kin_attempts to_camera_chain to_target_chain true_mount_to_camera true_mount_to_target camera_base_to_target_base
        target camera n max_attempts [] 0%nat static;
    if Nat.ltb correspondences (n * length (sim_points target)) then Throw RuntimeError
    else Ok (observations, st).

  (** [dc]:133-165, createObservations for chains, with a camera *)
  Definition chainObservations2D (to_camera_chain to_target_chain : dh_chain)
    (true_mount_to_camera true_mount_to_target camera_base_to_target_base : iso) (target : sim_target)
    (camera : sim_camera) (n : nat) (static : option G) : res (list (observation vec2) * option G) :=
    do (kin_obs_set, st) <- createKinematicObservations2D to_camera_chain to_target_chain true_mount_to_camera
                              true_mount_to_target camera_base_to_target_base target camera n static;
    do obs_set <- to_cartesian to_camera_chain to_target_chain kin_obs_set;
    Ok (obs_set, st).

  (** [dc]:167-192, createKinematicMeasurements *)
  Definition createKinematicMeasurements (to_camera_chain to_target_chain : dh_chain)
    (true_mount_to_camera true_mount_to_target camera_base_to_target_base : iso) (n : nat)
    (static : option G) : res (list kin_measurement * option G) :=
    foldM (fun '(measurements, st) (_ : nat) =>
        do (camera_chain_joints, st) <- createUniformlyRandomPose seeded uniform to_camera_chain st;
        do (target_chain_joints, st) <- createUniformlyRandomPose seeded uniform to_target_chain st;
        do camera_fk <- getFK0 to_camera_chain camera_chain_joints;
        let camera_base_to_camera := iso_mul camera_fk true_mount_to_camera in
        do target_fk <- getFK0 to_target_chain target_chain_joints;
        let camera_base_to_target := iso_mul (iso_mul camera_base_to_target_base target_fk) true_mount_to_target in
        let camera_to_target := iso_mul (iso_inv camera_base_to_camera) camera_base_to_target in
        Ok ((measurements ++ [KMeas camera_to_target camera_chain_joints target_chain_joints])%list, st))
      (seq 0 n) ([], static).
End chains.
Arguments createKinematicObservations3D {G}. Arguments chainObservations3D {G}. Arguments kin_attempts {G}.
Arguments createKinematicObservations2D {G}. Arguments chainObservations2D {G}.
Arguments createKinematicMeasurements {G}.

(** The order in which a compiler evaluates three arguments of a call is not specified. [arrange o a b c] is the vector
    made of the values a, b, c, computed in this order. *)
Inductive eval_order := XYZ | XZY | YXZ | YZX | ZXY | ZYX.
Definition arrange (o : eval_order) (a b c : R) : vec3 :=
  match o with
  | XYZ => V3 a b c | XZY => V3 a c b | YXZ => V3 b a c
  | YZX => V3 c a b | ZXY => V3 b c a | ZYX => V3 c b a
  end.

(** [uc]:24-41, perturbPose. std::bind copies the generator into each of the three functions. [seed] is the macro
    RCT_RANDOM_SEED, [o1] and [o2] are the evaluation orders of lines 32 and 33. *)
Definition perturbPose {G} (seeded : nat -> G) (uniform : R -> R -> G -> R * G) (o1 o2 : eval_order) (seed : nat)
  (pose : iso) (spatial_noise angle_noise : R) : res iso :=
  let mt_rand := seeded seed in
  if Rle_dec (- spatial_noise) spatial_noise then
  if Rle_dec (- angle_noise) angle_noise then
    let spatial_dist g := uniform (- spatial_noise) spatial_noise g in
    let angle_dist g := uniform (- angle_noise) angle_noise g in
    let one_to_one g := uniform (-1) 1 g in
    let '(s1, gs) := spatial_dist mt_rand in
    let '(s2, gs) := spatial_dist gs in
    let '(s3, gs) := spatial_dist gs in
    let translation := arrange o1 s1 s2 s3 in
    let '(r1, gr) := one_to_one mt_rand in
    let '(r2, gr) := one_to_one gr in
    let '(r3, gr) := one_to_one gr in
    let rot_axis := arrange o2 r1 r2 r3 in
    let rot_axis := normalized rot_axis in
    let '(angle, ga) := angle_dist mt_rand in
    Ok (iso_mul (iso_mul pose (iso_trans translation)) (iso_rot (aa_matrix angle rot_axis)))
  else UB else UB.   (* std::uniform_real_distribution requires a <= b *)

(** [uc]:43-65, createABBIRB2400; [seed] is the macro RCT_RANDOM_SEED *)
Definition createABBIRB2400 (seed : nat) : dh_chain :=
  let p1 := V4 0.615 0 0.100 (- PI / 2) in
  let p2 := V4 0 (- PI / 2) 0.705 0 in
  let p3 := V4 0 0 0.135 (- PI / 2) in
  let p4 := V4 0.755 0 0 (PI / 2) in
  let p5 := V4 0 0 0 (- PI / 2) in
  let p6 := V4 0.085 PI 0 0 in
  DHChain [mk_dh_transform p1 REVOLUTE "j1" seed; mk_dh_transform p2 REVOLUTE "j2" seed;
           mk_dh_transform p3 REVOLUTE "j3" seed; mk_dh_transform p4 REVOLUTE "j4" seed;
           mk_dh_transform p5 REVOLUTE "j5" seed; mk_dh_transform p6 REVOLUTE "j6" seed] iso_id.

(** [uc]:67-97, createTwoAxisPositioner *)
Definition createTwoAxisPositioner (seed : nat) : dh_chain :=
  let p1 := V4 0 0 0 (- PI / 2) in
  let p2 := V4 (-0.475) (- PI / 2) 0 0 in
  let t := mk_dh_transform p1 REVOLUTE "j1" seed in
  let t := DHT (params t) (jtype t) PI (- PI) (jname t) (random_seed t) in
  let dh_transform := mk_dh_transform p2 REVOLUTE "j2" seed in
  let dh_transform := DHT (params dh_transform) (jtype dh_transform) (2 * PI) (-2 * PI) (jname dh_transform)
                          (random_seed dh_transform) in
  let base_offset := iso_id in
  let base_offset := iso_mul base_offset (iso_trans (V3 2.2 0 1.6)) in
  let base_offset := iso_mul base_offset (iso_rot (aa_matrix (PI / 2) unitX)) in
  DHChain [t; dh_transform] base_offset.

(** [uc]:99-118, perturbDHChain. [N] is the state of the generator together with that of std::normal_distribution,
    [normal stddev s] a draw with mean 0. Eigen evaluates the expression of line 109 column by column. [u] are the
    uninitialised entries of getDHTable. std::normal_distribution requires stddev > 0. *)
Definition perturbDHChain {N} (start : nat -> N) (normal : R -> N -> R * N) (u : nat -> nat -> R) (seed : nat)
  (c : dh_chain) (stddev : R) : res dh_chain :=
  if Rlt_dec 0 stddev then
    let joint_types := getJointTypes c in
    let dh := getDHTable u c in
    let '(dh, _) :=
      fold_left (fun '(out, s) j =>
          fold_left (fun '(out, s) i =>
              let '(v, s) := normal stddev s in
              (set_ent out i j (ent dh i j + v), s))
            (seq 0 (rows dh)) (out, s))
        (seq 0 4) (dh, start seed) in
    do ts <- foldM (fun transforms i =>
        do row <- row4 dh i;
        do jt <- idx joint_types i;
        Ok (transforms ++ [mk_dh_transform row jt (String.append "j" (to_string (i + 1))) seed])%list)
      (seq 0 (length joint_types)) [];
    Ok (DHChain ts (base_offset c))
  else UB.
