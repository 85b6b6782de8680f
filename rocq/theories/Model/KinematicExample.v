(** The kinematic calibration example: rct_examples/src/examples/kinematic_calibration.cpp [kx] *)
From Coq Require Import Reals ZArith String List.
From Verif.Base Require Import Geom Outcome Matrix.
From Verif.Model Require Import Covariance Solver HandEye DhChain Kinematic Yaml Loaders Accumulator.
Import ListNotations.
Local Open Scope R_scope.

(** [node["key"]] on a node that is not const; [None] is an undefined node. There is no such key in a null, undefined
    or sequence node, which becomes a map, and the subscript of a scalar throws YAML::BadSubscript. *)
Definition subscript (key : string) (n : option yaml) : res (option yaml) :=
  match n with
  | Some (YMap m) => Ok (find_str key m)
  | None | Some YNull | Some (YSeq _) => Ok None
  | Some _ => Throw YamlException
  end.
(** [node["key"].as<double>()] *)
Definition number_of (key : string) (n : option yaml) : res R :=
  do v <- subscript key n;
  match v with Some v => as_double v | None => Throw YamlException end.

(** [kx]:28-33 and 38-43: size() of an undefined node is 0 *)
Definition readJoints (joints : option yaml) : res (list R) :=
  match joints with
  | None => Ok []
  | Some j => mapM (fun i => do v <- item i j; as_double v) (seq 0 (ysize j))
  end.
(** [kx]:24-63, one entry of the file. The pose is the translation followed by the matrix of the quaternion, as it is
    written. *)
Definition readMeasurement (second : yaml) : res kin_measurement :=
  do joints <- subscript "target_joints" (Some second);
  do target_chain_joints <- readJoints joints;
  do joints <- subscript "camera_joints" (Some second);
  do camera_chain_joints <- readJoints joints;
  do pose <- subscript "pose" (Some second);
  do x <- number_of "x" pose; do y <- number_of "y" pose; do z <- number_of "z" pose;
  do qw <- number_of "qw" pose; do qx <- number_of "qx" pose; do qy <- number_of "qy" pose; do qz <- number_of "qz" pose;
  let camera_to_target := iso_mul iso_id (iso_trans (V3 x y z)) in
  let camera_to_target := iso_mul camera_to_target (iso_rot (q_matrix (Q qw qx qy qz))) in
  Ok (KMeas camera_to_target camera_chain_joints target_chain_joints).
(** [kx]:13-72, loadMeasurements. An element of a sequence has no [it->second]: YAML::InvalidNode. Scalars and null
    have no elements. *)
Definition loadMeasurements (load : string -> option yaml) (filename : string) : res (list kin_measurement) :=
  bad_file
    (do n <- LoadFile load filename;
     match n with
     | YMap m => mapM (fun it => readMeasurement (snd it)) m
     | YSeq (_ :: _) => Throw YamlException
     | _ => Ok []
     end).

(** [kx]:74-104, createTwoAxisPositioner. The seeds come from std::random_device. *)
Definition createTwoAxisPositioner (seed1 seed2 : nat) : dh_chain :=
  let p1 := V4 0 0 0 (- PI / 2) in
  let p2 := V4 (-475 / 1000) (- PI / 2) 0 0 in
  let base_offset := iso_mul iso_id (iso_trans (V3 (22 / 10) 0 (16 / 10))) in
  let base_offset := iso_mul base_offset (iso_rot (aa_matrix (PI / 2) unitX)) in
  DHChain [DHT p1 REVOLUTE PI (- PI) "j1" seed1; DHT p2 REVOLUTE (2 * PI) (-2 * PI) "j2" seed2] base_offset.

(** [kx]:127-151, Stats *)
Record stats := Stats { pos_mean : R; pos_stdev : R; rot_mean : R; rot_stdev : R }.
(** [kx]:142-150, the four printed percentages. A division by zero gives NaN or an infinity: [None]. *)
Definition percent (a b : R) : option R := if Req_EM_T a 0 then None else Some (100 * (a - b) / a).
Definition percentDiff (this other : stats) : list (option R) :=
  [percent (pos_mean this) (pos_mean other); percent (pos_stdev this) (pos_stdev other);
   percent (rot_mean this) (rot_mean other); percent (rot_stdev this) (rot_stdev other)].

(** [kx]:153-194, compareToMeasurements. [seeds1] and [seeds2] come from std::random_device. Without measurements the
    means are 0/0, see Accumulator.v. *)
Definition compareToMeasurements (seeds1 seeds2 : nat -> nat) (initial_camera_chain initial_target_chain : dh_chain)
  (result : kin_result) (measurements : list kin_measurement) : res stats :=
  do camera_chain <- bake_offsets seeds1 initial_camera_chain (kr_camera_chain_dh_offsets result);
  do target_chain <- bake_offsets seeds2 initial_target_chain (kr_target_chain_dh_offsets result);
  do accs <- foldM (fun '(pos_acc, ori_acc) m =>
      do camera_chain_fk <- getFK0 camera_chain (km_camera_chain_joints m);
      let camera_base_to_camera := iso_mul camera_chain_fk (kr_camera_mount_to_camera result) in
      do target_chain_fk <- getFK0 target_chain (km_target_chain_joints m);
      let camera_base_to_target :=
        iso_mul (iso_mul (kr_camera_base_to_target_base result) target_chain_fk) (kr_target_mount_to_target result) in
      let camera_to_target := iso_mul (iso_inv camera_base_to_camera) camera_base_to_target in
      let diff := iso_mul (iso_inv camera_to_target) (km_camera_to_target m) in
      Ok (acc_push pos_acc (norm (tr diff)),
          acc_push ori_acc (angular_distance (quat_of_mat (lin camera_to_target))
                                             (quat_of_mat (lin (km_camera_to_target m))))))
    measurements (acc_empty, acc_empty);
  let '(pos_acc, ori_acc) := accs in
  do pm <- acc_mean pos_acc;
  do rm <- acc_mean ori_acc;
  Ok (Stats pm (sqrt (acc_variance pos_acc)) rm (sqrt (acc_variance ori_acc))).

(** dh_chain_kinematic_calibration.h:80-118: a problem for two chains, with the defaults of the other members *)
Definition pose6D_problem (camera_chain target_chain : dh_chain) (observations : list kin_measurement)
  (g1 g2 g3 : iso) (mask : list (list Z)) (sd1 sd2 : R) : kin_problemPose6D :=
  KP6 observations
    (KC camera_chain target_chain g1 g2 g3 mask sd1 sd2
        "camera_mount_to_camera" "target_mount_to_target" "camera_base_to_target").

(** One call of optimize: uninitialised memory, Ceres' solver and covariance; and the seeds of the chains that
    compareToMeasurements makes. *)
Record kin_run := KRun {
  run_u : nat -> nat -> R; run_solve : kin_solver; run_cov : cov_oracle;
  run_seeds1 : nat -> nat; run_seeds2 : nat -> nat }.
Record kin_report := KReport {
  rp_optimal : kin_result; rp_optimal_stats : stats;
  rp_static : kin_result; rp_static_stats : stats;
  rp_improvement : list (option R) }.

(** [kx]:207-298, main, after ros::init. [None]: it returns -1. An exception leaves main. [measurements_file] is the
    parameter of that name. The results and statistics are what is printed. *)
Definition kinematicExample (load : string -> option yaml) (server : string -> option xml)
  (measurements_file : option string) (seed1 seed2 : nat) (run1 run2 : kin_run) : res (option kin_report) :=
  match measurements_file with
  | None => Ok None
  | Some measurements_file =>
      do measurements <- loadMeasurements load measurements_file;
      let camera_chain := DHChain [] iso_id in
      let target_chain := createTwoAxisPositioner seed1 seed2 in
      do g1 <- loadPose_param server "camera_mount_to_camera_guess";
      do g2 <- loadPose_param server "target_mount_to_target_guess";
      let optimize run target_mask :=
        kin_optimizePose6D (run_u run) (run_solve run) (run_cov run)
          (pose6D_problem camera_chain target_chain measurements g1 g2 iso_id
             [[]; createDHMask (dof target_chain) target_mask; []; []; []; []; [0; 1; 2]%Z; [0; 1; 2]%Z]
             (1 / 1000) (5 / 1000)) 100 in
      let compare run := compareToMeasurements (run_seeds1 run) (run_seeds2 run) camera_chain target_chain in
      (* mask.bottomRows(1) *)
      do result1 <- optimize run1 (fun row _ => Nat.eqb row (dof target_chain - 1));
      do cal_stats_optimal_dh <- compare run1 result1 measurements;
      do result2 <- optimize run2 (fun _ _ => true);
      do cal_stats_static_dh <- compare run2 result2 measurements;
      Ok (Some (KReport result1 cal_stats_optimal_dh result2 cal_stats_static_dh
                          (percentDiff cal_stats_static_dh cal_stats_optimal_dh)))
  end.
