(** What the kinematic calibration example reads and reports. *)
From Coq Require Import Reals ZArith String List.
From Verif.Base Require Import Geom Outcome Matrix.
From Verif.Model Require Import Covariance Solver DhChain Kinematic Yaml KinematicExample.
From Verif.Spec Require Import YamlSpec KinSpec KinReport StatSpec OracleSpec.
Import ListNotations.
Local Open Scope R_scope.
Local Open Scope string_scope.

(** The entry with this key is a list of these numbers. *)
Definition says_joints (key : string) (n : yaml) (q : list R) : Prop :=
  exists l, has key n (YSeq l) /\ Forall2 number l q.
(** A measurement as it is written in the file. *)
Definition says_measurement (n : yaml) (m : kin_measurement) : Prop :=
  says_joints "target_joints" n (km_target_chain_joints m) /\
  says_joints "camera_joints" n (km_camera_chain_joints m) /\
  exists p t q, has "pose" n p /\ says_pose p t q /\ km_camera_to_target m = Iso (q_matrix q) t.

(** An entry with lists of joints. *)
Definition lists_joints (n : yaml) : Prop :=
  (exists l, has "target_joints" n (YSeq l)) /\ (exists l, has "camera_joints" n (YSeq l)).
(** Neither a list nor a map with entries. *)
Definition no_entries (n : yaml) : Prop := (forall x l, n <> YSeq (x :: l)) /\ (forall x m, n <> YMap (x :: m)).
(** What is accepted for a measurement: joints may also be missing, or be no list at all. *)
Definition accepts_joints (key : string) (n : yaml) (q : list R) : Prop :=
  says_joints key n q \/
  q = [] /\ forall v, has key n v -> no_entries v.
Definition accepts_measurement (n : yaml) (m : kin_measurement) : Prop :=
  accepts_joints "target_joints" n (km_target_chain_joints m) /\
  accepts_joints "camera_joints" n (km_camera_chain_joints m) /\
  exists p t q, has "pose" n p /\ says_pose p t q /\ km_camera_to_target m = Iso (q_matrix q) t.

(** [P] is where the target should be in the camera frame at the joint positions of [o]. *)
Definition predicts (camera_chain target_chain : dh_chain) (e : kin_estimate) (o : kin_measurement) (P : iso) : Prop :=
  exists Fc Ft,
    getFK camera_chain (km_camera_chain_joints o) (ke_camera_offsets e) = Ok Fc /\
    getFK target_chain (km_target_chain_joints o) (ke_target_offsets e) = Ok Ft /\
    P = kin_target_in_camera Fc (ke_camera_mount_to_camera e) (ke_camera_base_to_target_base e) Ft
          (ke_target_mount_to_target e).
Definition distance (a b : vec3) : R := norm (vsub a b).
(** Distance and angle between the predicted and the measured pose. *)
Definition errs (camera_chain target_chain : dh_chain) (e : kin_estimate) (o : kin_measurement) (da : R * R) : Prop :=
  exists P, predicts camera_chain target_chain e o P /\
    fst da = distance (tr P) (tr (km_camera_to_target o)) /\
    angle_between (lin P) (lin (km_camera_to_target o)) (snd da).
(** The chain can be moved to these joint positions. *)
Definition reaches (c : dh_chain) (q : list R) : Prop :=
  (length q <= dof c)%nat /\ forall i t, (i < length q)%nat -> nth_error (transforms c) i = Some t -> jtype t <> OTHER.
Definition rigid_estimate (e : kin_estimate) : Prop :=
  rigid (ke_camera_mount_to_camera e) /\ rigid (ke_target_mount_to_target e) /\ rigid (ke_camera_base_to_target_base e).


(** The nominal positioner: two joints that turn, on a base at (2.2, 0, 1.6) turned by 90 degrees about x. The tip at
    joint angles [a] and [b]. *)
Definition positioner_tip (a b : R) : iso :=
  Iso (mmul (rot_y (- a)) (rot_z (b - PI / 2)))
      (V3 (22 / 10 + 475 / 1000 * sin a) 0 (16 / 10 - 475 / 1000 * cos a)).
(** An optimization of the measurements from these guesses, with a fixed camera whose base is that of the target
    chain: the base transform starts as the identity and is held, and so are the rows of the offsets of the target
    chain that [held_row] names. Nothing else is held but the imaginary joint of the fixed camera. *)
Definition asks (measurements : list kin_measurement) (target_chain : dh_chain) (g1 g2 : iso) (held_row : nat -> Prop)
  (pb : kin_problemPose6D) : Prop :=
  let com := k6_common pb in
  k6_observations pb = measurements /\
  dof (kc_camera_chain com) = 0%nat /\ base_offset (kc_camera_chain com) = iso_id /\ kc_target_chain com = target_chain /\
  kc_camera_mount_to_camera_guess com = g1 /\ kc_target_mount_to_target_guess com = g2 /\
  kc_camera_base_to_target_base_guess com = iso_id /\
  kc_target_chain_offset_stdev com = 5 / 1000 /\
  masks_fit com /\
  forall k i, (k < 8)%nat -> (i < block_size com k)%nat ->
    (held com k i <-> k = 0%nat \/ (k = 1%nat /\ held_row (i mod dof target_chain)%nat) \/ k = 6%nat \/ k = 7%nat).
(** The error statistics of an estimate on the measurements. *)
Definition statistics (camera_chain target_chain : dh_chain) (e : kin_estimate) (ms : list kin_measurement)
  (pm ps rm rs : R) : Prop :=
  exists xs, Forall2 (errs camera_chain target_chain e) ms xs /\
    pm = average (map fst xs) /\ ps = std_dev (map fst xs) /\ rm = average (map snd xs) /\ rs = std_dev (map snd xs).
(** By how much of [a] is [b] smaller, in percent; nothing is said if [a] is zero. *)
Definition improvement (a b : R) (x : option R) : Prop :=
  match x with Some p => a <> 0 /\ b = a * (1 - p / 100) | None => a = 0 end.

(** A camera that does not move, at the origin. *)
Definition fixed_camera : dh_chain := DHChain [] iso_id.
(** The poses that were found, with chains as they were designed. *)
Definition nominal (r : kin_result) : kin_estimate :=
  KE (kr_camera_mount_to_camera r) (kr_target_mount_to_target r) (kr_camera_base_to_target_base r) (no_offsets 0)
    (no_offsets 2).
(** Ceres lists the blocks of a problem, and computes a covariance, which is symmetric. *)
Definition well (run : kin_run) : Prop := lists_blocks (run_cov run) /\
  (forall b, co_compute (run_cov run) b = true) /\ (forall b, co_get (run_cov run) b = true) /\
  (forall b i c j, co_cov (run_cov run) b i c j = co_cov (run_cov run) c j b i).
(** No joints of the camera, and at most two of the target. *)
Definition can_reach (o : kin_measurement) : Prop :=
  km_camera_chain_joints o = [] /\ (length (km_target_chain_joints o) <= 2)%nat.
