(** What a YAML document says, independent of the order in which the code reads it. *)
From Coq Require Import Reals ZArith String List.
From Verif.Base Require Import Geom Outcome.
From Verif.Model Require Import Pose HandEye DhChain Yaml Serialization.
Import ListNotations.
Local Open Scope R_scope.
Local Open Scope string_scope.

(** The first entry of a map with this key. *)
Definition has (key : string) (n v : yaml) : Prop :=
  exists m1 m2, n = YMap (m1 ++ (key, v) :: m2) /\ ~ In key (map fst m1).
(** A number. *)
Definition number (n : yaml) (r : R) : Prop := n = YReal r \/ exists z, n = YInt z /\ r = IZR z.
(** The entry with this key is a number. *)
Definition number_at (key : string) (n : yaml) (r : R) : Prop := exists v, has key n v /\ number v r.

Definition says_vec2 (n : yaml) (v : vec2) : Prop := number_at "x" n (px v) /\ number_at "y" n (py v).
Definition says_vec3 (n : yaml) (v : vec3) : Prop :=
  number_at "x" n (vx v) /\ number_at "y" n (vy v) /\ number_at "z" n (vz v).
(** A translation and a quaternion, which is used as it is. *)
Definition says_pose (n : yaml) (t : vec3) (q : quat) : Prop :=
  says_vec3 n t /\ number_at "qw" n (qw q) /\ number_at "qx" n (qx q) /\ number_at "qy" n (qy q) /\ number_at "qz" n (qz q).
(** The four intrinsics and nothing else. *)
Definition says_intr (n : yaml) (k : intrinsics) : Prop :=
  (exists m, n = YMap m /\ List.length m = 4%nat) /\
  number_at "fx" n (fx k) /\ number_at "fy" n (fy k) /\ number_at "cx" n (cx k) /\ number_at "cy" n (cy k).

(** A joint: its type as a number, its four parameters, its name. *)
Definition joint_code (t : joint_type) : option Z := match t with LINEAR => Some 0%Z | REVOLUTE => Some 1%Z | OTHER => None end.
Definition says_joint (n : yaml) (t : dh_transform) : Prop :=
  (exists z, joint_code (jtype t) = Some z /\ has "type" n (YInt z)) /\
  number_at "d" n (e0 (params t)) /\ number_at "theta" n (e1 (params t)) /\
  number_at "r" n (e2 (params t)) /\ number_at "alpha" n (e3 (params t)) /\
  has "joint_name" n (YStr (jname t)).

(** The poses of an observation are rigid. *)
Definition rigid_observation {I} (o : observation I) : Prop := rigid (to_camera_mount o) /\ rigid (to_target_mount o).

(** Rotations about the axes. *)
Definition rot_x (a : R) : mat3 := M3 1 0 0 0 (cos a) (- sin a) 0 (sin a) (cos a).
Definition rot_y (a : R) : mat3 := M3 (cos a) 0 (sin a) 0 1 0 (- sin a) 0 (cos a).
Definition rot_z (a : R) : mat3 := M3 (cos a) (- sin a) 0 (sin a) (cos a) 0 0 0 1.
(** Roll about x, then pitch about y, then yaw about z, all about fixed axes. *)
Definition rpy_matrix (roll pitch yaw : R) : mat3 := mmul (mmul (rot_z yaw) (rot_y pitch)) (rot_x roll).

(** The pose with the roll and the yaw of Eigen's angles exchanged. *)
Definition swapped (T : iso) : iso :=
  let zyx := eulerAngles210 (lin T) in
  let roll := vz zyx in let pitch := vy zyx in let yaw := vx zyx in
  Iso (rpy_matrix yaw pitch roll) (tr T).
