(** C43: the parameter loaders do not half-update. *)
From Coq Require Import Reals ZArith String List.
From Verif.Base Require Import Geom Outcome.
From Verif.Model Require Import Pose Yaml Serialization Loaders.
From Verif.Spec Require Import YamlSpec LoaderSpec.
From Verif.Proofs Require Import LoaderProofs MoreExamples.
Import ListNotations.
Local Open Scope R_scope.
Local Open Scope string_scope.

(** Every call returns; true exactly with the values of the fields, and the old content with false. *)
Theorem C43_intrinsics_param : forall server key out, exists b k,
  tryIntrinsics_param server key out = Ok (b, k) /\
  (b = true <-> exists v, server key = Some v /\ param_intr v k) /\ (b = false -> k = out).
Proof. exact try_intr_param. Qed.
Print Assumptions C43_intrinsics_param.

Theorem C43_pose_param : forall server key out, exists b T,
  tryPose_param server key out = Ok (b, T) /\
  (b = true <-> exists v q, server key = Some v /\ param_pose v (tr T) q /\ rotation_of q (lin T)) /\ (b = false -> T = out).
Proof. exact try_pose_param_rotation. Qed.
Print Assumptions C43_pose_param.

Theorem C43_intrinsics_file : forall load path out, exists b k,
  tryIntrinsics_file load path out = Ok (b, k) /\
  (b = true <-> exists n, load path = Some n /\ says_intr n k) /\ (b = false -> k = out).
Proof. exact try_intr_file. Qed.
Print Assumptions C43_intrinsics_file.

Theorem C43_pose_file : forall load path out, exists b T,
  tryPose_file load path out = Ok (b, T) /\
  (b = true <-> exists n, load path = Some n /\ exists q, says_pose n (tr T) q /\ lin T = q_matrix q) /\ (b = false -> T = out).
Proof. exact try_pose_file. Qed.
Print Assumptions C43_pose_file.

(** When they return true. *)
Theorem C43_success_param : forall server key k0 T0,
  ((exists k, tryIntrinsics_param server key k0 = Ok (true, k)) <-> exists v k, server key = Some v /\ param_intr v k) /\
  ((exists T, tryPose_param server key T0 = Ok (true, T)) <-> exists v t q, server key = Some v /\ param_pose v t q).
Proof. exact (fun server key k0 T0 => conj (intr_param_success server key k0) (pose_param_success server key T0)). Qed.
Print Assumptions C43_success_param.

Theorem C43_success_file : forall load path k0 T0,
  ((exists k, tryIntrinsics_file load path k0 = Ok (true, k)) <-> exists n k, load path = Some n /\ says_intr n k) /\
  ((exists T, tryPose_file load path T0 = Ok (true, T)) <-> exists n t q, load path = Some n /\ says_pose n t q).
Proof. exact (fun load path k0 T0 => conj (intr_file_success load path k0) (pose_file_success load path T0)). Qed.
Print Assumptions C43_success_file.

(** In full: both pose loaders give the same transform for the same fields. They do not. *)
Theorem C43_loaders_agree_refuted :
  ~ (forall server key load path v n t q,
       server key = Some v -> param_pose v t q -> load path = Some n -> says_pose n t q ->
       loadPose_param server key = loadPose_file load path).
Proof. exact loaders_differ. Qed.
Print Assumptions C43_loaders_agree_refuted.

(** The parameter loader normalises the quaternion and the file loader does not. They agree exactly when the
    quaternion has length one, or has no vector part. *)
Theorem C43_loaders_agree_partial : forall server key load path v n t q,
  server key = Some v -> param_pose v t q -> load path = Some n -> says_pose n t q ->
  (q <> zero_quat -> loadPose_param server key = Ok (Iso (q_matrix (unit_quat q)) t)) /\
  loadPose_file load path = Ok (Iso (q_matrix q) t) /\
  (loadPose_param server key = loadPose_file load path <-> qnorm2 q = 1 \/ qvec q = vzero).
Proof. exact both_loaders. Qed.
Print Assumptions C43_loaders_agree_partial.

(** A whole number is refused as a parameter and accepted in a file. *)
Theorem C43_integers : forall server key load path v n k z m1 m2,
  server key = Some v -> member "fx" v (XInt z) ->
  load path = Some n -> says_intr n k -> n = YMap (m1 ++ ("fx", YInt z) :: m2) -> ~ In "fx" (map fst m1) ->
  loadIntrinsics_param server key = Throw InvalidParameter /\ loadIntrinsics_file load path = Ok k /\ fx k = IZR z.
Proof. exact integers. Qed.
Print Assumptions C43_integers.

(** Both descriptions of one pose. *)
Example C43_described : param_pose long_params vzero (Q 0 2 0 0) /\ says_pose long_yaml vzero (Q 0 2 0 0).
Proof. exact long_says. Qed.
(** A focal length written as a whole number *)
Example C43_whole_number : member "fx" whole_params (XInt 500) /\ says_intr whole_yaml (Intr 500 500 320 240).
Proof. exact whole_says. Qed.
Example C43_whole_number_loads : loadIntrinsics_param (fun _ => Some whole_params) "camera" = Throw InvalidParameter /\
  loadIntrinsics_file (fun _ => Some whole_yaml) "camera.yaml" = Ok (Intr 500 500 320 240).
Proof. exact whole_loads. Qed.
