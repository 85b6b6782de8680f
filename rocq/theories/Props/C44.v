(** C44: YAML round trip of problems and building blocks. *)
From Coq Require Import Reals ZArith String List Lra.
From Verif.Base Require Import Geom Outcome.
From Verif.Model Require Import Pose HandEye DhChain Yaml Serialization.
From Verif.Spec Require Import YamlSpec.
From Verif.Proofs Require HandEyeProofs.
From Verif.Proofs Require Import YamlProofs EulerProofs MoreExamples.
Import ListNotations.
Local Open Scope R_scope.

Theorem C44_vectors : forall v2 v3, as_ decode_vec2 (encode_vec2 v2) = Ok v2 /\ as_ decode_vec3 (encode_vec3 v3) = Ok v3.
Proof. exact (fun v2 v3 => conj (vec2_round v2) (vec3_round v3)). Qed.
Print Assumptions C44_vectors.

Theorem C44_transform : forall T, rigid T -> as_ decode_iso (encode_iso T) = Ok T.
Proof. exact iso_round. Qed.
Print Assumptions C44_transform.

Theorem C44_intrinsics : forall k, as_ decode_intr (encode_intr k) = Ok k.
Proof. exact intr_round. Qed.
Print Assumptions C44_intrinsics.

Theorem C44_correspondences : forall c2 c3,
  as_ (decode_corr decode_vec2) (encode_corr encode_vec2 c2) = Ok c2 /\
  as_ (decode_corr decode_vec3) (encode_corr encode_vec3 c3) = Ok c3.
Proof. exact (fun c2 c3 => conj (corr_round _ _ c2 vec2_round) (corr_round _ _ c3 vec3_round)). Qed.
Print Assumptions C44_correspondences.

Theorem C44_observations : forall o2 o3, rigid_observation o2 -> rigid_observation o3 ->
  as_ (decode_obs decode_vec2) (encode_obs encode_vec2 o2) = Ok o2 /\
  as_ (decode_obs decode_vec3) (encode_obs encode_vec3 o3) = Ok o3.
Proof. exact (fun o2 o3 R2 R3 => conj (obs_round _ _ o2 vec2_round R2) (obs_round _ _ o3 vec3_round R3)). Qed.
Print Assumptions C44_observations.

(** Lists of any length, for any element that survives the round trip. *)
Theorem C44_lists : forall A (e : A -> yaml) (d : decoder A) l,
  (forall a, In a l -> as_ d (e a) = Ok a) -> as_ (decode_seq d) (encode_seq e l) = Ok l.
Proof. exact @seq_round. Qed.
Print Assumptions C44_lists.

(** Problems: everything but the labels comes back; the labels are reset to the default ones. *)
Theorem C44_problem_2D3D : forall p,
  rigid (h2_camera_guess p) -> rigid (h2_target_guess p) -> (forall o, In o (h2_observations p) -> rigid_observation o) ->
  as_ decode_problem2D3D (encode_problem2D3D p) =
  Ok (HEP2 (h2_observations p) (h2_intr p) (h2_target_guess p) (h2_camera_guess p) default_he_labels).
Proof. exact problem2_round. Qed.
Print Assumptions C44_problem_2D3D.

Theorem C44_problem_3D3D : forall p,
  rigid (h3_camera_guess p) -> rigid (h3_target_guess p) -> (forall o, In o (h3_observations p) -> rigid_observation o) ->
  as_ decode_problem3D3D (encode_problem3D3D p) =
  Ok (HEP3 (h3_observations p) (h3_target_guess p) (h3_camera_guess p) default_he_labels).
Proof. exact problem3_round. Qed.
Print Assumptions C44_problem_3D3D.

(** A problem with labels of its own never comes back as it was. *)
Theorem C44_labels_lost : forall p2 p3, h2_labels p2 <> default_he_labels -> h3_labels p3 <> default_he_labels ->
  as_ decode_problem2D3D (encode_problem2D3D p2) <> Ok p2 /\ as_ decode_problem3D3D (encode_problem3D3D p3) <> Ok p3.
Proof. exact labels_lost. Qed.
Print Assumptions C44_labels_lost.

(** What is accepted, and as what: exactly the documents that name all the numbers. *)
Theorem C44_reads_vectors : forall n v2 v3,
  (as_ decode_vec2 n = Ok v2 <-> says_vec2 n v2) /\ (as_ decode_vec3 n = Ok v3 <-> says_vec3 n v3).
Proof. exact (fun n v2 v3 => conj (vec2_reads n v2) (vec3_reads n v3)). Qed.
Print Assumptions C44_reads_vectors.

Theorem C44_reads_transform : forall n T, as_ decode_iso n = Ok T <-> exists q, says_pose n (tr T) q /\ lin T = q_matrix q.
Proof. exact iso_reads. Qed.
Print Assumptions C44_reads_transform.

Theorem C44_reads_intrinsics : forall n k, as_ decode_intr n = Ok k <-> says_intr n k.
Proof. exact intr_reads. Qed.
Print Assumptions C44_reads_intrinsics.

(** Maps of the wrong size are refused. *)
Theorem C44_wrong_size : forall n,
  (ysize n <> 4 -> as_ decode_intr n = Throw YamlException /\ as_ decode_problem2D3D n = Throw YamlException)%nat /\
  (ysize n <> 2 -> forall I (di : decoder I), as_ (decode_corr di) n = Throw YamlException)%nat /\
  (ysize n <> 3 -> (forall I (di : decoder I), as_ (decode_obs di) n = Throw YamlException) /\ as_ decode_problem3D3D n = Throw YamlException)%nat /\
  (ysize n <> 7 -> forall c, as_ (decode_result c) n = Throw YamlException)%nat.
Proof. exact wrong_size. Qed.
Print Assumptions C44_wrong_size.

(** DH chains can only be read. The joints come back in order with the given parameters and default limits. *)
Theorem C44_reads_chain : forall text seeds n base q bn l js,
  has "base_transform" n bn -> says_pose bn (tr base) q -> lin base = q_matrix q ->
  has "dh_transforms" n (YSeq l) -> Forall2 says_joint l js ->
  exists c, as_ (decode_dh_chain text seeds) n = Ok c /\ base_offset c = base /\
    Forall2 (fun t j => params t = params j /\ jtype t = jtype j /\ jname t = jname j /\ jmax t = PI /\ jmin t = - PI) (transforms c) js.
Proof. exact chain_reads. Qed.
Print Assumptions C44_reads_chain.

Theorem C44_bad_joint_type : forall text seed n z,
  has "type" n (YInt z) -> (2 <= z < 2 ^ 32)%Z -> as_ (decode_dh_transform text seed) n = Throw RuntimeError.
Proof. exact bad_joint. Qed.
Print Assumptions C44_bad_joint_type.

(** A half turn, where the quaternion's scalar part is zero. *)
Example C44_half_turn : rigid (Iso (rot_z PI) (V3 1 2 3)) /\ as_ decode_iso (encode_iso (Iso (rot_z PI) (V3 1 2 3))) = Ok (Iso (rot_z PI) (V3 1 2 3)).
Proof. split; [ | apply iso_round ]; apply rot_z_rot. Qed.
(** A problem, and a chain with a joint of each kind *)
Example C44_problem : rigid (h2_camera_guess HandEyeProofs.ex_he) /\ rigid (h2_target_guess HandEyeProofs.ex_he) /\
  (forall o, In o (h2_observations HandEyeProofs.ex_he) -> rigid_observation o).
Proof. exact ex_problem_rigid. Qed.
Example C44_chain : forall text seeds, exists c, as_ (decode_dh_chain text seeds) chain_yaml = Ok c /\
  map jname (transforms c) = ["slide"; "turn"]%string /\ map jtype (transforms c) = [LINEAR; REVOLUTE].
Proof. exact chain_loads. Qed.
