(** How well a kinematic calibration fits, and the hand-eye problem that it is if the chains are held. *)
From Coq Require Import Reals ZArith List.
From Verif.Base Require Import Geom Outcome Matrix.
From Verif.Model Require Import Pose HandEye DhChain LocalParam Kinematic.
From Verif.Spec Require Import KinSpec UniqueSpec SameDataSpec KinUniqueSpec KinReport.
Import ListNotations.
Local Open Scope R_scope.

(** What the calibration may find: elements that are held are those of the guess, and zero for offsets. *)
Definition may_choose (com : kin_common) (m : memory) : Prop :=
  forall k i, (k < 8)%nat -> (i < block_size com k)%nat -> held com k i -> m k i = kin_memory0 com k i.
Definition may_find (com : kin_common) (e : kin_estimate) : Prop :=
  exists m, may_choose com m /\ same_estimate e (stored_estimate com m).

(** Half the sum of the squared offsets, each over the standard deviation *)
Definition offset_error (sd : R) (offsets : matrix) : R :=
  half_squares (flat_map (fun j => map (fun i => ent offsets i j / sd) (seq 0 (rows offsets))) (seq 0 4)).
(** The whole error of an estimate: [errors] gives what is wrong with every observation. *)
Definition whole_error (com : kin_common) (errors : kin_estimate -> list (res (list R))) (e : kin_estimate) (c : R) : Prop :=
  exists vs, Forall2 (fun x v => x = Ok v) (errors e) vs /\
    c = half_squares (concat vs) + offset_error (kc_camera_chain_offset_stdev com) (ke_camera_offsets e) +
        offset_error (kc_target_chain_offset_stdev com) (ke_target_offsets e).
(** Nothing else that the calibration may find has a smaller error. *)
Definition best_estimate (com : kin_common) (errors : kin_estimate -> list (res (list R))) (e : kin_estimate) : Prop :=
  may_find com e /\ exists c, whole_error com errors e c /\
  forall e' c', may_find com e' -> whole_error com errors e' c' -> c <= c'.

(** The number of numbers whose squares are summed: [n] from the observations, and one for every offset of a chain that has
    some offset to find. *)
Definition any_free (com : kin_common) (k : nat) : Prop := exists i, (i < block_size com k)%nat /\ ~ held com k i.
Definition counted (com : kin_common) (n total : nat) : Prop :=
  exists a b, total = (n + a + b)%nat /\
    (any_free com 0 -> a = (4 * dof (kc_camera_chain com))%nat) /\ (~ any_free com 0 -> a = 0%nat) /\
    (any_free com 1 -> b = (4 * dof (kc_target_chain com))%nat) /\ (~ any_free com 1 -> b = 0%nat).

(** What a result reports: it is one that may be found, and the error is the whole error over the number of numbers. *)
Definition reports (com : kin_common) (errors : kin_estimate -> list (res (list R))) (n : nat) (r : kin_result) : Prop :=
  may_find com (result_estimate r) /\
  exists total c, counted com n total /\ whole_error com errors (result_estimate r) c /\ kr_final_cost_per_obs r = c / INR total.

(** Two set-ups that differ in the masks and labels only, the second holding less *)
Definition same_setup (com com' : kin_common) : Prop :=
  kc_camera_chain com' = kc_camera_chain com /\ kc_target_chain com' = kc_target_chain com /\
  kc_camera_mount_to_camera_guess com' = kc_camera_mount_to_camera_guess com /\
  kc_target_mount_to_target_guess com' = kc_target_mount_to_target_guess com /\
  kc_camera_base_to_target_base_guess com' = kc_camera_base_to_target_base_guess com /\
  kc_camera_chain_offset_stdev com' = kc_camera_chain_offset_stdev com /\
  kc_target_chain_offset_stdev com' = kc_target_chain_offset_stdev com.
Definition holds_less (com com' : kin_common) : Prop := forall k i, held com' k i -> held com k i.

(** The offsets of both chains and the transform between the bases are held, the mounts are not. *)
Definition chains_held (com : kin_common) : Prop :=
  forall k i, (k = 0 \/ k = 1)%nat -> (i < block_size com k)%nat -> held com k i.
Definition bases_held (com : kin_common) : Prop := forall k i, (k = 6 \/ k = 7)%nat -> (i < 3)%nat -> masked com k i.
Definition mounts_free (com : kin_common) : Prop := forall k i, (2 <= k <= 5)%nat -> ~ masked com k i.
(** The same observation for the hand-eye calibration: the mounts are the tips of the chains as designed, both in the frame of
    the base of the camera chain. *)
Definition as_hand_eye (com : kin_common) (o : kin_observation vec2) (h : observation vec2) : Prop :=
  exists Fc Ft, tips (kc_camera_chain com) (kc_target_chain com) (ko_camera_chain_joints o) (ko_target_chain_joints o) Fc Ft /\
    to_camera_mount h = Fc /\ to_target_mount h = iso_mul (kc_camera_base_to_target_base_guess com) Ft /\
    correspondence_set h = ko_correspondence_set o.

(** All points are in front of the camera, by more than the depth below which the projection is another. *)
Definition clear_view (ss : list (sighting vec2)) (X Z : iso) : Prop :=
  rigid X /\ rigid Z /\ forall s, In s ss -> 1 / 10 ^ 10 < vz (seen_at X Z s).

(** What is wrong with the observations, in images and as measured poses *)
Definition image_errors (p : kin_problem2D3D) (e : kin_estimate) : list (res (list R)) :=
  map (reproject (k2_intr p) (k2_common p) e) (kin_pairs (k2_observations p)).
Definition pose_errors (w : R) (p : kin_problemPose6D) (e : kin_estimate) : list (res (list R)) :=
  map (KinReport.pose_error w (k6_common p) e) (k6_observations p).
