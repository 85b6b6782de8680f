(** One set of data for a kinematic calibration, described in two ways. *)
From Coq Require Import Reals List Permutation.
From Verif.Base Require Import Geom Outcome Matrix.
From Verif.Model Require Import Pose HandEye DhChain Kinematic.
From Verif.Spec Require Import KinSpec UniqueSpec SameDataSpec KinUniqueSpec KinReport KinFitSpec.
Import ListNotations.
Local Open Scope R_scope.

(** The choices of the second description: the unit of length (one old unit is [kin_unit] new ones), the poses of the old
    frames of the bases of the two chains in the new ones, and the poses of the new frames of the camera and of the target in
    the old ones; all in new units. *)
Record kin_choices := KinChoices {
  kin_unit : R;
  old_camera_base : iso;
  old_target_base : iso;
  kin_camera : iso;
  kin_target : iso }.
Definition kin_sensible (h : kin_choices) : Prop :=
  0 < kin_unit h /\ rigid (old_camera_base h) /\ rigid (old_target_base h) /\ rigid (kin_camera h) /\ rigid (kin_target h).

(** A calibration in the new frames and units *)
Definition camera_anew (h : kin_choices) (X : iso) : iso := iso_mul (in_unit (kin_unit h) X) (kin_camera h).
Definition target_anew (h : kin_choices) (Z : iso) : iso := iso_mul (in_unit (kin_unit h) Z) (kin_target h).
Definition bases_anew (h : kin_choices) (K : iso) : iso :=
  iso_mul (iso_mul (old_camera_base h) (in_unit (kin_unit h) K)) (iso_inv (old_target_base h)).
(** Offsets: columns 0 and 2 are lengths, columns 1 and 3 are angles. *)
Definition offsets_anew (s : R) (o : matrix) : matrix :=
  Mat (rows o) (cols o) (fun i j => if Nat.even j then s * ent o i j else ent o i j).
Definition estimate_anew (h : kin_choices) (e : kin_estimate) : kin_estimate :=
  KE (camera_anew h (ke_camera_mount_to_camera e)) (target_anew h (ke_target_mount_to_target e))
     (bases_anew h (ke_camera_base_to_target_base e))
     (offsets_anew (kin_unit h) (ke_camera_offsets e)) (offsets_anew (kin_unit h) (ke_target_offsets e)).

(** The same chain with another frame for its base and in another unit, and the same joint positions *)
Definition chain_anew (A : iso) (s : R) (c c' : dh_chain) : Prop :=
  Forall2 (fun t t' => jtype t' = jtype t /\
      params t' = V4 (s * e0 (params t)) (e1 (params t)) (s * e2 (params t)) (e3 (params t))) (transforms c) (transforms c') /\
  base_offset c' = iso_mul A (in_unit s (base_offset c)).
Definition joint_anew (s : R) (t : dh_transform) (q : R) : R := match jtype t with LINEAR => s * q | _ => q end.
Definition joints_anew (s : R) (c : dh_chain) (q q' : list R) : Prop :=
  length q' = length q /\
  forall i t v, nth_error (transforms c) i = Some t -> nth_error q i = Some v -> nth_error q' i = Some (joint_anew s t v).

(** A pose, in blocks [k] and [k + 1], that becomes another by [f]: nothing of it is held; or all of it is and the new guess
    is the same place; or nothing changes for it. *)
Definition pose_anew (com : kin_common) (k : nat) (f : iso -> iso) (g g' : iso) : Prop :=
  (forall i, (i < 3)%nat -> ~ masked com k i /\ ~ masked com (k + 1) i) \/
  (turns_enough g /\ turns_enough g' /\ g' = f g /\ forall i, (i < 3)%nat -> masked com k i /\ masked com (k + 1) i) \/
  ((forall T, f T = T) /\ g' = g).
(** The prior on the offsets of a chain if all other errors become [q] times as large: the standard deviation is that of the
    new unit. It is one number for lengths and angles. If all offsets are held it does not matter. *)
Definition lengths_held (com : kin_common) (k : nat) (c : dh_chain) : Prop :=
  forall i j, (i < dof c)%nat -> j = 0%nat \/ j = 2%nat -> held com k (j * dof c + i).
Definition angles_held (com : kin_common) (k : nat) (c : dh_chain) : Prop :=
  forall i j, (i < dof c)%nat -> j = 1%nat \/ j = 3%nat -> held com k (j * dof c + i).
Definition prior_anew (q s : R) (com : kin_common) (k : nat) (c : dh_chain) (sd sd' : R) : Prop :=
  (q * sd' = sd /\ (s = 1 \/ lengths_held com k c)) \/ (q * sd' = s * sd /\ angles_held com k c) \/
  (lengths_held com k c /\ angles_held com k c).
(** The same chains and the same freedom, with the guesses in the new frames as far as they matter *)
Definition frames_anew (h : kin_choices) (com com' : kin_common) : Prop :=
  chain_anew (old_camera_base h) (kin_unit h) (kc_camera_chain com) (kc_camera_chain com') /\
  chain_anew (old_target_base h) (kin_unit h) (kc_target_chain com) (kc_target_chain com') /\
  rigid (base_offset (kc_camera_chain com)) /\ rigid (base_offset (kc_target_chain com)) /\
  (forall k i, masked com' k i <-> masked com k i) /\
  pose_anew com 2 (camera_anew h) (kc_camera_mount_to_camera_guess com) (kc_camera_mount_to_camera_guess com') /\
  pose_anew com 4 (target_anew h) (kc_target_mount_to_target_guess com) (kc_target_mount_to_target_guess com') /\
  pose_anew com 6 (bases_anew h) (kc_camera_base_to_target_base_guess com) (kc_camera_base_to_target_base_guess com').
(** and standard deviations that mean the same *)
Definition setup_anew (h : kin_choices) (q : R) (com com' : kin_common) : Prop :=
  frames_anew h com com' /\
  prior_anew q (kin_unit h) com 0 (kc_camera_chain com) (kc_camera_chain_offset_stdev com) (kc_camera_chain_offset_stdev com') /\
  prior_anew q (kin_unit h) com 1 (kc_target_chain com) (kc_target_chain_offset_stdev com) (kc_target_chain_offset_stdev com').

(** The same observations in another order, in pictures resized by [m] and moved by [d] *)
Definition image_anew (h : kin_choices) (m : R) (d : vec2) (com : kin_common)
  (a b : kin_observation vec2 * correspondence vec2) : Prop :=
  joints_anew (kin_unit h) (kc_camera_chain com) (ko_camera_chain_joints (fst a)) (ko_camera_chain_joints (fst b)) /\
  joints_anew (kin_unit h) (kc_target_chain com) (ko_target_chain_joints (fst a)) (ko_target_chain_joints (fst b)) /\
  in_target (snd b) = iso_app (iso_inv (kin_target h)) (vscale (kin_unit h) (in_target (snd a))) /\
  in_image (snd b) = resized m d (in_image (snd a)).
Definition images_anew (h : kin_choices) (m : R) (d : vec2) (p p' : kin_problem2D3D) : Prop :=
  k2_intr p' = resized_camera m d (k2_intr p) /\
  exists l, Permutation l (kin_pairs (k2_observations p')) /\
    Forall2 (image_anew h m d (k2_common p)) (kin_pairs (k2_observations p)) l.
(** The same measured poses in another order *)
Definition measured_anew (h : kin_choices) (com : kin_common) (a b : kin_measurement) : Prop :=
  joints_anew (kin_unit h) (kc_camera_chain com) (km_camera_chain_joints a) (km_camera_chain_joints b) /\
  joints_anew (kin_unit h) (kc_target_chain com) (km_target_chain_joints a) (km_target_chain_joints b) /\
  rigid (km_camera_to_target a) /\
  km_camera_to_target b =
    iso_mul (iso_inv (kin_camera h)) (iso_mul (in_unit (kin_unit h) (km_camera_to_target a)) (kin_target h)).
Definition poses_anew (h : kin_choices) (p p' : kin_problemPose6D) : Prop :=
  exists l, Permutation l (k6_observations p') /\ Forall2 (measured_anew h (k6_common p)) (k6_observations p) l.

(** All points are in front of the camera by more than [c]. *)
Definition in_sight (c : R) (p : kin_problem2D3D) (e : kin_estimate) : Prop :=
  forall oc P, In oc (kin_pairs (k2_observations p)) ->
  places (kc_camera_chain (k2_common p)) (kc_target_chain (k2_common p)) e (observed_at (fst oc)) P ->
  c < vz (iso_app P (in_target (snd oc))).
(** The best of the estimates that have [D] *)
Definition best_within (D : kin_estimate -> Prop) (com : kin_common) (errors : kin_estimate -> list (res (list R)))
  (e : kin_estimate) : Prop :=
  D e /\ may_find com e /\ exists c, whole_error com errors e c /\
  forall e' c', D e' -> may_find com e' -> whole_error com errors e' c' -> c <= c'.
