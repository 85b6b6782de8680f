(** C46: two observations compare equal only if their poses or joints and their correspondences agree. *)
From Coq Require Import Reals List.
From Verif.Base Require Import Geom Outcome.
From Verif.Model Require Import Pose HandEye Kinematic Targets Yaml Serialization Equality.
From Verif.Spec Require Import EqualitySpec YamlSpec.
From Verif.Proofs Require Import EqualityProofs MoreExamples.
Import ListNotations.
Local Open Scope R_scope.

Theorem C46_correspondences : forall (a b : correspondence vec2) (c d : correspondence vec3),
  (corr_eqb coeffs2 a b = true <-> close_correspondence close2 a b) /\
  (corr_eqb coeffs3 c d = true <-> close_correspondence close3 c d).
Proof. exact (fun a b c d => conj (corr_iff _ _ _ approx2 a b) (corr_iff _ _ _ approx3 c d)). Qed.
Print Assumptions C46_correspondences.

Theorem C46_observations_2D3D : forall a b, rigid_observation a -> rigid_observation b ->
  (obs_eqb coeffs2 a b = true <-> close_observation close2 a b).
Proof. exact (obs_iff _ _ _ approx2). Qed.
Print Assumptions C46_observations_2D3D.

Theorem C46_observations_3D3D : forall a b, rigid_observation a -> rigid_observation b ->
  (obs_eqb coeffs3 a b = true <-> close_observation close3 a b).
Proof. exact (obs_iff _ _ _ approx3). Qed.
Print Assumptions C46_observations_3D3D.

(** Every observation equals itself, and the order of the operands does not matter. *)
Theorem C46_observations_symmetric : forall I (coeffs : I -> list R),
  (forall a, obs_eqb coeffs a a = true) /\ (forall a b, obs_eqb coeffs a b = obs_eqb coeffs b a).
Proof. exact @obs_equivalence. Qed.
Print Assumptions C46_observations_symmetric.

Theorem C46_measurements : forall a b, rigid (km_camera_to_target a) -> rigid (km_camera_to_target b) ->
  (kin_meas_eqb a b = Ok true <-> close_pose (km_camera_to_target a) (km_camera_to_target b) /\
     close_joints (km_camera_chain_joints a) (km_camera_chain_joints b) /\
     close_joints (km_target_chain_joints a) (km_target_chain_joints b)).
Proof. exact meas_iff. Qed.
Print Assumptions C46_measurements.

(** In full: equal kinematic observations agree in joints and correspondences. The correspondences are compared
    with themselves, so this fails. *)
Theorem C46_kinematic_refuted : ~ (forall a b, kin_obs_eqb coeffs2 a b = Ok true -> close_kinematic close2 a b).
Proof. exact kin_wrong. Qed.
Print Assumptions C46_kinematic_refuted.

(** Only the joints count. *)
Theorem C46_kinematic_partial : forall (a b : kin_observation vec2) (c d : kin_observation vec3),
  (kin_obs_eqb coeffs2 a b = Ok true <->
     close_joints (ko_camera_chain_joints a) (ko_camera_chain_joints b) /\ close_joints (ko_target_chain_joints a) (ko_target_chain_joints b)) /\
  (kin_obs_eqb coeffs3 c d = Ok true <->
     close_joints (ko_camera_chain_joints c) (ko_camera_chain_joints d) /\ close_joints (ko_target_chain_joints c) (ko_target_chain_joints d)).
Proof. exact (fun a b c d => conj (kin_iff _ coeffs2 a b) (kin_iff _ coeffs3 c d)). Qed.
Print Assumptions C46_kinematic_partial.

(** Joint vectors of different sizes must not be compared. *)
Theorem C46_sizes_differ : forall (a b : kin_measurement) (c d : kin_observation vec2),
  (isApprox (coeffs_iso (km_camera_to_target a)) (coeffs_iso (km_camera_to_target b)) = true ->
   length (km_camera_chain_joints a) <> length (km_camera_chain_joints b) -> kin_meas_eqb a b = UB) /\
  (length (ko_camera_chain_joints c) <> length (ko_camera_chain_joints d) -> kin_obs_eqb coeffs2 c d = UB).
Proof. exact (fun a b c d => conj (sizes_differ a b) (kin_sizes_differ coeffs2 c d)). Qed.
Print Assumptions C46_sizes_differ.

(** Problems: the observations, the intrinsics (exactly) and both guesses; the labels do not count. *)
Theorem C46_problems_2D3D : forall a b,
  rigid (h2_camera_guess a) -> rigid (h2_target_guess a) -> rigid (h2_camera_guess b) -> rigid (h2_target_guess b) ->
  (forall o, In o (h2_observations a) \/ In o (h2_observations b) -> rigid_observation o) ->
  (problem2D3D_eqb a b = true <->
     Forall2 (close_observation close2) (h2_observations a) (h2_observations b) /\ h2_intr a = h2_intr b /\
     close_pose (h2_target_guess a) (h2_target_guess b) /\ close_pose (h2_camera_guess a) (h2_camera_guess b)).
Proof. exact problem2_iff. Qed.
Print Assumptions C46_problems_2D3D.

Theorem C46_problems_3D3D : forall a b,
  rigid (h3_camera_guess a) -> rigid (h3_target_guess a) -> rigid (h3_camera_guess b) -> rigid (h3_target_guess b) ->
  (forall o, In o (h3_observations a) \/ In o (h3_observations b) -> rigid_observation o) ->
  (problem3D3D_eqb a b = true <->
     Forall2 (close_observation close3) (h3_observations a) (h3_observations b) /\
     close_pose (h3_target_guess a) (h3_target_guess b) /\ close_pose (h3_camera_guess a) (h3_camera_guess b)).
Proof. exact problem3_iff. Qed.
Print Assumptions C46_problems_3D3D.

(** A problem that was written to YAML and read back compares equal to the original. *)
Theorem C46_problems_read_equal : forall p2 p3,
  rigid (h2_camera_guess p2) -> rigid (h2_target_guess p2) -> (forall o, In o (h2_observations p2) -> rigid_observation o) ->
  rigid (h3_camera_guess p3) -> rigid (h3_target_guess p3) -> (forall o, In o (h3_observations p3) -> rigid_observation o) ->
  exists q2 q3,
    as_ decode_problem2D3D (encode_problem2D3D p2) = Ok q2 /\ problem2D3D_eqb p2 q2 = true /\
    as_ decode_problem3D3D (encode_problem3D3D p3) = Ok q3 /\ problem3D3D_eqb p3 q3 = true.
Proof. exact problems_read_equal. Qed.
Print Assumptions C46_problems_read_equal.

(** The tolerance is relative: nothing but the origin itself is close to the origin. *)
Theorem C46_origin : forall b, close3 vzero b <-> b = vzero.
Proof. exact close_origin. Qed.
Print Assumptions C46_origin.

(** Targets *)
Theorem C46_circle_grids : forall a b, circle_grid_eqb a b = true <->
  cg_rows a = cg_rows b /\ cg_cols a = cg_cols b /\ Rabs (cg_spacing a - cg_spacing b) < / 2 ^ 52.
Proof. exact circle_grid_iff. Qed.
Print Assumptions C46_circle_grids.

Theorem C46_aruco_grids : forall a b, aruco_eqb a b = true <->
  bt_width a = bt_width b /\ bt_height a = bt_height b /\ bt_points a = bt_points b /\
  Rabs (bt_length1 a - bt_length1 b) < / 2 ^ 23 /\ Rabs (bt_length2 a - bt_length2 b) < / 2 ^ 23.
Proof. exact aruco_iff. Qed.
Print Assumptions C46_aruco_grids.

Theorem C46_charuco_grids : forall a b, charuco_eqb a b = true <->
  bt_width a = bt_width b /\ bt_height a = bt_height b /\ bt_points a = bt_points b /\
  Rabs (bt_length1 a - bt_length1 b) < / 2 ^ 23 /\ Rabs (bt_length2 a - bt_length2 b) < / 2 ^ 23.
Proof. exact charuco_iff. Qed.
Print Assumptions C46_charuco_grids.

(** Observations with different numbers of correspondences differ. *)
Example C46_differ : obs_eqb coeffs2 (Obs [] iso_id iso_id) (Obs [Corr (V2 1 2) vzero] iso_id iso_id) = false.
Proof. unfold obs_eqb. cbn [correspondence_set list_eqb]. now rewrite Bool.andb_false_r. Qed.
(** Two that are not the same but close enough *)
Example C46_close : rigid_observation near_one /\ rigid_observation near_two /\ close_observation close2 near_one near_two /\ near_one <> near_two.
Proof. exact near_close. Qed.
