(** When a kinematic calibration has only one solution. *)
From Coq Require Import Reals List.
From Verif.Base Require Import Geom Outcome Matrix.
From Verif.Model Require Import Pose Solver HandEye DhChain LocalParam Kinematic.
From Verif.Spec Require Import KinSpec KinReport KinExampleSpec UniqueSpec RedundancySpec.
Import ListNotations.
Local Open Scope R_scope.

(** The solver reports the cost of the values at which it ends, if the residuals can be evaluated where it starts. *)
Definition honest_kin (solve : kin_solver) : Prop :=
  forall residuals p m0 m s, solve residuals p m0 = (m, s) ->
  (exists vs, mapM (fun f : kin_residual => f m0) residuals = Ok vs) -> cost_is residuals m (final_cost s).

(** Chains that are just as they were designed. *)
Definition as_designed (cam tgt : dh_chain) (C T B : iso) : kin_estimate :=
  KE C T B (no_offsets (dof cam)) (no_offsets (dof tgt)).
(** Where the tips of the two chains are at these joint positions, in the frames of their bases. *)
Definition tips (cam tgt : dh_chain) (qc qt : list R) (Fc Ft : iso) : Prop :=
  getFK cam qc (no_offsets (dof cam)) = Ok Fc /\ getFK tgt qt (no_offsets (dof tgt)) = Ok Ft.
(** At some position of the camera chain, the target chain turned about two axes. *)
Definition target_moves (cam tgt : dh_chain) (joints : list (list R * list R)) : Prop :=
  exists Fc Fts, two_axes (motions_of Fts) /\
    forall Ft, In Ft Fts -> exists qc qt, In (qc, qt) joints /\ tips cam tgt qc qt Fc Ft.
(** At some position of the target chain, the camera chain turned about two axes: these are the motions of its base in the
    frame of its tip. *)
Definition camera_moves (cam tgt : dh_chain) (joints : list (list R * list R)) : Prop :=
  exists Ft Fcs, two_axes (motions_of (map iso_inv Fcs)) /\
    forall Fc, In Fc Fcs -> exists qc qt, In (qc, qt) joints /\ tips cam tgt qc qt Fc Ft.
(** The camera stays where it is. *)
Definition camera_stays (cam tgt : dh_chain) (joints : list (list R * list R)) (Fc : iso) : Prop :=
  forall qc qt, In (qc, qt) joints -> exists Ft, tips cam tgt qc qt Fc Ft.

(** The joint positions of measurements and of observations *)
Definition measured_at (o : kin_measurement) : list R * list R := (km_camera_chain_joints o, km_target_chain_joints o).
Definition observed_at (o : kin_observation vec2) : list R * list R := (ko_camera_chain_joints o, ko_target_chain_joints o).
(** [P] is where the target should be in the camera frame at these joint positions. *)
Definition places (cam tgt : dh_chain) (e : kin_estimate) (at_ : list R * list R) (P : iso) : Prop :=
  exists Fc Ft,
    getFK cam (fst at_) (ke_camera_offsets e) = Ok Fc /\ getFK tgt (snd at_) (ke_target_offsets e) = Ok Ft /\
    P = kin_target_in_camera Fc (ke_camera_mount_to_camera e) (ke_camera_base_to_target_base e) Ft
          (ke_target_mount_to_target e).
(** The target base in the frame of the camera, for a camera chain with its tip at [Fc]. *)
Definition base_in_camera (Fc : iso) (e : kin_estimate) : iso :=
  iso_mul (iso_inv (iso_mul Fc (ke_camera_mount_to_camera e))) (ke_camera_base_to_target_base e).
(** The result has no offsets: the chains are as they were designed. *)
Definition plain_result (com : kin_common) (r : kin_result) : Prop :=
  same_matrix (kr_camera_chain_dh_offsets r) (no_offsets (dof (kc_camera_chain com))) /\
  same_matrix (kr_target_chain_dh_offsets r) (no_offsets (dof (kc_target_chain com))).
