(** Errors of a kinematic calibration result on the observations. *)
From Coq Require Import Reals ZArith Sorted String List.
From Verif.Base Require Import Geom Outcome Matrix.
From Verif.Model Require Import Pose Covariance HandEye DhChain LocalParam Solver Kinematic.
From Verif.Spec Require Import FreezeSpec KinSpec.
Import ListNotations.
Local Open Scope R_scope.

(** Every correspondence with the observation it belongs to. *)
Definition kin_pairs (os : list (kin_observation vec2)) : list (kin_observation vec2 * correspondence vec2) :=
  flat_map (fun o => map (fun c => (o, c)) (ko_correspondence_set o)) os.

(** What is being estimated: the three mounting transforms and the DH offsets of both chains. *)
Record kin_estimate := KE {
  ke_camera_mount_to_camera : iso;
  ke_target_mount_to_target : iso;
  ke_camera_base_to_target_base : iso;
  ke_camera_offsets : matrix;
  ke_target_offsets : matrix }.
Definition result_estimate (r : kin_result) : kin_estimate :=
  KE (kr_camera_mount_to_camera r) (kr_target_mount_to_target r) (kr_camera_base_to_target_base r)
     (kr_camera_chain_dh_offsets r) (kr_target_chain_dh_offsets r).
(** The estimate stored in the parameter blocks: blocks 0 and 1 hold the offsets of the two chains,
    column by column; each pair of the others a translation and an axis-angle vector. *)
Definition stored_estimate (com : kin_common) (m : memory) : kin_estimate :=
  KE (createTransform (read3 m 2) (read3 m 3)) (createTransform (read3 m 4) (read3 m 5))
     (createTransform (read3 m 6) (read3 m 7))
     (Mat (dof (kc_camera_chain com)) 4 (fun i j => m 0%nat (j * dof (kc_camera_chain com) + i)%nat))
     (Mat (dof (kc_target_chain com)) 4 (fun i j => m 1%nat (j * dof (kc_target_chain com) + i)%nat)).
Definition same_estimate (a b : kin_estimate) : Prop :=
  ke_camera_mount_to_camera a = ke_camera_mount_to_camera b /\
  ke_target_mount_to_target a = ke_target_mount_to_target b /\
  ke_camera_base_to_target_base a = ke_camera_base_to_target_base b /\
  same_matrix (ke_camera_offsets a) (ke_camera_offsets b) /\
  same_matrix (ke_target_offsets a) (ke_target_offsets b).

(** Reprojection error of one correspondence under an estimate. *)
Definition reproject (k : intrinsics) (com : kin_common) (e : kin_estimate)
  (oc : kin_observation vec2 * correspondence vec2) : res (list R) :=
  do Fc <- getFK (kc_camera_chain com) (ko_camera_chain_joints (fst oc)) (ke_camera_offsets e);
  do Ft <- getFK (kc_target_chain com) (ko_target_chain_joints (fst oc)) (ke_target_offsets e);
  let q := projectPoint_eig k (iso_app
      (kin_target_in_camera Fc (ke_camera_mount_to_camera e) (ke_camera_base_to_target_base e) Ft
         (ke_target_mount_to_target e)) (in_target (snd oc))) in
  Ok [px q - px (in_image (snd oc)); py q - py (in_image (snd oc))].
(** Position error and weighted orientation error of one measured pose under an estimate. *)
Definition pose_error (w : R) (com : kin_common) (e : kin_estimate) (o : kin_measurement) : res (list R) :=
  do Fc <- getFK (kc_camera_chain com) (km_camera_chain_joints o) (ke_camera_offsets e);
  do Ft <- getFK (kc_target_chain com) (km_target_chain_joints o) (ke_target_offsets e);
  let P := kin_target_in_camera Fc (ke_camera_mount_to_camera e) (ke_camera_base_to_target_base e) Ft
         (ke_target_mount_to_target e) in
  let E := iso_mul (km_camera_to_target o) (iso_inv P) in
  Ok [vx (tr E); vy (tr E); vz (tr E);
      w * angular_distance (quat_of_mat (lin (km_camera_to_target o))) (quat_of_mat (lin P))].

(** Sizes of the parameter blocks: four per joint (one imaginary joint if there are none), three for
    every translation and rotation. *)
Definition block_size (com : kin_common) (k : nat) : nat :=
  match k with
  | 0 => Nat.max 1 (dof (kc_camera_chain com)) * 4
  | 1 => Nat.max 1 (dof (kc_target_chain com)) * 4
  | _ => 3
  end%nat.
(** Element [i] of block [k] is to be held constant: it is masked, or belongs to the imaginary joint
    of a chain without joints. *)
Definition masked (com : kin_common) (k i : nat) : Prop := In (Z.of_nat i) (nth k (kc_mask com) []).
Definition held (com : kin_common) (k i : nat) : Prop :=
  masked com k i \/ (k = 0%nat /\ dof (kc_camera_chain com) = 0%nat) \/
  (k = 1%nat /\ dof (kc_target_chain com) = 0%nat).
(** Residuals of the prior on a chain's offsets: every offset over the standard deviation. *)
Definition offset_prior (c : dh_chain) (k : nat) (sd : R) (m : memory) : list R :=
  map (fun e => m k e / sd) (seq 0 (dof c * 4)).
(** The optimization problem the solver should be given: the eight blocks, exactly the right elements
    constant, the errors of the observations as residuals followed by the priors of the chains that
    have something to optimize. *)
Definition right_problem (com : kin_common) (errors : kin_estimate -> list (res (list R)))
  (residuals : list kin_residual) (p : problem) : Prop :=
  (forall k n, In (k, n) (p_blocks p) <-> (k < 8)%nat /\ n = block_size com k) /\
  (forall k i, (k < 8)%nat -> (i < block_size com k)%nat -> (frozen p k i <-> held com k i)) /\
  exists obs prior1 prior2, residuals = (obs ++ prior1 ++ prior2)%list /\
    (forall m, map (fun f : kin_residual => f m) obs = errors (stored_estimate com m)) /\
    (prior1 = [] /\ (forall i, (i < block_size com 0)%nat -> held com 0 i) \/
     (exists i, (i < block_size com 0)%nat /\ ~ held com 0 i) /\ forall m, map (fun f : kin_residual => f m) prior1 =
       [Ok (offset_prior (kc_camera_chain com) 0 (kc_camera_chain_offset_stdev com) m)]) /\
    (prior2 = [] /\ (forall i, (i < block_size com 1)%nat -> held com 1 i) \/
     (exists i, (i < block_size com 1)%nat /\ ~ held com 1 i) /\ forall m, map (fun f : kin_residual => f m) prior2 =
       [Ok (offset_prior (kc_target_chain com) 1 (kc_target_chain_offset_stdev com) m)]).

(** The solver does not change parameters that are held constant. *)
Definition keeps_frozen (solve : kin_solver) : Prop :=
  forall residuals p m m' s, solve residuals p m = (m', s) ->
  forall b i, frozen p b i -> m' b i = m b i.
(** There are eight masks, whose entries are inside the parameter blocks. *)
Definition masks_fit (com : kin_common) : Prop :=
  length (kc_mask com) = 8%nat /\
  forall k m z, nth_error (kc_mask com) k = Some m -> In z m -> (0 <= z < Z.of_nat (block_size com k))%Z.

(** The guesses are rigid transforms that turn by nothing or by more than machine epsilon. *)
Definition guesses_plain (com : kin_common) : Prop :=
  turns_enough (kc_camera_mount_to_camera_guess com) /\ turns_enough (kc_target_mount_to_target_guess com) /\
  turns_enough (kc_camera_base_to_target_base_guess com).
Definition no_offsets (n : nat) : matrix := Mat n 4 (fun _ _ => 0).
(** The start: guesses and no offsets. *)
Definition guess_estimate (com : kin_common) : kin_estimate :=
  KE (kc_camera_mount_to_camera_guess com) (kc_target_mount_to_target_guess com) (kc_camera_base_to_target_base_guess com)
     (no_offsets (dof (kc_camera_chain com))) (no_offsets (dof (kc_target_chain com))).

(** What the elements of the parameter blocks are called. *)
Definition chain_label (c : dh_chain) (e : nat) : string :=
  String.append (nth (e mod dof c) (map jname (transforms c)) EmptyString)
                (nth (e / dof c) ["_d"; "_theta"; "_r"; "_alpha"]%string EmptyString).
Definition element_label (com : kin_common) (k e : nat) : string :=
  let position := nth e ["_x"; "_y"; "_z"]%string EmptyString in
  let rotation := nth e ["_rx"; "_ry"; "_rz"]%string EmptyString in
  match k with
  | 0 => chain_label (kc_camera_chain com) e
  | 1 => chain_label (kc_target_chain com) e
  | 2 => String.append (kc_label_camera_mount_to_camera com) position
  | 3 => String.append (kc_label_camera_mount_to_camera com) rotation
  | 4 => String.append (kc_label_target_mount_to_target com) position
  | 5 => String.append (kc_label_target_mount_to_target com) rotation
  | 6 => String.append (kc_label_camera_base_to_target com) position
  | _ => String.append (kc_label_camera_base_to_target com) rotation
  end%nat.
(** Names of the parameters in the covariance report of a result. *)
Definition reported_names (r : kin_result) : list string :=
  map (fun p => fst (np_names p)) (standard_deviations (kr_covariance r)).
(** What is printed for one block: the labels of its free elements, in order. *)
Definition prints_free (p : problem) (names : amap string) (labels : amap (list string))
  (blk : nat * nat) (line : string * list string) : Prop :=
  let '(b, n) := blk in
  find_key b names = Some (fst line) /\
  exists label free, find_key b labels = Some label /\
    StronglySorted lt free /\ (forall i, In i free <-> (i < n)%nat /\ ~ frozen p b i) /\
    snd line = map (fun i => nth i label EmptyString) free.
