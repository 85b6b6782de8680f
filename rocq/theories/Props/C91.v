(** C91: simulated data for kinematic calibration.
    [C] is the pose of the camera and [T] that of the target on their mounts, [B] that of the target base in the camera base.
    Spec/KinUniqueSpec.v has [as_designed], [places] and [tips], Spec/KinExampleSpec.v [predicts]. *)
From Coq Require Import Reals ZArith List.
From Verif.Base Require Import Geom Outcome Matrix.
From Verif.Model Require Import Pose Solver HandEye DhChain LocalParam Kinematic Simulation.
From Verif.Spec Require Import PinHole PnpSpec KinSpec KinReport KinExampleSpec UniqueSpec KinUniqueSpec SimulationSpec.
From Verif.Proofs Require Import GeomLemmas DhProofs SimKinematicProofs SimExamples.
Import ListNotations.
Local Open Scope R_scope.

(** As many observations as asked for, all points, joints within their limits *)
Theorem C91_points :
  forall (G : Type) (seeded : nat -> G) uniform camera_chain target_chain C T B,
  usable_chain camera_chain -> usable_chain target_chain -> in_bounds uniform ->
  forall target n static, exists os st,
  createKinematicObservations3D seeded uniform camera_chain target_chain C T B target n static = Ok (os, st) /\ length os = n /\
  Forall (fun o => let qc := ko_camera_chain_joints o in let qt := ko_target_chain_joints o in
    both_within camera_chain target_chain qc qt /\
    exists P, places camera_chain target_chain (as_designed camera_chain target_chain C T B) (qc, qt) P /\
              ko_correspondence_set o = measured P (sim_points target)) os.
Proof. exact (@kin3_ok). Qed.
Print Assumptions C91_points.

Theorem C91_measurements :
  forall (G : Type) (seeded : nat -> G) uniform camera_chain target_chain C T B,
  usable_chain camera_chain -> usable_chain target_chain -> in_bounds uniform ->
  forall n static, exists ms st,
  createKinematicMeasurements seeded uniform camera_chain target_chain C T B n static = Ok (ms, st) /\ length ms = n /\
  Forall (fun m => both_within camera_chain target_chain (km_camera_chain_joints m) (km_target_chain_joints m) /\
    predicts camera_chain target_chain (as_designed camera_chain target_chain C T B) m (km_camera_to_target m)) ms.
Proof. exact (@measurements_ok). Qed.
Print Assumptions C91_measurements.

(** Images: an error, or observations with enough correspondences in all, each facing the target and with a visible point.
    The last one is needed. *)
Theorem C91_images :
  forall (G : Type) (seeded : nat -> G) uniform camera_chain target_chain C T B,
  usable_chain camera_chain -> usable_chain target_chain -> in_bounds uniform ->
  forall target camera n static,
  createKinematicObservations2D seeded uniform camera_chain target_chain C T B target camera n static = Throw RuntimeError \/
  exists os st,
  createKinematicObservations2D seeded uniform camera_chain target_chain C T B target camera n static = Ok (os, st) /\
  Forall (fun o => let qc := ko_camera_chain_joints o in let qt := ko_target_chain_joints o in
    both_within camera_chain target_chain qc qt /\ ko_correspondence_set o <> [] /\
    exists cp tp, scene camera_chain target_chain C T B qc qt cp tp /\ faces cp tp /\
      seen camera (iso_mul (iso_inv cp) tp) (sim_points target) (ko_correspondence_set o)) os /\
  (length os <= 10 ^ 4)%nat /\ (n * length (sim_points target) <= all_correspondences os)%nat /\
  (forall init last, os = init ++ [last] -> (all_correspondences init < n * length (sim_points target))%nat).
Proof. exact (@kin2_ok). Qed.
Print Assumptions C91_images.

(** So there are at least as many as asked for. *)
Theorem C91_images_count :
  forall camera_chain target_chain C T B target camera n os, sim_points target <> [] ->
  Forall (fun o => let qc := ko_camera_chain_joints o in let qt := ko_target_chain_joints o in
    both_within camera_chain target_chain qc qt /\ ko_correspondence_set o <> [] /\
    exists cp tp, scene camera_chain target_chain C T B qc qt cp tp /\ faces cp tp /\
      seen camera (iso_mul (iso_inv cp) tp) (sim_points target) (ko_correspondence_set o)) os ->
  (n * length (sim_points target) <= all_correspondences os)%nat -> (n <= length os)%nat.
Proof. exact kin2_count. Qed.
Print Assumptions C91_images_count.

(** If the target is always in view, there is no error and there are as many as asked for. *)
Theorem C91_images_in_view :
  forall (G : Type) (seeded : nat -> G) uniform camera_chain target_chain C T B,
  usable_chain camera_chain -> usable_chain target_chain -> in_bounds uniform ->
  forall target camera n static, sim_points target <> [] -> (n <= 10 ^ 4)%nat ->
  always_in_view camera target camera_chain target_chain C T B ->
  exists os st,
  createKinematicObservations2D seeded uniform camera_chain target_chain C T B target camera n static = Ok (os, st) /\
  length os = n.
Proof. exact (@kin2_view). Qed.
Print Assumptions C91_images_in_view.

(** All residuals are zero at the truth. *)
Theorem C91_truth_fits_images :
  forall (G : Type) (seeded : nat -> G) uniform camera_chain target_chain C T B,
  usable_chain camera_chain -> usable_chain target_chain -> in_bounds uniform ->
  forall target camera n static os st o c P m p0 p1 p2 p3 p4 p5 p6 p7,
  createKinematicObservations2D seeded uniform camera_chain target_chain C T B target camera n static = Ok (os, st) ->
  In o os -> In c (ko_correspondence_set o) ->
  places camera_chain target_chain (as_designed camera_chain target_chain C T B)
    (ko_camera_chain_joints o, ko_target_chain_joints o) P ->
  in_front (iso_app P (in_target c)) -> holds_truth camera_chain target_chain C T B m p0 p1 p2 p3 p4 p5 p6 p7 ->
  dualCost2D3D (in_image c) (in_target c) (sim_intr camera) camera_chain target_chain
    (ko_camera_chain_joints o) (ko_target_chain_joints o) (constructParameters p0 p1 p2 p3 p4 p5 p6 p7) m = Ok [0; 0].
Proof. exact (@kin2_truth). Qed.
Print Assumptions C91_truth_fits_images.

Theorem C91_truth_fits_measurements :
  forall (G : Type) (seeded : nat -> G) uniform camera_chain target_chain C T B,
  usable_chain camera_chain -> usable_chain target_chain -> in_bounds uniform ->
  forall n static ms st o w m p0 p1 p2 p3 p4 p5 p6 p7,
  rigid (base_offset camera_chain) -> rigid (base_offset target_chain) -> rigid C -> rigid T -> rigid B -> w <> 0 ->
  createKinematicMeasurements seeded uniform camera_chain target_chain C T B n static = Ok (ms, st) -> In o ms ->
  holds_truth camera_chain target_chain C T B m p0 p1 p2 p3 p4 p5 p6 p7 ->
  dualCostPose6D o camera_chain target_chain w (constructParameters p0 p1 p2 p3 p4 p5 p6 p7) m = Ok [0; 0; 0; 0].
Proof. exact (@measurements_truth). Qed.
Print Assumptions C91_truth_fits_measurements.

(** A board on a turntable in front of a camera that stands still *)
Example C91_example :
  usable_chain ex_still /\ usable_chain ex_turntable /\ sim_points ex_board <> [] /\
  always_in_view makeKinectCamera ex_board ex_still ex_turntable iso_id iso_id ex_opposite.
Proof. exact (conj ex_still_usable (conj ex_turntable_usable (conj ex_board_nonempty ex_turntable_view))). Qed.
(** The robot and the positioner of the tests *)
Example C91_example_robots :
  forall seed, usable_chain (createABBIRB2400 seed) /\ usable_chain (createTwoAxisPositioner seed).
Proof. exact (fun seed => conj (abb_usable seed) (positioner_usable seed)). Qed.
Example C91_example_random :
  in_bounds toy_uniform.
Proof. exact toy_contract. Qed.
