(** C86: what simulated cameras and point sensors see of a target. *)
From Coq Require Import Reals ZArith List.
From Verif.Base Require Import Geom Outcome Matrix.
From Verif.Model Require Import Pose Solver HandEye Simulation.
From Verif.Spec Require Import PinHole Frames SimulationSpec.
From Verif.Proofs Require Import HandEyeProofs UniqueExamples SimulationProofs SimExamples SimCameraProofs.
Import ListNotations.
Local Open Scope R_scope.

(** Without the wish for all points: one correspondence for each visible point and none for the others *)
Theorem C86_seen :
  forall camera_pose target_pose camera target,
  exists cs, getCorrespondences2D camera_pose target_pose camera target false = Ok cs /\
             seen camera (iso_mul (iso_inv camera_pose) target_pose) (sim_points target) cs.
Proof. exact correspondences_seen. Qed.
Print Assumptions C86_seen.

(** What [seen] means *)
Theorem C86_exactly :
  forall camera T ps cs, seen camera T ps cs -> forall x, In x cs <->
  exists p, In p ps /\ visible camera (iso_app T p) /\ x = Corr (pinhole (sim_intr camera) (iso_app T p)) p.
Proof. exact seen_in. Qed.
Print Assumptions C86_exactly.

Theorem C86_one_answer :
  forall camera T ps cs cs', seen camera T ps cs -> seen camera T ps cs' -> cs = cs'.
Proof. exact seen_unique. Qed.
Print Assumptions C86_one_answer.

(** With the wish for all points: all of them, or an error if one is not visible *)
Theorem C86_all_or_error :
  forall camera_pose target_pose camera target,
  ((forall p, In p (sim_points target) -> visible camera (iso_app (iso_mul (iso_inv camera_pose) target_pose) p)) ->
   exists cs, getCorrespondences2D camera_pose target_pose camera target true = Ok cs /\
              seen camera (iso_mul (iso_inv camera_pose) target_pose) (sim_points target) cs /\
              map in_target cs = sim_points target) /\
  ((exists p, In p (sim_points target) /\ ~ visible camera (iso_app (iso_mul (iso_inv camera_pose) target_pose) p)) ->
   getCorrespondences2D camera_pose target_pose camera target true = Throw RuntimeError).
Proof. exact (fun cp tp c t => conj (correspondences_all cp tp c t) (correspondences_missed cp tp c t)). Qed.
Print Assumptions C86_all_or_error.

(** A sensor that measures points sees all of them. *)
Theorem C86_points :
  forall camera_pose target_pose target,
  getCorrespondences3D camera_pose target_pose target =
  measured (iso_mul (iso_inv camera_pose) target_pose) (sim_points target).
Proof. exact correspondences_points. Qed.
Print Assumptions C86_points.

(** The field of view of the camera of the tests: 32/55 of the distance to each side, 24/55 of it up and down. *)
Theorem C86_field_of_view :
  forall p, visible makeKinectCamera p <->
  0 < vz p /\ Rabs (vx p) <= 32 / 55 * vz p /\ Rabs (vy p) <= 24 / 55 * vz p.
Proof. exact kinect_view. Qed.
Print Assumptions C86_field_of_view.

(** A board of two by two points, 5 m away and turned by 60 degrees *)
Example C86_example :
  exists cs, getCorrespondences2D iso_id (target_in_camera ex_camera iso_id (ex_turn unitX) iso_id) makeKinectCamera ex_board true = Ok cs /\
  length cs = 4%nat.
Proof. exact ex_board_seen. Qed.
(** The same board behind the camera *)
Example C86_example_missed :
  getCorrespondences2D iso_id ex_camera makeKinectCamera ex_board true = Throw RuntimeError.
Proof. exact ex_board_missed. Qed.
