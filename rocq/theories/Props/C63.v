(** C63: comparison of a hand-eye calibration with pose estimation. [runs i] is what Ceres does in the i-th pose
    estimation; [predicted], [compared] and [distance] are defined in Spec/ToolSpec.v. *)
From Coq Require Import Reals Arith List.
From Verif.Base Require Import Geom Outcome.
From Verif.Model Require Import Pose HandEye Pnp IntrinsicValidation ExampleTools.
From Verif.Spec Require Import StatSpec ValidationSpec PrintSpec ToolSpec.
From Verif.Proofs Require Import IntrinsicValidationProofs AnalysisProofs SceneProofs.
Import ListNotations.
Local Open Scope R_scope.

(** The printed numbers are the means and standard deviations, over the images, of the distance and of the angle in
    degrees between the pose the calibration predicts and the pose estimated from the image alone. *)
Theorem C63_statistics :
  forall image draw display runs p r,
  rigid (he_camera_mount_to_camera r) -> rigid (he_target_mount_to_target r) ->
  (forall o, In o (h2_observations p) -> rigid (to_camera_mount o) /\ rigid (to_target_mount o)) ->
  forall (images : list image) d, analyzeResults draw display runs p r images = Ok d ->
  images <> [] /\ (List.length images <= List.length (h2_observations p))%nat /\
  exists cmp, map fst cmp = firstn (List.length images) (h2_observations p) /\
    (forall i o P a, nth_error cmp i = Some (o, (P, a)) -> compared runs p r i o P a) /\
    let ds := map (distance r) cmp in let angles := map (fun x => snd (snd x)) cmp in
    d = Diff (average ds) (std_dev ds) (degrees (average angles)) (degrees (std_dev angles)).
Proof. exact (fun image => @analyzed image). Qed.
Print Assumptions C63_statistics.

(** All four are zero exactly if every estimated pose is the predicted one. *)
Theorem C63_zero_iff_poses_agree :
  forall image draw display runs p r,
  rigid (he_camera_mount_to_camera r) -> rigid (he_target_mount_to_target r) ->
  (forall o, In o (h2_observations p) -> rigid (to_camera_mount o) /\ rigid (to_target_mount o)) ->
  forall (images : list image) d, analyzeResults draw display runs p r images = Ok d ->
  exists Ps, List.length Ps = List.length images /\
    (forall i o P, nth_error (h2_observations p) i = Some o -> nth_error Ps i = Some P ->
       exists fit, fitted (runs i) (h2_intr p) (predicted r o) (correspondence_set o) fit /\ P = pnp_camera_to_target fit) /\
    (d = Diff 0 0 0 0 <->
     forall i o P, nth_error (h2_observations p) i = Some o -> nth_error Ps i = Some P -> P = predicted r o).
Proof. exact (fun image => @analyzed_zero image). Qed.
Print Assumptions C63_zero_iff_poses_agree.

Theorem C63_succeeds :
  forall image draw display runs p r (images : list image),
  images <> [] -> (List.length images <= List.length (h2_observations p))%nat ->
  rigid (he_camera_mount_to_camera r) -> (forall o, In o (h2_observations p) -> rigid (to_camera_mount o)) ->
  (forall img pts, exists frame, draw img pts = Ok frame) -> (forall frame, display frame = Ok tt) ->
  (forall i o, nth_error (h2_observations p) i = Some o -> (i < List.length images)%nat ->
     exists fit, fitted (runs i) (h2_intr p) (predicted r o) (correspondence_set o) fit) ->
  exists d, analyzeResults draw display runs p r images = Ok d.
Proof. exact (fun image => @analyze_succeeds image). Qed.
Print Assumptions C63_succeeds.

Theorem C63_more_images_than_observations :
  forall image draw display runs p r (images : list image) d,
  (List.length (h2_observations p) < List.length images)%nat -> analyzeResults draw display runs p r images <> Ok d.
Proof. exact (fun image => @analyze_too_many image). Qed.
Print Assumptions C63_more_images_than_observations.

(** Pose estimations that stay where they start, on the two pictures of the scene of C61. *)
Example C63_scene : forall c, exists d, analyzeResults (fun (img : nat) _ => Ok img) (fun _ => Ok tt) (fun _ => ex_run)
  sc_problem (sc_result c) [1; 2]%nat = Ok d.
Proof. exact sc_analyzed. Qed.
