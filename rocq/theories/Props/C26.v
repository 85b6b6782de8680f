(** C26: back-projection inverts projection. *)
From Coq Require Import Reals List.
From Verif.Base Require Import Geom Outcome.
From Verif.Model Require Import Pose HandEye Projection.
From Verif.Spec Require Import PinHole Frames ProjectionSpec.
From Verif.Proofs Require Import ProjectionProofs MoreExamples.
Import ListNotations.
Local Open Scope R_scope.

(** Projecting points of the target plane to pixels and back returns the points. *)
Theorem C26_back_projection_inverts_projection :
  forall pts T k, fx k <> 0 -> fy k <> 0 -> rigid T ->
  (forall r, In r pts -> vz r = 0 /\ vz (iso_app T r) <> 0 /\ crosses_plane T (iso_app T r)) ->
  project3D (map (fun r => pinhole k (iso_app T r)) pts) T (camera_matrix k) = Ok pts.
Proof. exact project_inverts. Qed.
Print Assumptions C26_back_projection_inverts_projection.

(** For any pixels: the i-th result is the one point of the target plane the i-th pixel looks at. *)
Theorem C26_back_projection :
  forall pixels T k pts, fx k <> 0 -> fy k <> 0 -> rigid T ->
  project3D pixels T (camera_matrix k) = Ok pts ->
  List.length pts = List.length pixels /\
  forall i p r, nth_error pixels i = Some p -> nth_error pts i = Some r ->
    vz r = 0 /\ (exists t, iso_app T r = vscale t (sight k p)) /\
    forall r', vz r' = 0 -> (exists t, iso_app T r' = vscale t (sight k p)) -> r' = r.
Proof. exact project_spec. Qed.
Print Assumptions C26_back_projection.

(** It throws exactly if some pixel sees the target edge-on. *)
Theorem C26_throws_iff_edge_on :
  forall pixels T k, fx k <> 0 -> fy k <> 0 -> rigid T ->
  (project3D pixels T (camera_matrix k) = Throw RuntimeError <-> Exists (fun p => ~ crosses_plane T (sight k p)) pixels) /\
  (is_ok (project3D pixels T (camera_matrix k)) <-> Forall (fun p => crosses_plane T (sight k p)) pixels).
Proof. exact project_throws. Qed.
Print Assumptions C26_throws_iff_edge_on.

(** The error of a correspondence is the distance between its target point and the point its pixel
    looks at; it is zero exactly if the pixel is where the camera sees the target point. *)
Theorem C26_error_is_distance :
  forall k C T, fx k <> 0 -> fy k <> 0 -> rigid C -> rigid T ->
  forall o es, rigid (to_camera_mount o) -> rigid (to_target_mount o) ->
  compute3DProjectionError o k C T = Ok es ->
  let pose := target_in_camera C (to_camera_mount o) (to_target_mount o) T in
  List.length es = List.length (correspondence_set o) /\
  forall i c e, nth_error (correspondence_set o) i = Some c -> nth_error es i = Some e ->
    exists r, vz r = 0 /\ (exists t, iso_app pose r = vscale t (sight k (in_image c))) /\
      (forall r', vz r' = 0 -> (exists t, iso_app pose r' = vscale t (sight k (in_image c))) -> r' = r) /\
      e = norm (vsub (in_target c) r).
Proof. exact error_spec. Qed.
Print Assumptions C26_error_is_distance.

Theorem C26_error_zero_iff :
  forall k C T, fx k <> 0 -> fy k <> 0 -> rigid C -> rigid T ->
  forall o es i c e, rigid (to_camera_mount o) -> rigid (to_target_mount o) ->
  compute3DProjectionError o k C T = Ok es ->
  nth_error (correspondence_set o) i = Some c -> nth_error es i = Some e ->
  let pose := target_in_camera C (to_camera_mount o) (to_target_mount o) T in
  vz (in_target c) = 0 -> vz (iso_app pose (in_target c)) <> 0 ->
  e = 0 <-> in_image c = pinhole k (iso_app pose (in_target c)).
Proof. exact error_zero_iff. Qed.
Print Assumptions C26_error_zero_iff.

Theorem C26_outcome :
  forall k C T, fx k <> 0 -> fy k <> 0 -> rigid C -> rigid T ->
  forall o, rigid (to_camera_mount o) -> rigid (to_target_mount o) ->
  let pose := target_in_camera C (to_camera_mount o) (to_target_mount o) T in
  (is_ok (compute3DProjectionError o k C T) <->
   Forall (fun c => crosses_plane pose (sight k (in_image c))) (correspondence_set o)) /\
  (compute3DProjectionError o k C T = Throw RuntimeError \/ is_ok (compute3DProjectionError o k C T)).
Proof. exact error_outcome. Qed.
Print Assumptions C26_outcome.

(** A list of observations gives the errors of all of them, in order; all zero if they are perfect. *)
Theorem C26_all_observations_in_order :
  forall k C T os es, compute3DProjectionError_set os k C T = Ok es <->
  exists ess, es = List.concat ess /\ Forall2 (fun o e => compute3DProjectionError o k C T = Ok e) os ess.
Proof. exact error_set_spec. Qed.
Print Assumptions C26_all_observations_in_order.

Theorem C26_perfect_observations :
  forall k C T, fx k <> 0 -> fy k <> 0 -> rigid C -> rigid T -> forall os,
  (forall o, In o os -> rigid (to_camera_mount o) /\ rigid (to_target_mount o) /\
    let pose := target_in_camera C (to_camera_mount o) (to_target_mount o) T in
    forall c, In c (correspondence_set o) -> vz (in_target c) = 0 /\ vz (iso_app pose (in_target c)) <> 0 /\
     crosses_plane pose (iso_app pose (in_target c)) /\ in_image c = pinhole k (iso_app pose (in_target c))) ->
  compute3DProjectionError_set os k C T = Ok (map (fun _ => 0) (all_pairs os)).
Proof. exact error_set_perfect. Qed.
Print Assumptions C26_perfect_observations.

Example C26_three_points : rigid ex_pose /\ forall r, In r ex_points ->
  vz r = 0 /\ vz (iso_app ex_pose r) <> 0 /\ crosses_plane ex_pose (iso_app ex_pose r).
Proof. exact ex_points_fit. Qed.
(** A picture of these points has no error. *)
Example C26_picture : compute3DProjectionError_set [ex_picture] ex_k iso_id ex_pose = Ok [0; 0; 0].
Proof. exact ex_picture_errors. Qed.
