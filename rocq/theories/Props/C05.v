(** C05: hand-eye optimization rejects targets behind the camera. *)
From Coq Require Import Reals List Permutation.
From Verif.Base Require Import Geom Outcome.
From Verif.Model Require Import Pose Covariance Solver HandEye.
From Verif.Spec Require Import Frames.
From Verif.Proofs Require Import HandEyeProofs MoreExamples.
Import ListNotations.
Local Open Scope R_scope.

(** For any solver and any covariance outcome; the only fact used about Ceres is that
    GetParameterBlocks lists the problem's blocks in some order. *)
Theorem C05_rejects_iff_behind :
  forall u solve cov p,
  (forall l, Permutation l (co_order cov l)) ->
  plain_pose (h2_camera_guess p) -> plain_pose (h2_target_guess p) ->
  (forall o, In o (h2_observations p) -> plain_pose (to_camera_mount o) /\ plain_pose (to_target_mount o)) ->
  optimize2D3D u solve cov p = Throw RuntimeError <->
  exists o c, In o (h2_observations p) /\ In c (correspondence_set o) /\
    vz (iso_app (target_in_camera (h2_camera_guess p) (to_camera_mount o) (to_target_mount o)
                                  (h2_target_guess p)) (in_target c)) <= 0.
Proof. exact reject_iff. Qed.
Print Assumptions C05_rejects_iff_behind.

(** If all points are in front and the covariance can be computed, a result is returned. *)
Theorem C05_accepts_visible :
  forall u solve cov p,
  (forall l, Permutation l (co_order cov l)) ->
  (forall bs, co_compute cov bs = true) -> (forall bs, co_get cov bs = true) ->
  (forall b i c j, co_cov cov b i c j = co_cov cov c j b i) ->
  plain_pose (h2_camera_guess p) -> plain_pose (h2_target_guess p) ->
  (forall o, In o (h2_observations p) -> plain_pose (to_camera_mount o) /\ plain_pose (to_target_mount o)) ->
  length (labels_isometry3d (h2_labels p)) = 6%nat ->
  all_pairs (h2_observations p) <> [] ->
  (forall o c, In o (h2_observations p) -> In c (correspondence_set o) ->
    0 < vz (iso_app (target_in_camera (h2_camera_guess p) (to_camera_mount o) (to_target_mount o)
                                  (h2_target_guess p)) (in_target c))) ->
  exists r, optimize2D3D u solve cov p = Ok r.
Proof. exact accept2. Qed.
Print Assumptions C05_accepts_visible.

(** The 3D-3D version never rejects, and returns a result whenever the covariance can be computed. *)
Theorem C05_3D3D_never_rejects :
  forall u solve cov p, (forall l, Permutation l (co_order cov l)) ->
  optimize3D3D u solve cov p <> Throw RuntimeError.
Proof. exact never_rejects3. Qed.
Print Assumptions C05_3D3D_never_rejects.

Theorem C05_3D3D_accepts :
  forall u solve cov p, (forall l, Permutation l (co_order cov l)) ->
  (forall bs, co_compute cov bs = true) -> (forall bs, co_get cov bs = true) ->
  (forall b i c j, co_cov cov b i c j = co_cov cov c j b i) ->
  length (labels_isometry3d (h3_labels p)) = 6%nat ->
  all_pairs (h3_observations p) <> [] ->
  exists r, optimize3D3D u solve cov p = Ok r.
Proof. exact accept3. Qed.
Print Assumptions C05_3D3D_accepts.

(** A problem without any correspondence never yields a result: it fails in the covariance step. *)
Theorem C05_empty_problem :
  forall u (cov : cov_oracle), (forall l, Permutation l (co_order cov l)) ->
  (forall solve p, all_pairs (h2_observations p) = [] ->
     optimize2D3D u solve cov p = Throw CovarianceException) /\
  (forall solve p, all_pairs (h3_observations p) = [] ->
     optimize3D3D u solve cov p = Throw CovarianceException).
Proof. exact (fun u cov H => conj (fun solve p => empty2 u solve cov p H) (fun solve p => empty3 u solve cov p H)). Qed.
Print Assumptions C05_empty_problem.

(** A two-point problem with rotated mounts meets every hypothesis and is accepted. *)
Example C05_example : forall u solve, exists r,
  optimize2D3D u solve ex_cov_oracle
    (HEP2 [Obs [Corr (V2 320 240) (V3 0 0 0); Corr (V2 370 240) (V3 (1/10) 0 0)]
               (Iso (aa_matrix (PI / 2) unitX) (V3 1 2 3)) (Iso (aa_matrix (PI / 2) unitX) (V3 1 2 3))]
          (Intr 500 500 320 240) (iso_trans (V3 0 0 1)) iso_id default_he_labels) = Ok r.
Proof. exact ex_he_accepted. Qed.
(** One with the target behind the camera is rejected. *)
Example C05_behind : forall u solve, optimize2D3D u solve ex_cov_oracle ex_behind = Throw RuntimeError.
Proof. exact ex_behind_rejected. Qed.
Example C05_example_3D3D : forall u solve, exists r, optimize3D3D u solve ex_cov_oracle ex_he3 = Ok r.
Proof. exact ex_he3_accepted. Qed.
