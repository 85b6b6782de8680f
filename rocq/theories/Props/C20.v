(** C20: names in the covariance reports of the calibrations. [reports r cov elems name] says that
    the report r lists the optimized scalars [elems] (block, slot), each under its [name]
    (Spec/ReportSpec.v). [pose_name] names the scalar that sits in a slot of a pose vector,
    [swapped_name] names it as if the translation came first (Spec/LabelSpec.v). *)
From Coq Require Import Reals Arith List String Permutation.
From Verif.Base Require Import Geom Outcome.
From Verif.Model Require Import Pose Covariance Solver HandEye BlockSolver Pnp MultiCamera Intrinsic.
From Verif.Spec Require Import MultiSpec ReportSpec LabelSpec IntrinsicSpec.
From Verif.Proofs Require Import HandEyeProofs PnpProofs MultiCameraProofs IntrinsicProofs LabelProofs.
Import ListNotations.
Local Open Scope R_scope.

(** What the slots of a pose vector mean: rx, ry, rz are slots 0 to 2, x, y, z slots 3 to 5. *)
Theorem C20_slots_of_translation :
  forall a, tr (poseCalToEigen (pose_of_slots a)) = V3 (a 3%nat) (a 4%nat) (a 5%nat).
Proof. exact slots_translation. Qed.
Print Assumptions C20_slots_of_translation.

Theorem C20_slots_of_rotation :
  forall a, let v := V3 (a 0%nat) (a 1%nat) (a 2%nat) in
  DBL_EPS < dot v v -> lin (poseCalToEigen (pose_of_slots a)) = aa_matrix (norm v) (normalized v).
Proof. exact slots_rotation. Qed.
Print Assumptions C20_slots_of_rotation.

Theorem C20_blocks_hold_slots :
  forall m k, read_pose m k = pose_of_slots (m k).
Proof. exact slots_read. Qed.
Print Assumptions C20_blocks_hold_slots.

(** Pose estimation names its scalars right: translation and rotation are blocks of their own. *)
Theorem C20_pnp_labels_partial :
  forall u solve cov p r, (forall b i c j, co_cov cov b i c j = co_cov cov c j b i) ->
  optimizePnP u solve cov p = Ok r ->
  reports (pnp_covariance r) cov (elements (fun _ => 3%nat) [key_translation; key_angle_axis])
    (fun e => String.append (pnp_label p) (String.append "_"
       (nth (snd e) (if Nat.eqb (fst e) key_translation then ["x"; "y"; "z"] else ["rx"; "ry"; "rz"]) "")))%string.
Proof. exact pnp_report2. Qed.
Print Assumptions C20_pnp_labels_partial.

Theorem C20_pnp_3D_labels_partial :
  forall u solve cov p r, (forall b i c j, co_cov cov b i c j = co_cov cov c j b i) ->
  optimizePnP3D u solve cov p = Ok r ->
  reports (pnp_covariance r) cov (elements (fun _ => 3%nat) [key_translation; key_angle_axis])
    (fun e => String.append (pnp3_label p) (String.append "_"
       (nth (snd e) (if Nat.eqb (fst e) key_translation then ["x"; "y"; "z"] else ["rx"; "ry"; "rz"]) "")))%string.
Proof. exact pnp_report3. Qed.
Print Assumptions C20_pnp_3D_labels_partial.

(** Hand-eye calibration, with the default labels: every report swaps the names of rotation and
    translation. *)
Theorem C20_hand_eye_labels_refuted :
  forall u solve cov p r, (forall l, Permutation l (co_order cov l)) ->
  (forall b i c j, co_cov cov b i c j = co_cov cov c j b i) ->
  optimize2D3D u solve cov p = Ok r -> labels_isometry3d (h2_labels p) = labels_isometry3d default_he_labels ->
  let elems := elements (fun _ => 6%nat) (co_order cov [key_camera; key_target]) in
  reports (he_covariance r) cov elems (swapped_name (he_pose (h2_labels p))) /\
  ~ reports (he_covariance r) cov elems (pose_name (he_pose (h2_labels p))).
Proof. exact he_swapped2. Qed.
Print Assumptions C20_hand_eye_labels_refuted.

Theorem C20_hand_eye_3D_labels_refuted :
  forall u solve cov p r, (forall l, Permutation l (co_order cov l)) ->
  (forall b i c j, co_cov cov b i c j = co_cov cov c j b i) ->
  optimize3D3D u solve cov p = Ok r -> labels_isometry3d (h3_labels p) = labels_isometry3d default_he_labels ->
  let elems := elements (fun _ => 6%nat) (co_order cov [key_camera; key_target]) in
  reports (he_covariance r) cov elems (swapped_name (he_pose (h3_labels p))) /\
  ~ reports (he_covariance r) cov elems (pose_name (he_pose (h3_labels p))).
Proof. exact he_swapped3. Qed.
Print Assumptions C20_hand_eye_3D_labels_refuted.

(** Labels given by the user are attached to the slots in order, so the right ones would work. *)
Theorem C20_hand_eye_given_labels_partial :
  forall u solve cov p r, (forall l, Permutation l (co_order cov l)) ->
  (forall b i c j, co_cov cov b i c j = co_cov cov c j b i) ->
  optimize2D3D u solve cov p = Ok r ->
  reports (he_covariance r) cov (elements (fun _ => 6%nat) (co_order cov [key_camera; key_target]))
    (fun e => String.append (he_pose (h2_labels p) (fst e))
                (String.append "_" (nth (snd e) (labels_isometry3d (h2_labels p)) ""%string))).
Proof. exact he_report2. Qed.
Print Assumptions C20_hand_eye_given_labels_partial.

(** Several static cameras: the same swap in every report. *)
Theorem C20_static_cameras_labels_refuted :
  forall u solve cov p r, static_sizes p ->
  (forall b i c j, co_cov cov b i c j = co_cov cov c j b i) ->
  optimizeStatic u solve cov p = Ok r ->
  let elems := elements (fun _ => 6%nat) (seq 0 (S (List.length (sp_base_to_camera_guess p)))) in
  reports (sr_covariance r) cov elems (swapped_name (static_pose p)) /\
  ~ reports (sr_covariance r) cov elems (pose_name (static_pose p)).
Proof. exact static_swapped. Qed.
Print Assumptions C20_static_cameras_labels_refuted.

(** Intrinsic calibration: the nine camera parameters are named right, the poses are swapped. *)
Theorem C20_intrinsic_labels_refuted :
  forall u psolve pcov solve cov p r,
  (forall b i c j, co_cov cov b i c j = co_cov cov c j b i) ->
  optimizeIntrinsic u psolve pcov solve cov p = Ok r ->
  let n := List.length (ip_image_observations p) in
  let elems := (map (pair n) (seq 0 9) ++ elements (fun _ => 6%nat) (seq 0 n))%list in
  let named pose e := if Nat.eqb (fst e) n then nth (snd e) ["fx"; "fy"; "cx"; "cy"; "k1"; "k2"; "p1"; "p2"; "k3"]%string ""%string
                      else pose (intrinsic_pose p) e in
  reports (ir_covariance r) cov elems (named swapped_name) /\
  ~ reports (ir_covariance r) cov elems (named pose_name).
Proof. exact intrinsic_swapped. Qed.
Print Assumptions C20_intrinsic_labels_refuted.

Example C20_hand_eye_report : forall u solve, exists r, optimize2D3D u solve ex_cov_oracle ex_he = Ok r.
Proof. exact ex_he_accepted. Qed.
Example C20_static_report : forall u solve, exists r, optimizeStatic u solve ex_cov_oracle ex_static = Ok r.
Proof. exact ex_static_ok. Qed.
Example C20_intrinsic_report : forall u solve, exists r,
  optimizeIntrinsic u ex_solves (fun _ => ex_cov_oracle) solve ex_cov_oracle ex_intrinsic = Ok r.
Proof. exact ex_intrinsic_ok. Qed.
Example C20_pnp_report : forall u solve, exists r, optimizePnP u solve ex_cov_oracle ex_pnp = Ok r.
Proof. exact ex_pnp_ok. Qed.
