(** C117: accurate data pass the checks. [near_picture d], [near_point d]: data that differ from perfect ones by at most [d]
    (Spec/NearSpec.v); [explains], [explains_points]: results that fit these data; [right_for]: a right decomposition for the mean
    orientation; [stats_close e T]: statistics of a pose known to within [e]; [good_reference], [checked_near d]: a perfect picture
    each half of which determines the pose, and a check of a picture near it (Spec/CheckSpec.v). *)
From Coq Require Import Reals List.
From Verif.Base Require Import Geom Outcome Matrix.
From Verif.Model Require Import Pose Covariance Solver HandEye Pnp IntrinsicValidation NoiseQualification DataSet ExampleTools.
From Verif.Spec Require Import PinHole Frames HomographySpec StatSpec ValidationSpec ToolSpec UniqueSpec PnpSpec NearSpec CheckSpec.
From Verif.Proofs Require NearChecks NearCheckExamples.
Import ListNotations.
Local Open Scope R_scope.

(** Noise qualification with pictures of one target at one pose. *)
Theorem C117_noise :
  forall k T0 cs0,
  rigid T0 -> ~ edge_on T0 -> fx k <> 0 -> fy k <> 0 -> four_flat_points (map in_target cs0) -> perfect_image k T0 cs0 ->
  forall e, 0 < e -> exists d, 0 < d /\ forall svd runs ps s, qualifyNoise2D svd runs ps = Ok s ->
    let optimize i p := optimizePnP (run_u (runs i)) (run_solve (runs i)) (run_cov (runs i)) p in
    right_for svd optimize ps ->
    (forall i p, nth_error ps i = Some p -> honest (run_solve (runs i)) /\ pnp_intr p = k /\ near_picture d (pnp_correspondences p) cs0 /\
       forall r, optimize i p = Ok r -> pnp_converged r = true -> explains k T0 d (pnp_correspondences p) r) ->
    stats_close e T0 s.
Proof. exact NearChecks.noise_near2. Qed.
Print Assumptions C117_noise.

(** Two pictures of a square, with every pixel off by the noise or half of it, however small. *)
Example C117_noise_example :
  exists k T0 cs0, rigid T0 /\ ~ edge_on T0 /\ fx k <> 0 /\ fy k <> 0 /\ four_flat_points (map in_target cs0) /\ perfect_image k T0 cs0 /\
  forall d, 0 < d -> exists svd runs ps s, qualifyNoise2D svd runs ps = Ok s /\
    let optimize i p := optimizePnP (run_u (runs i)) (run_solve (runs i)) (run_cov (runs i)) p in
    right_for svd optimize ps /\
    (forall i p, nth_error ps i = Some p -> honest (run_solve (runs i)) /\ pnp_intr p = k /\ near_picture d (pnp_correspondences p) cs0 /\
       ~ perfect_image k T0 (pnp_correspondences p) /\
       forall r, optimize i p = Ok r -> pnp_converged r = true -> explains k T0 d (pnp_correspondences p) r).
Proof. exact NearCheckExamples.ex_noise_near2. Qed.

(** Noise qualification with measured points. *)
Theorem C117_noise_3d :
  forall T0 cs0,
  rigid T0 -> not_on_a_line (map in_target cs0) -> perfect_points T0 cs0 ->
  forall e, 0 < e -> exists d, 0 < d /\ forall svd runs ps s, qualifyNoise3D svd runs ps = Ok s ->
    let optimize i p := optimizePnP3D (run_u (runs i)) (run_solve (runs i)) (run_cov (runs i)) p in
    right_for svd optimize ps ->
    (forall i p, nth_error ps i = Some p -> honest (run_solve (runs i)) /\ Forall2 (near_point d) (pnp3_correspondences p) cs0 /\
       forall r, optimize i p = Ok r -> pnp_converged r = true -> explains_points T0 d (pnp3_correspondences p) r) ->
    stats_close e T0 s.
Proof. exact NearChecks.noise_near3. Qed.
Print Assumptions C117_noise_3d.

(** The square measured twice. *)
Example C117_noise_3d_example :
  exists T0 cs0, rigid T0 /\ not_on_a_line (map in_target cs0) /\ perfect_points T0 cs0 /\
  forall d, 0 < d -> exists svd runs ps s, qualifyNoise3D svd runs ps = Ok s /\
    let optimize i p := optimizePnP3D (run_u (runs i)) (run_solve (runs i)) (run_cov (runs i)) p in
    right_for svd optimize ps /\
    (forall i p, nth_error ps i = Some p -> honest (run_solve (runs i)) /\ Forall2 (near_point d) (pnp3_correspondences p) cs0 /\
       ~ perfect_points T0 (pnp3_correspondences p) /\
       forall r, optimize i p = Ok r -> pnp_converged r = true -> explains_points T0 d (pnp3_correspondences p) r).
Proof. exact NearCheckExamples.ex_noise_near3. Qed.

(** The two halves of one picture. *)
Theorem C117_halves :
  forall k ref,
  fx k <> 0 -> fy k <> 0 -> good_reference k ref ->
  forall e, 0 < e -> exists d, 0 < d /\ forall runs guess t cs v, measureVirtualTargetDiff (fst runs) (snd runs) cs k guess t = Ok v ->
    checked_near d k ref runs guess cs -> 0 <= vr_positional_error v <= e /\ 0 <= vr_angular_error v <= e.
Proof. exact NearChecks.virtual_near. Qed.
Print Assumptions C117_halves.

(** Two squares side by side, with every pixel off by the noise. *)
Example C117_halves_example :
  exists k ref, fx k <> 0 /\ fy k <> 0 /\ good_reference k ref /\
  forall d, 0 < d -> exists runs guess t cs v, measureVirtualTargetDiff (fst runs) (snd runs) cs k guess t = Ok v /\
    checked_near d k ref runs guess cs /\ ~ perfect_image k (fst ref) cs.
Proof. exact NearCheckExamples.ex_virtual_near. Qed.

(** All pictures of an intrinsic validation: mean and standard deviation of the differences. *)
Theorem C117_accuracy :
  forall k refs,
  fx k <> 0 -> fy k <> 0 -> (forall ref, In ref refs -> good_reference k ref) ->
  forall e, 0 < e -> exists d, 0 < d /\ forall runs os C T B t r, measureIntrinsicCalibrationAccuracy runs os k C T B t = Ok r ->
    List.length os = List.length refs ->
    (forall i o ref, nth_error os i = Some o -> nth_error refs i = Some ref ->
       checked_near d k ref (runs i) (target_in_camera C (to_camera_mount o) (iso_mul B (to_target_mount o)) T) (correspondence_set o)) ->
    (fst (ar_pos_error r) <= e /\ snd (ar_pos_error r) <= e) /\ (fst (ar_ang_error r) <= e /\ snd (ar_ang_error r) <= e).
Proof. exact NearChecks.accuracy_near. Qed.
Print Assumptions C117_accuracy.

(** The squares seen from two places. *)
Example C117_accuracy_example :
  exists k refs, fx k <> 0 /\ fy k <> 0 /\ (forall ref, In ref refs -> good_reference k ref) /\ List.length refs = 2%nat /\
  forall d, 0 < d -> exists runs os C T B t r, measureIntrinsicCalibrationAccuracy runs os k C T B t = Ok r /\
    List.length os = List.length refs /\
    forall i o ref, nth_error os i = Some o -> nth_error refs i = Some ref ->
       checked_near d k ref (runs i) (target_in_camera C (to_camera_mount o) (iso_mul B (to_target_mount o)) T) (correspondence_set o) /\
       ~ perfect_image k (fst ref) (correspondence_set o).
Proof. exact NearCheckExamples.ex_accuracy_near. Qed.

(** The validation tool calls the calibration valid. *)
Theorem C117_verdict :
  forall k refs,
  fx k <> 0 -> fy k <> 0 -> (forall ref, In ref refs -> good_reference k ref) ->
  exists d, 0 < d /\ forall image features (v : vision image features) runs T C (ps : list (image * iso)) b,
    validationTool v runs k T C (Some (data_of ps)) = Ok b ->
    (forall sel, chosen (sees_shown v) ps sel -> List.length sel = List.length refs /\
       forall i s ref, nth_error sel i = Some s -> nth_error refs i = Some ref ->
         checked_near d k ref (runs i) (target_from_tool (snd (fst s)) C T) (snd s)) ->
    b = true.
Proof. exact NearChecks.verdict_near. Qed.
Print Assumptions C117_verdict.

(** A data set with the two pictures and one in which nothing is found. *)
Example C117_verdict_example :
  exists k refs, fx k <> 0 /\ fy k <> 0 /\ (forall ref, In ref refs -> good_reference k ref) /\ List.length refs = 2%nat /\
  forall d, 0 < d -> exists (v : vision (list (correspondence vec2)) (list (correspondence vec2))) runs T C ps b,
    validationTool v runs k T C (Some (data_of ps)) = Ok b /\
    forall sel, chosen (sees_shown v) ps sel -> List.length sel = List.length refs /\
       forall i s ref, nth_error sel i = Some s -> nth_error refs i = Some ref ->
         checked_near d k ref (runs i) (target_from_tool (snd (fst s)) C T) (snd s) /\ ~ perfect_image k (fst ref) (snd s).
Proof. exact NearCheckExamples.ex_verdict_near. Qed.
