(** C61: which images the hand-eye tools use. [v] is the target finder and the screen, [lu] the linear solver of the
    homography check, [seeded] and [uniform_int] the random generator. A data set is a list of images with their tool
    poses ([data_of]). [usable] is defined in Spec/ToolSpec.v. *)
From Coq Require Import Reals Arith List.
From Verif.Base Require Import Geom Outcome.
From Verif.Model Require Import Pose HandEye Homography DataSet ExampleTools.
From Verif.Spec Require Import PinHole HomographySpec ToolSpec.
From Verif.Proofs Require Import HomographyProofs ToolProofs HandEyeToolProofs SceneProofs.
Import ListNotations.
Local Open Scope R_scope.

(** The observations are those of exactly the images whose target is found and passes the homography check, in order,
    each with its own correspondences and tool pose; the images kept for the report are the same ones. *)
Theorem C61_camera_on_wrist :
  forall image features G v lu (seeded : nat -> G) uniform_int threshold (ps : list (image * iso)) obs imgs,
  @collectObservations image features G v lu seeded uniform_int on_wrist threshold (data_of ps) = Ok (obs, imgs) ->
  exists sel, chosen (usable v lu seeded uniform_int threshold) ps sel /\
    obs = map camera_moves sel /\ imgs = map (fun s => fst (fst s)) sel.
Proof. exact (fun image features G v lu s un => collected v lu s un on_wrist). Qed.
Print Assumptions C61_camera_on_wrist.

Theorem C61_static_camera :
  forall image features G v lu (seeded : nat -> G) uniform_int threshold (ps : list (image * iso)) obs imgs,
  @collectObservations image features G v lu seeded uniform_int on_base threshold (data_of ps) = Ok (obs, imgs) ->
  exists sel, chosen (usable v lu seeded uniform_int threshold) ps sel /\
    obs = map target_moves sel /\ imgs = map (fun s => fst (fst s)) sel.
Proof. exact (fun image features G v lu s un => collected v lu s un on_base). Qed.
Print Assumptions C61_static_camera.

(** Runtime errors of the finder and of the screen never stop the loop. *)
Theorem C61_failures_are_skipped :
  forall image features G v lu (seeded : nat -> G) uniform_int mount threshold (ps : list (image * iso)),
  in_bounds uniform_int -> (forall p, In p ps -> @harmless image features v (fst p)) ->
  exists obs imgs, collectObservations v lu seeded uniform_int mount threshold (data_of ps) = Ok (obs, imgs).
Proof. exact (fun image features G => @collects image features G). Qed.
Print Assumptions C61_failures_are_skipped.

(** Any other exception of the finder, such as one of OpenCV, ends it with that exception. *)
Theorem C61_other_exceptions_end_the_tool :
  forall image features G v lu (seeded : nat -> G) uniform_int mount threshold l1 (p : image * iso) l2 e,
  in_bounds uniform_int -> (forall q, In q l1 -> @harmless image features v (fst q)) ->
  find v (fst p) = Throw e -> std_runtime_error e = false ->
  collectObservations v lu seeded uniform_int mount threshold (data_of (l1 ++ p :: l2)) = Throw e.
Proof. exact (fun image features G => @collect_stops image features G). Qed.
Print Assumptions C61_other_exceptions_end_the_tool.

(** Fewer than twelve correspondences are never used. *)
Theorem C61_twelve_correspondences :
  forall image features G (v : vision image features) lu (seeded : nat -> G) uniform_int threshold (p : image * iso) cs,
  (List.length cs < 12)%nat -> ~ usable v lu seeded uniform_int threshold p cs.
Proof. exact (fun image features G => @few_unused image features G). Qed.
Print Assumptions C61_twelve_correspondences.

(** A picture of a flat target taken by a perfect camera passes the check with any threshold, if four of the points drawn
    are in general position. *)
Theorem C61_perfect_pictures_pass :
  forall G lu (seeded : nat -> G) uniform_int threshold k T cs c1 c2 c3 c4 i1 i2 i3 i4,
  exact_solver lu -> in_bounds uniform_int ->
  (12 <= List.length cs)%nat -> 0 <= threshold -> fx k <> 0 -> fy k <> 0 -> rigid T ->
  dot (col2 (lin T)) (tr T) <> 0 -> vz (tr T) <> 0 -> (forall c, In c cs -> seen_by_camera k T c) ->
  incl [i1; i2; i3; i4] (randomSample seeded uniform_int (RS (List.length cs) (List.length cs / 3) 1)) ->
  nth_error cs i1 = Some c1 -> nth_error cs i2 = Some c2 -> nth_error cs i3 = Some c3 -> nth_error cs i4 = Some c4 ->
  general_position (in_target c1) (in_target c2) (in_target c3) (in_target c4) ->
  flat lu seeded uniform_int threshold cs.
Proof. exact (fun G => @perfect_flat G). Qed.
Print Assumptions C61_perfect_pictures_pass.

(** Three pictures of a scene, one of them without the target: the other two are used. *)
Example C61_scene : in_bounds sc_uniform /\ (forall p, In p sc_data -> harmless sc_vision (fst p)) /\
  chosen (usable sc_vision (gauss 8) sc_seed sc_uniform 0) sc_data sc_sel.
Proof. exact (conj sc_bounds (conj sc_harmless sc_chosen)). Qed.
