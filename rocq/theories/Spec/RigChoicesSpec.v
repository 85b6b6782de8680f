(** Vocabulary for the pictures of several cameras described in two ways. *)
From Coq Require Import Reals Arith List Permutation.
From Verif.Base Require Import Geom.
From Verif.Model Require Import Pose Solver HandEye MultiCamera.
From Verif.Spec Require Import Frames MultiSpec UniqueSpec SameDataSpec ToolsAgreeSpec.
Import ListNotations.
Local Open Scope R_scope.

(** The choices of the second description: one old unit of length is [rig_unit] new ones; the poses of the old base in the
    new one, of the new frame of the wrist in the old one and of the new frame of the target in the old one (in new units);
    the pictures are resized by [rig_zoom], and moved for every camera by [rig_shift]; what is now camera [c] was camera
    [was_camera c], and what is now its image [i] was image [was_image c i]. *)
Record rig_choices := RigChoices {
  rig_unit : R; old_base : iso; wrist_frame : iso; rig_target : iso;
  rig_zoom : R; rig_shift : nat -> vec2; was_camera : nat -> nat; was_image : nat -> nat -> nat }.
Definition sensible_rig (h : rig_choices) : Prop :=
  0 < rig_unit h /\ rigid (old_base h) /\ rigid (wrist_frame h) /\ rigid (rig_target h).
(** The numbers below [n] in another order. *)
Definition reorders (order : nat -> nat) (n : nat) : Prop := Permutation (map order (seq 0 n)) (seq 0 n).
(** Images reordered the same way for all cameras. *)
Definition same_for_all (order : nat -> nat -> nat) : Prop := forall c i, order c i = order 0%nat i.

(** A camera in the base frame, the target on the wrist, the wrist and the target in the base frame, described anew. *)
Definition moved_camera (h : rig_choices) (C : iso) : iso := iso_mul (old_base h) (in_unit (rig_unit h) C).
Definition moved_target (h : rig_choices) (Z : iso) : iso :=
  iso_mul (iso_mul (iso_inv (wrist_frame h)) (in_unit (rig_unit h) Z)) (rig_target h).
Definition moved_wrist (h : rig_choices) (W : iso) : iso :=
  iso_mul (iso_mul (old_base h) (in_unit (rig_unit h) W)) (wrist_frame h).
Definition placed_target (h : rig_choices) (T : iso) : iso :=
  iso_mul (iso_mul (old_base h) (in_unit (rig_unit h) T)) (rig_target h).

(** Camera [c] takes the same pictures as before. *)
Definition same_camera (h : rig_choices) (ks ks' : list intrinsics) (c : nat) : Prop :=
  camera_of ks' c = resized_camera (rig_zoom h) (rig_shift h c) (camera_of ks (was_camera h c)).
Definition same_shot (h : rig_choices) (images images' : list (list (list (correspondence vec2)))) (c i : nat) : Prop :=
  same_picture (rig_unit h) (rig_target h) (rig_zoom h) (rig_shift h c)
    (images_of images (was_camera h c) (was_image h c i)) (images_of images' c i).

(** Two descriptions of the same data, for the four calibrations with several cameras. *)
Definition same_static (h : rig_choices) (p p' : static_problem) : Prop :=
  let n := length (sp_base_to_camera_guess p) in
  length (sp_base_to_camera_guess p') = n /\ reorders (was_camera h) n /\
  forall c, (c < n)%nat ->
    let m := length (nth (was_camera h c) (sp_wrist_poses p) []) in
    same_camera h (sp_intr p) (sp_intr p') c /\
    length (nth c (sp_wrist_poses p') []) = m /\ reorders (was_image h c) m /\
    forall i, (i < m)%nat ->
      static_wrist p' c i = moved_wrist h (static_wrist p (was_camera h c) (was_image h c i)) /\
      same_shot h (sp_image_observations p) (sp_image_observations p') c i.
Definition same_wrist (h : rig_choices) (p p' : wrist_problem) : Prop :=
  let n := length (wp_base_to_camera_guess p) in
  let m := length (wp_wrist_poses p) in
  length (wp_base_to_camera_guess p') = n /\ length (wp_wrist_poses p') = m /\
  reorders (was_camera h) n /\ same_for_all (was_image h) /\ reorders (was_image h 0) m /\
  (forall i, (i < m)%nat ->
     nth i (wp_wrist_poses p') iso_id = moved_wrist h (nth (was_image h 0 i) (wp_wrist_poses p) iso_id)) /\
  forall c, (c < n)%nat ->
    same_camera h (wp_intr p) (wp_intr p') c /\
    nth c (wp_base_to_camera_guess p') iso_id = moved_camera h (nth (was_camera h c) (wp_base_to_camera_guess p) iso_id) /\
    forall i, (i < m)%nat -> same_shot h (wp_image_observations p) (wp_image_observations p') c i.
Definition same_only (h : rig_choices) (p p' : only_problem) : Prop :=
  let n := length (op_base_to_camera_guess p) in
  let m := length (op_base_to_target_guess p) in
  length (op_base_to_camera_guess p') = n /\ length (op_base_to_target_guess p') = m /\
  reorders (was_camera h) n /\ same_for_all (was_image h) /\ reorders (was_image h 0) m /\
  forall c, (c < n)%nat ->
    same_camera h (op_intr p) (op_intr p') c /\
    forall i, (i < m)%nat -> same_shot h (op_image_observations p) (op_image_observations p') c i.
Definition same_mpnp (h : rig_choices) (p p' : mpnp_problem) : Prop :=
  let n := length (mp_base_to_camera p) in
  length (mp_base_to_camera p') = n /\ reorders (was_camera h) n /\
  forall c, (c < n)%nat ->
    same_camera h (mp_intr p) (mp_intr p') c /\
    nth c (mp_base_to_camera p') iso_id = moved_camera h (nth (was_camera h c) (mp_base_to_camera p) iso_id) /\
    same_picture (rig_unit h) (rig_target h) (rig_zoom h) (rig_shift h c)
      (nth (was_camera h c) (mp_image_observations p) []) (nth c (mp_image_observations p') []).

(** The poses of the target in the cameras that the first result stands for, in the second description. *)
Definition static_anew (h : rig_choices) (p' : static_problem) (r : static_result) : poses := fun c i =>
  iso_mul (iso_inv (moved_camera h (nth (was_camera h c) (sr_base_to_camera r) iso_id)))
          (iso_mul (static_wrist p' c i) (moved_target h (sr_wrist_to_target r))).
Definition wrist_anew (h : rig_choices) (p' : wrist_problem) (r : wrist_result) : poses := fun c i =>
  iso_mul (iso_inv (moved_camera h (nth (was_camera h c) (wr_base_to_camera r) iso_id)))
          (iso_mul (nth i (wp_wrist_poses p') iso_id) (moved_target h (wr_wrist_to_target r))).
Definition only_anew (h : rig_choices) (r : only_result) : poses := fun c i =>
  iso_mul (iso_inv (moved_camera h (nth (was_camera h c) (or_base_to_camera r) iso_id)))
          (placed_target h (nth (was_image h 0 i) (or_base_to_target r) iso_id)).
Definition mpnp_anew (h : rig_choices) (p' : mpnp_problem) (r : mpnp_result) : poses := fun c _ =>
  iso_mul (iso_inv (nth c (mp_base_to_camera p') iso_id)) (placed_target h (mr_base_to_target r)).
