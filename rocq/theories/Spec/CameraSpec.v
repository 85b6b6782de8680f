(** What the tools for several cameras use and show. *)
From Coq Require Import Reals Arith List.
From Verif.Base Require Import Geom Outcome.
From Verif.Model Require Import Pose HandEye BlockSolver MultiCamera DataSet ExampleTools CameraTools.
From Verif.Spec Require Import Frames CorrDataSpec MultiSpec ToolSpec.
Import ListNotations.
Local Open Scope R_scope.

(** A camera with its pictures, each with the tool pose at which it was taken. *)
Record camera (image : Type) := Camera { pics : list (image * iso); intr_of : intrinsics; pose_of : iso }.
Arguments Camera {image}. Arguments pics {image}. Arguments intr_of {image}. Arguments pose_of {image}.
Definition input {image} (c : camera image) : camera_input image := Cam (Some (data_of (pics c))) (intr_of c) (pose_of c).
(** All cameras took the same number of pictures. *)
Definition even {image} (rig : list (camera image)) (n : nat) : Prop := forall c, In c rig -> List.length (pics c) = n.

Section Rig.
  Context {image features : Type} (v : vision image features).
  (** Finding, pairing and showing return or throw a std::exception. *)
  Definition orderly : Prop := all_behaved (find v) (create v) (show_features v).
  (** The camera sees the target in its picture number i as these correspondences. *)
  Definition sees_at (i : nat) (c : camera image) (cs : list (correspondence vec2)) : Prop :=
    exists p, nth_error (pics c) i = Some p /\ sees_shown v p cs.
  (** All cameras do. *)
  Definition all_see (rig : list (camera image)) (i : nat) (css : list (list (correspondence vec2))) : Prop :=
    Forall2 (sees_at i) rig css.
  (** The cameras, each with its pose, that see the target in their picture number i. *)
  Definition seeing (rig : list (camera image)) (Cs : list iso) (i : nat)
    (seen : list ((camera image * iso) * list (correspondence vec2))) : Prop :=
    chosen (fun x => sees_at i (fst x)) (combine rig Cs) seen.
End Rig.
(** The tool pose of picture number i of the first camera. *)
Definition first_pose {image} (rig : list (camera image)) (i : nat) (T : iso) : Prop :=
  exists c p, nth_error rig 0 = Some c /\ nth_error (pics c) i = Some p /\ snd p = T.
Definition first_picture {image} (rig : list (camera image)) (i : nat) (img : image) : Prop :=
  exists c p, nth_error rig 0 = Some c /\ nth_error (pics c) i = Some p /\ fst p = img.

(** Errors of the correspondences of a camera at pose [C] with intrinsics [k], with a target at [W] on the tool. *)
Definition camera_errors (k : intrinsics) (C W : iso) (seen : list (iso * list (correspondence vec2))) : list (list R) :=
  flat_map (fun s => map (seen_error k (iso_mul (iso_inv C) (iso_mul (fst s) W))) (snd s)) seen.

(** A selection of pictures as tool poses with correspondences. *)
Definition at_poses {image} (sel : list ((image * iso) * list (correspondence vec2))) : list (iso * list (correspondence vec2)) :=
  map (fun s => (snd (fst s), snd s)) sel.

(** The image with number i is one that all cameras see; it comes with the first camera's tool pose and all correspondences. *)
Definition common {image features} (v : vision image features) (rig : list (camera image)) (i : nat)
  (x : iso * list (list (correspondence vec2))) : Prop :=
  first_pose rig i (fst x) /\ all_see v rig i (snd x).
(** Out of such images, what camera c sees. *)
Definition of_nth (c : nat) (kept : list (nat * (iso * list (list (correspondence vec2))))) : list (iso * list (correspondence vec2)) :=
  map (fun k => (fst (snd k), nth c (snd (snd k)) [])) kept.

(** A reprojection of a target at pose [T]: the picture is shown with the points of the target where the first of the
    cameras sees them, before and after a pose estimation with all cameras that starts at [T]. *)
Definition reprojected {image} (run : block_solver) (T : iso) (img : image)
  (cams : list (intrinsics * iso * list (correspondence vec2))) (r : reprojection image) : Prop :=
  exists k C cs rest, cams = (k, C, cs) :: rest /\
    let points := flat_map (fun x => map in_target (snd x)) cams in
    let pixels D := map (fun p => projectPoint_arr k (iso_app (iso_mul (iso_inv C) D) p)) points in
    rj_image r = img /\
    rj_camera_to_target r = iso_mul (iso_inv C) T /\ rj_before r = pixels T /\
    optimizeMpnp run (MP (map (fun x => fst (fst x)) cams) (map (fun x => snd (fst x)) cams) (map snd cams) T) = Ok (rj_pnp r) /\
    rj_pnp_camera_to_target r = iso_mul (iso_inv C) (mr_base_to_target (rj_pnp r)) /\
    rj_after r = pixels (mr_base_to_target (rj_pnp r)).
