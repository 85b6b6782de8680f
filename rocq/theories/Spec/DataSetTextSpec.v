(** Words for saving data sets character by character. *)
From Coq Require Import Reals ZArith String List.
From Verif.Base Require Import Float Geom.
From Verif.Model Require Import Yaml DataSet NumberText PoseText DataSetText.
From Verif.Spec Require Import DataSetSpec PoseTextSpec.
Import ListNotations.
Local Open Scope R_scope.

(** The seven numbers that are written for a pose, and the pose they stand for *)
Definition numbers_of (T : iso) : pose64 :=
  let q := quat_of_mat (lin T) in
  P64 (to_double (vx (tr T))) (to_double (vy (tr T))) (to_double (vz (tr T)))
      (to_double (qw q)) (to_double (qx q)) (to_double (qy q)) (to_double (qz q)).
Definition stored_pose (T : iso) : iso := pose_of (numbers_of T).
Definition stored_pair {image} (p : image * iso) : image * iso := (fst p, stored_pose (snd p)).
(** A pose that can be written *)
Definition moderate_pose (T : iso) : Prop :=
  rigid T /\ Rabs (vx (tr T)) <= 2 ^ 1000 /\ Rabs (vy (tr T)) <= 2 ^ 1000 /\ Rabs (vz (tr T)) <= 2 ^ 1000.
(** The poses differ by rounding only. *)
Definition rounded (x y : R) : Prop := Rabs (y - x) <= / 2 ^ 53 * Rabs x + / 2 ^ 1074.
Definition near_matrix (e : R) (A B : mat3) : Prop :=
  forall entry, In entry [m00; m01; m02; m10; m11; m12; m20; m21; m22] -> Rabs (entry B - entry A) <= e.

Section Text.
  Context {image : Type} (lib : codec image string).
  (** The image format keeps these images and refuses what is left of them when the end is missing. *)
  Definition keeps_pictures (storable : image -> Prop) : Prop :=
    sane lib /\
    (forall i, storable i -> empty_image lib i = false /\ imread lib (png lib i) = i) /\
    (forall i left, storable i -> cut_of left (png lib i) -> empty_image lib (imread lib left) = true).
  Definition writable_pairs (storable : image -> Prop) (ps : list (image * iso)) : Prop :=
    forall i T, In (i, T) ps -> storable i /\ moderate_pose T.
  (** The disk when saving stopped at some character of the file [path]: the files before it are complete, and it holds a first
      part of what should be in it, possibly nothing or all. *)
  Inductive stopped_at (disk : fs string) (dir : string) (data : data_set image) (path : string) : fs string -> Prop :=
  | stopped done content rest left missing :
      save_effects lib dir data = (done ++ Write path content :: rest)%list -> content = (left ++ missing)%string ->
      stopped_at disk dir data path (update (fst (run always disk done)) path (Some left)).
  (** No files whose names are cut names of images *)
  Definition no_cut_names (disk : fs string) (dir : string) : Prop :=
    forall n name, cut_of name (image_name n) -> disk (dir ++ "/" ++ name)%string = None.
  (** One pose has another last number. *)
  Definition one_number_changed (ps qs : list (image * iso)) : Prop :=
    exists l1 i T l2 q, ps = (l1 ++ (i, T) :: l2)%list /\
      qs = (map stored_pair l1 ++ (i, pose_of (with_qz (numbers_of T) q)) :: map stored_pair l2)%list.
End Text.
