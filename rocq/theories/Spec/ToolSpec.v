(** Which images a calibration tool uses, and what it reports. *)
From Coq Require Import Reals Arith String List.
From Verif.Base Require Import Geom Outcome.
From Verif.Model Require Import Pose HandEye Homography Pnp IntrinsicValidation DataSet ExampleTools.
From Verif.Spec Require Import Frames StatSpec KinSpec ValidationSpec.
Import ListNotations.
Local Open Scope R_scope.

(** The elements that have something, in order, each with what it has. *)
Inductive chosen {A B} (P : A -> B -> Prop) : list A -> list (A * B) -> Prop :=
| chosen_nil : chosen P [] []
| chosen_yes a b l r : P a b -> chosen P l r -> chosen P (a :: l) ((a, b) :: r)
| chosen_no a l r : (forall b, ~ P a b) -> chosen P l r -> chosen P (a :: l) r.

(** The exceptions considered that are derived from std::runtime_error: all but std::out_of_range, XmlRpcException and those of OpenCV. *)
Definition std_runtime_error (e : exn) : bool := match e with OutOfRange | XmlRpcException | CvException => false | _ => true end.

Section Images.
  Context {image features : Type} (v : vision image features).
  (** The target is found in the image, and its features are these correspondences. *)
  Definition sees (img : image) (cs : list (correspondence vec2)) : Prop :=
    exists f, find v img = Ok f /\ none v f = false /\ create v f = Ok cs.
  (** A call returns, or throws a std::runtime_error. *)
  Definition guarded {A} (x : res A) : Prop :=
    match x with Ok _ => True | Throw e => std_runtime_error e = true | UB => False end.
  (** Nothing but runtime errors happens on the image, and it can be shown. *)
  Definition harmless (img : image) : Prop :=
    guarded (find v img) /\ show_image v img = Ok tt /\
    forall f, find v img = Ok f -> guarded (create v f) /\ guarded (show_features v img f).

  Context {G : Type} (lu : lu_solver) (seeded : nat -> G) (uniform_int : nat -> nat -> G -> nat * G).
  (** The generator draws numbers within the bounds. *)
  Definition in_bounds : Prop := (forall a b g, a <= b -> a <= fst (uniform_int a b g) <= b)%nat.
  (** A homography fitted to a third of the correspondences, at least four of them, drawn with the seed 1, predicts
      the image points with an average error within the threshold. *)
  Definition flat (threshold : R) (cs : list (correspondence vec2)) : Prop :=
    let n := List.length cs in
    (12 <= n)%nat /\ exists es, calculateHomographyError lu cs (randomSample seeded uniform_int (RS n (n / 3) 1)) = Ok es /\
    average es <= threshold.
  (** The tool can use the image. *)
  Definition usable (threshold : R) (p : image * iso) (cs : list (correspondence vec2)) : Prop :=
    sees (fst p) cs /\ flat threshold cs.
End Images.

(** Data sets as lists of pairs. *)
Definition data_of {image} (ps : list (image * iso)) : data_set image := DS (map fst ps) (map snd ps).
(** A selected pair and its correspondences as an observation of a camera on the tool, or of a target on the tool. *)
Definition camera_moves {image} (s : (image * iso) * list (correspondence vec2)) : observation vec2 :=
  Obs (snd s) (snd (fst s)) iso_id.
Definition target_moves {image} (s : (image * iso) * list (correspondence vec2)) : observation vec2 :=
  Obs (snd s) iso_id (snd (fst s)).

(** Pose of the target in the frame of a camera fixed to the tool, the target standing still ... *)
Definition target_from_tool (tool wrist_to_camera base_to_target : iso) : iso :=
  iso_mul (iso_inv (iso_mul tool wrist_to_camera)) base_to_target.
(** ... and of a target fixed to the tool in the frame of a camera standing still. *)
Definition target_from_base (tool base_to_camera wrist_to_target : iso) : iso :=
  iso_mul (iso_inv base_to_camera) (iso_mul tool wrist_to_target).

(** Where a pixel should have been and is. *)
Definition pixel_error (k : intrinsics) (pose : iso) (c : correspondence vec2) : list R :=
  let q := projectPoint_arr k (iso_app pose (in_target c)) in
  [px q - px (in_image c); py q - py (in_image c)].
(** The pairs of a selection with their correspondences. *)
Definition seen_pairs {image} (sel : list ((image * iso) * list (correspondence vec2))) : list (iso * correspondence vec2) :=
  flat_map (fun s => map (fun c => (snd (fst s), c)) (snd s)) sel.

(** The smallest and the largest number of a list. *)
Definition smallest (l : list R) (m : R) : Prop := In m l /\ forall x, In x l -> m <= x.
Definition largest (l : list R) (m : R) : Prop := In m l /\ forall x, In x l -> x <= m.
(** Sample standard deviation: the sum of squares over one less than the number. *)
Definition sample_dev (l : list R) : R :=
  sqrt (total (map (fun x => (x - average l) * (x - average l)) l) / INR (List.length l - 1)).

(** ** Comparison with the pose of the target alone *)
(** Pose of the target in the camera according to a calibration. *)
Definition predicted (r : he_result) (o : observation vec2) : iso :=
  target_in_camera (he_camera_mount_to_camera r) (to_camera_mount o) (to_target_mount o) (he_target_mount_to_target r).
(** The i-th PnP call, started there, estimates the pose [P], and the rotations differ by the angle [a]. *)
Definition compared (runs : nat -> pnp_run) (p : he_problem2D3D) (r : he_result) (i : nat) (o : observation vec2) (P : iso) (a : R) : Prop :=
  (exists fit, fitted (runs i) (h2_intr p) (predicted r o) (correspondence_set o) fit /\ P = pnp_camera_to_target fit) /\
  angle_between (lin (predicted r o)) (lin P) a.
(** Distance between the positions. *)
Definition distance (r : he_result) (x : observation vec2 * (iso * R)) : R :=
  norm (vsub (tr (fst (snd x))) (tr (predicted r (fst x)))).

(** ** The other tools *)
Section Others.
  Context {image features : Type} (v : vision image features).
  (** The target is found, its features can be shown, and they are these correspondences. *)
  Definition sees_shown (p : image * iso) (cs : list (correspondence vec2)) : Prop :=
    exists f, find v (fst p) = Ok f /\ none v f = false /\ show_features v (fst p) f = Ok tt /\ create v f = Ok cs.
  (** The finder returns, whatever it found. *)
  Definition returns (p : image * iso) (cs : list (correspondence vec2)) : Prop :=
    exists f, find v (fst p) = Ok f /\ create v f = Ok cs.
  (** Finding and pairing end in a runtime error at worst, and features can be shown. *)
  Definition tame (img : image) : Prop :=
    guarded (find v img) /\ forall f, find v img = Ok f -> guarded (create v f) /\ show_features v img f = Ok tt.
  (** Finding and showing end in a runtime error at worst, the image can be shown, and found features can be paired. *)
  Definition quiet (img : image) : Prop :=
    guarded (find v img) /\ show_image v img = Ok tt /\
    forall f, find v img = Ok f -> guarded (show_features v img f) /\ (none v f = false -> show_features v img f = Ok tt -> exists cs, create v f = Ok cs).
End Others.
