(** What simulated cameras see and how simulated poses and chains should be, independent of the model of the code. *)
From Coq Require Import Reals ZArith List.
From Verif.Base Require Import Geom Outcome Matrix.
From Verif.Model Require Import Pose Solver HandEye DhChain LocalParam Kinematic Simulation.
From Verif.Spec Require Import PinHole KinReport KinUniqueSpec.
Import ListNotations.
Local Open Scope R_scope.

(** A point in the camera frame is visible: in front of the camera and its image within the borders. *)
Definition visible (c : sim_camera) (p : vec3) : Prop :=
  let q := pinhole (sim_intr c) p in
  0 < vz p /\ 0 <= px q <= IZR (sim_width c) /\ 0 <= py q <= IZR (sim_height c).

(** The correspondences of a camera that looks at a target at pose [T] in its frame: one for each visible point and none
    for the others, in the order of the points. *)
Inductive seen (c : sim_camera) (T : iso) : list vec3 -> list (correspondence vec2) -> Prop :=
| seen_nil : seen c T [] []
| seen_visible p ps cs : visible c (iso_app T p) -> seen c T ps cs ->
    seen c T (p :: ps) (Corr (pinhole (sim_intr c) (iso_app T p)) p :: cs)
| seen_not p ps cs : ~ visible c (iso_app T p) -> seen c T ps cs -> seen c T (p :: ps) cs.

(** What a sensor that measures all points says *)
Definition measured (T : iso) (ps : list vec3) : list (correspondence vec3) :=
  map (fun p => Corr (iso_app T p) p) ps.

(** Everything the generators propose for a target at this pose *)
Definition proposals (gens : list pose_generator) (T : iso) : list iso := flat_map (fun g => g T) gens.

(** An observation without motion of the target mount. The target is at [B * T] in the frame of the base of the camera, the
    camera at pose [P] in the frame of the target and at [X] on its mount. *)
Definition taken {I} (T X B P : iso) (o : observation I) : Prop :=
  to_target_mount o = iso_id /\ iso_mul (to_camera_mount o) X = iso_mul (iso_mul B T) P.

(** The optical axis of a camera at pose [P], its z axis, goes through the point [q] in front of it. *)
Definition looks_at (P : iso) (q : vec3) : Prop :=
  exists d, 0 < d /\ q = vadd (tr P) (vscale d (col2 (lin P))).
Definition parallel (a b : vec3) : Prop := cross a b = vzero.
(** The pose turned by [a] about its own z axis *)
Definition turned_z (a : R) (P : iso) : iso := iso_mul P (iso_rot (aa_matrix a unitZ)).

(** A camera placed at [pos] in the frame of a target at pose [T], everything moved by [O], that looks at the target and is
    turned by [z_rot] about its z axis. Before it is turned, its x axis is level and its y axis points down, where up is the x
    axis of the frame in which [T] is given. *)
Definition well_placed (z_rot : R) (O T : iso) (pos : vec3) (P : iso) : Prop :=
  let up := mvec (lin O) unitX in
  exists P0, P = turned_z z_rot P0 /\ rigid P0 /\ tr P0 = iso_app O (iso_app T pos) /\ looks_at P0 (iso_app O (tr T)) /\
    dot (mvec (lin P0) unitX) up = 0 /\ dot (mvec (lin P0) unitY) up < 0.
(** Seen from there, the target is in the direction of up or down. *)
Definition from_above_or_below (T : iso) (pos : vec3) : Prop := parallel (mvec (lin T) pos) unitX.

(** The i-th of n evenly spaced values from [low] to [high]; a single one is [high]. *)
Definition spaced (n : nat) (low high : R) (i : nat) : R :=
  if Nat.eqb n 1 then high else low + (high - low) * (INR i / INR (n - 1)).

(** Points on a sphere, a circle and a square grid *)
Definition sphere_point (r theta phi : R) : vec3 := V3 (r * cos theta * sin phi) (r * sin theta * sin phi) (r * cos phi).
Definition circle_point (r h : R) (n i : nat) : vec3 :=
  V3 (r * cos (2 * PI * (INR i / INR n))) (r * sin (2 * PI * (INR i / INR n))) h.
Definition square_point (spacing h : R) (n i j : nat) : vec3 :=
  V3 ((INR i - INR (n - 1) / 2) * spacing) ((INR j - INR (n - 1) / 2) * spacing) h.

(** [c] is the centre of the points: each has its mirror image in [c] among them. *)
Definition centre (c : vec3) (ps : list vec3) : Prop := forall p, In p ps -> In (vsub (vscale 2 c) p) ps.

(** The joint values are within the limits of the chain. *)
Definition within_limits (c : dh_chain) (q : list R) : Prop :=
  length q = dof c /\
  forall i t x, nth_error (transforms c) i = Some t -> nth_error q i = Some x -> jmin t <= x <= jmax t.
(** A chain whose forward kinematics can be computed and whose limits are in order *)
Definition usable_chain (c : dh_chain) : Prop :=
  forall t, In t (transforms c) -> jmin t <= jmax t /\ jtype t <> OTHER.
(** A distribution that stays within its bounds *)
Definition in_bounds {G} (uniform : R -> R -> G -> R * G) : Prop :=
  forall a b g, a <= b -> a <= fst (uniform a b g) <= b.
(** A distribution that stretches one and the same stream of numbers between its bounds *)
Definition stretches {G} (uniform : R -> R -> G -> R * G) : Prop :=
  forall a b g, uniform a b g = (a + (b - a) * fst (uniform 0 1 g), snd (uniform 0 1 g)).

(** The z axes of camera and target point against each other. *)
Definition faces (camera_pose target_pose : iso) : Prop :=
  dot (col2 (lin camera_pose)) (col2 (lin target_pose)) < - (1 / 5).

(** The three patterns of camera poses, moved by [O] *)
Inductive pattern (O : iso) : pose_generator -> Prop :=
| pattern_hemisphere r n m z : pattern O (hemisphere_generate r n m z O)
| pattern_cone r h n z : pattern O (conical_generate r h n z O)
| pattern_grid spacing h n z : pattern O (grid_generate spacing h n z O).
(** Where the camera is in the frame of the target when a simulated observation is taken *)
Definition camera_in_target {I} (T X B : iso) (o : observation I) : iso :=
  iso_mul (iso_inv (iso_mul (iso_mul B (to_target_mount o)) T)) (iso_mul (to_camera_mount o) X).

(** Two chains without offsets at these joint values: where the camera and the target are in the frame of the base of the
    camera chain. The camera is at [C] on its mount, the target at [T], and the base of the target chain is at [B]. *)
Definition scene (cam tgt : dh_chain) (C T B : iso) (qc qt : list R) (camera_pose target_pose : iso) : Prop :=
  exists Fc Ft, tips cam tgt qc qt Fc Ft /\ camera_pose = iso_mul Fc C /\ target_pose = iso_mul B (iso_mul Ft T).
Definition both_within (cam tgt : dh_chain) (qc qt : list R) : Prop := within_limits cam qc /\ within_limits tgt qt.
(** The number of correspondences in all observations *)
Definition all_correspondences {I} (os : list (kin_observation I)) : nat :=
  list_sum (map (fun o => length (ko_correspondence_set o)) os).
(** From wherever the joints can be, the target is in full view. *)
Definition always_in_view (camera : sim_camera) (target : sim_target) (cam tgt : dh_chain) (C T B : iso) : Prop :=
  forall qc qt cp tp, both_within cam tgt qc qt -> scene cam tgt C T B qc qt cp tp ->
  faces cp tp /\ forall p, In p (sim_points target) -> visible camera (iso_app (iso_mul (iso_inv cp) tp) p).
(** The parameter blocks hold the truth: no offsets and these transforms. *)
Definition holds_truth (cam tgt : dh_chain) (C T B : iso) (m : memory) (p0 p1 p2 p3 p4 p5 p6 p7 : nat) : Prop :=
  (forall i, (i < 4 * dof cam)%nat -> m p0 i = 0) /\ (forall i, (i < 4 * dof tgt)%nat -> m p1 i = 0) /\
  createTransform (read3 m p2) (read3 m p3) = C /\ createTransform (read3 m p4) (read3 m p5) = T /\
  createTransform (read3 m p6) (read3 m p7) = B.

(** A move by at most [s] along each axis and a turn by at most [a] about some axis *)
Definition within (b x : R) : Prop := - b <= x <= b.
Definition small_move (s a : R) (D : iso) : Prop :=
  exists t angle axis, D = iso_mul (iso_trans t) (iso_rot (aa_matrix angle axis)) /\ dot axis axis = 1 /\
    within s (vx t) /\ within s (vy t) /\ within s (vz t) /\ within a angle.
(** A screw motion: the move is along the axis of the turn. *)
Definition screw (D : iso) : Prop :=
  exists t angle axis, D = iso_mul (iso_trans t) (iso_rot (aa_matrix angle axis)) /\ dot axis axis = 1 /\ parallel t axis.
(** The numbers a generator draws one after the other *)
Definition draw_no {N} (normal : R -> N -> R * N) (stddev : R) (start : N) (k : nat) : R :=
  fst (normal stddev (Nat.iter k (fun s => snd (normal stddev s)) start)).
