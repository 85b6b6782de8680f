(** The circles of a grid seen in an image, and the orders in which a search may list them. *)
From Coq Require Import Reals Arith List.
From Verif.Base Require Import Geom.
From Verif.Model Require Import CircleDetector Targets CircleGridFinder.
From Verif.Spec Require Import TargetSpec.
Import ListNotations.
Local Open Scope R_scope.

(** The eight ways to walk through a grid line by line. *)
Inductive walk := Upright | HalfTurn | QuarterLeft | QuarterRight | Transposed | AntiTransposed | UpsideDown | Mirrored.
(** The values of a grid of rows x cols, listed by a walk. A quarter turn or a transposition lists cols
    lines of rows values. *)
Definition walk_grid {A} (w : walk) (rows cols : nat) (g : nat -> nat -> A) : list A :=
  match w with
  | Upright => layout rows cols g
  | HalfTurn => layout rows cols (fun k j => g (rows - 1 - k) (cols - 1 - j))%nat
  | QuarterLeft => layout cols rows (fun k j => g (rows - 1 - j) k)%nat
  | QuarterRight => layout cols rows (fun k j => g j (cols - 1 - k))%nat
  | Transposed => layout cols rows (fun k j => g j k)
  | AntiTransposed => layout cols rows (fun k j => g (rows - 1 - j) (cols - 1 - k))%nat
  | UpsideDown => layout rows cols (fun k j => g (rows - 1 - k) j)%nat
  | Mirrored => layout rows cols (fun k j => g k (cols - 1 - j))%nat
  end.

(** Whether a walk lists the columns of the grid. *)
Definition turned (w : walk) : bool :=
  match w with QuarterLeft | QuarterRight | Transposed | AntiTransposed => true | _ => false end.
(** The lines of the walk are as long as those of the pattern that was searched for: cols x rows, or rows x cols
    when flipped. *)
Definition found_by (w : walk) (rows cols : nat) (flipped : bool) : Prop := flipped = turned w \/ rows = cols.
(** The walks that are put in order. *)
Definition handled (w : walk) (rows cols : nat) : Prop :=
  match w with
  | Upright | HalfTurn => True
  | QuarterLeft | QuarterRight => ((cols - 1) mod rows <> 0)%nat
  | Transposed | AntiTransposed => rows = cols
  | UpsideDown | Mirrored => False
  end.

(** Closer than the float tolerance, 2^-23, in both coordinates. *)
Definition indistinct (p q : vec2) : Prop := Rabs (px p - px q) < / 2 ^ 23 /\ Rabs (py p - py q) < / 2 ^ 23.
(** The circles are apart, and each is detected once, with its size. Anything else may be detected elsewhere. *)
Definition detected (rows cols : nat) (img : nat -> nat -> vec2) (size : nat -> nat -> R) (ks : list keypoint) : Prop :=
  (forall r c, (r < rows)%nat -> (c < cols)%nat -> In (KP (img r c) (size r c)) ks) /\
  (forall r c k, (r < rows)%nat -> (c < cols)%nat -> In k ks -> indistinct (img r c) (kp_pt k) -> k = KP (img r c) (size r c)) /\
  (forall r c r' c', (r < rows)%nat -> (c < cols)%nat -> (r' < rows)%nat -> (c' < cols)%nat ->
     indistinct (img r c) (img r' c') -> r = r' /\ c = c').

(** The bottom left circle is the large one: the others vary between lo and hi, and it is larger than they
    are by more than this variation. *)
Definition large_corner (rows cols : nat) (size : nat -> nat -> R) : Prop :=
  exists lo hi, 0 < lo /\ hi * hi < lo * size (rows - 1)%nat 0%nat /\
    forall r c, (r < rows)%nat -> (c < cols)%nat -> (r, c) <> (rows - 1, 0)%nat -> lo <= size r c <= hi.

(** The bottom left circle is the large one, and the others are seen equally large. *)
Definition even_sizes (rows cols : nat) (size : nat -> nat -> R) : Prop :=
  exists s, 0 < s /\ s < size (rows - 1)%nat 0%nat /\
    forall r c, (r < rows)%nat -> (c < cols)%nat -> (r, c) <> (rows - 1, 0)%nat -> size r c = s.

(** Twice the signed area of a triangle. *)
Definition area2 (a b c : vec2) : R := (px b - px a) * (py c - py b) - (py b - py a) * (px c - px b).
(** The same with the y axis of an image, pointing down. *)
Definition image_area2 (a b c : vec2) : R := area2 (V2 (px a) (- py a)) (V2 (px b) (- py b)) (V2 (px c) (- py c)).
(** Circle (r, c) on the target: x to the right, y up. *)
Definition on_target (r c : nat) : vec2 := V2 (INR c) (- INR r).
(** The target is seen from the front: triangles keep their orientation. *)
Definition front_view (rows cols : nat) (img : nat -> nat -> vec2) : Prop :=
  forall r1 c1 r2 c2 r3 c3,
    (r1 < rows)%nat -> (c1 < cols)%nat -> (r2 < rows)%nat -> (c2 < cols)%nat -> (r3 < rows)%nat -> (c3 < cols)%nat ->
    (0 < area2 (on_target r1 c1) (on_target r2 c2) (on_target r3 c3) -> 0 < image_area2 (img r1 c1) (img r2 c2) (img r3 c3)) /\
    (area2 (on_target r1 c1) (on_target r2 c2) (on_target r3 c3) < 0 -> image_area2 (img r1 c1) (img r2 c2) (img r3 c3) < 0).
(** Centres with their sizes, each detected once. *)
Definition matched (l : list (vec2 * R)) (ks : list keypoint) : Prop :=
  NoDup (map fst l) /\
  (forall p s, In (p, s) l -> In (KP p s) ks) /\
  (forall p s k, In (p, s) l -> In k ks -> indistinct p (kp_pt k) -> k = KP p s).

(** The outcome of OpenCV's search: the regular pattern is found with these centres, or only the flipped one is. *)
Definition searched (find : nat -> nat -> bool * list vec2) (t : circle_grid) (flipped : bool) (centers : list vec2) : Prop :=
  if flipped then fst (find (cg_cols t) (cg_rows t)) = false /\ find (cg_rows t) (cg_cols t) = (true, centers)
  else find (cg_cols t) (cg_rows t) = (true, centers).

(** A view straight from the front: 100 pixels between neighbours, the large circle three times as large. *)
Definition plain_view (r c : nat) : vec2 := V2 (INR c * 100) (INR r * 100).
Definition plain_size (rows r c : nat) : R := if (Nat.eqb r (rows - 1) && Nat.eqb c 0)%bool then 30 else 10.
Definition plain_keypoints (rows cols : nat) : list keypoint := layout rows cols (fun r c => KP (plain_view r c) (plain_size rows r c)).
