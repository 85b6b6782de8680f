(** C40: the circles are put in the order of the target points, with the large circle on the origin. *)
From Coq Require Import Reals Arith List Permutation.
From Verif.Base Require Import Geom Outcome.
From Verif.Model Require Import Pose HandEye CircleDetector Targets CircleGridFinder.
From Verif.Spec Require Import PinHole TargetSpec GridOrderSpec.
From Verif.Proofs Require Import GridWalkProofs GridViewProofs GridTransposedProofs.
Import ListNotations.
Local Open Scope R_scope.

(** In full: for every walk through the grid that the search may return. Proved for the walks of [handled]:
    the upright grid, the half turn, quarter turns unless rows divides cols - 1, transpositions of square grids. *)
Theorem C40_ordered_partial :
  forall rows cols img size ks detector w flipped,
  (2 <= rows)%nat -> (2 <= cols)%nat -> search_keypoints detector rows cols = Ok ks -> detected rows cols img size ks -> large_corner rows cols size ->
  front_view rows cols img -> found_by w rows cols flipped -> handled w rows cols ->
  extractKeyPoints detector (walk_grid w rows cols img) rows cols flipped = Ok (layout rows cols img).
Proof. exact ordered. Qed.
Print Assumptions C40_ordered_partial.

(** A grid walked upside down or mirrored is never put in order, whatever its size. *)
Theorem C40_ordered_refuted :
  forall rows cols w, (2 <= rows)%nat -> (2 <= cols)%nat -> w = UpsideDown \/ w = Mirrored ->
  ~ (forall img size ks detector flipped,
     search_keypoints detector rows cols = Ok ks -> detected rows cols img size ks -> large_corner rows cols size ->
     front_view rows cols img -> found_by w rows cols flipped ->
     extractKeyPoints detector (walk_grid w rows cols img) rows cols flipped = Ok (layout rows cols img)).
Proof. exact flipped_over_wrong. Qed.
Print Assumptions C40_ordered_refuted.

(** Nor is a grid turned by a quarter when rows divides cols - 1. *)
Theorem C40_quarter_turn_refuted :
  forall rows cols w, (2 <= rows)%nat -> (2 <= cols)%nat -> w = QuarterLeft \/ w = QuarterRight -> ((cols - 1) mod rows = 0)%nat ->
  ~ (forall img size ks detector flipped,
     search_keypoints detector rows cols = Ok ks -> detected rows cols img size ks -> large_corner rows cols size ->
     front_view rows cols img -> found_by w rows cols flipped ->
     extractKeyPoints detector (walk_grid w rows cols img) rows cols flipped = Ok (layout rows cols img)).
Proof. exact quarter_turn_wrong. Qed.
Print Assumptions C40_quarter_turn_refuted.

(** Nor is a grid that is not square, walked column by column without a turn. *)
Theorem C40_transposed_refuted :
  forall rows cols w, (2 <= rows)%nat -> (2 <= cols)%nat -> w = Transposed \/ w = AntiTransposed -> rows <> cols ->
  ~ (forall img size ks detector flipped,
     search_keypoints detector rows cols = Ok ks -> detected rows cols img size ks -> large_corner rows cols size ->
     front_view rows cols img -> found_by w rows cols flipped ->
     extractKeyPoints detector (walk_grid w rows cols img) rows cols flipped = Ok (layout rows cols img)).
Proof. exact transposed_wrong. Qed.
Print Assumptions C40_transposed_refuted.

(** So the walks of [handled] are exactly those that are always put in order. *)
Theorem C40_handled_exactly :
  forall rows cols w, (2 <= rows)%nat -> (2 <= cols)%nat ->
  (handled w rows cols <->
   forall img size ks detector flipped,
     search_keypoints detector rows cols = Ok ks -> detected rows cols img size ks -> large_corner rows cols size ->
     front_view rows cols img -> found_by w rows cols flipped ->
     extractKeyPoints detector (walk_grid w rows cols img) rows cols flipped = Ok (layout rows cols img)).
Proof. exact handled_exactly. Qed.
Print Assumptions C40_handled_exactly.

(** What these walks become. *)
Theorem C40_wrong_orders :
  forall rows cols img size ks detector w flipped,
  (2 <= rows)%nat -> (2 <= cols)%nat -> search_keypoints detector rows cols = Ok ks -> detected rows cols img size ks -> large_corner rows cols size ->
  front_view rows cols img -> found_by w rows cols flipped ->
  (w = UpsideDown \/ w = Mirrored -> extractKeyPoints detector (walk_grid w rows cols img) rows cols flipped = Ok (walk_grid QuarterRight rows cols img)) /\
  (w = QuarterLeft \/ w = QuarterRight -> ((cols - 1) mod rows = 0)%nat ->
     extractKeyPoints detector (walk_grid w rows cols img) rows cols flipped = Ok (walk_grid Mirrored rows cols img)).
Proof. exact misordered. Qed.
Print Assumptions C40_wrong_orders.

(** A transposed grid that is not square, with the other circles seen equally large, is refused: the code
    does not look at the large circle. *)
Theorem C40_transposed_throws :
  forall rows cols img size ks detector w flipped,
  (2 <= rows)%nat -> (2 <= cols)%nat -> rows <> cols -> w = Transposed \/ w = AntiTransposed ->
  search_keypoints detector rows cols = Ok ks -> detected rows cols img size ks -> even_sizes rows cols size ->
  extractKeyPoints detector (walk_grid w rows cols img) rows cols flipped = Throw RuntimeError.
Proof. exact transposed_throws. Qed.
Print Assumptions C40_transposed_throws.

(** In both wrong orders the large circle comes last, at the target's far corner, while the origin is at index (rows - 1) cols. *)
Theorem C40_origin_misplaced :
  forall rows cols (img : nat -> nat -> vec2), (2 <= rows)%nat -> (2 <= cols)%nat ->
  (forall w, w = QuarterRight \/ w = Mirrored -> nth_error (walk_grid w rows cols img) (rows * cols - 1) = Some (img (rows - 1) 0)%nat) /\
  nth_error (createPoints (CG rows cols 1)) (rows * cols - 1) = Some (grid_point rows 1 (rows - 1) (cols - 1)) /\
  nth_error (createPoints (CG rows cols 1)) (rows * cols - cols) = Some (V3 0 0 0).
Proof. exact misplaced. Qed.
Print Assumptions C40_origin_misplaced.

(** Whatever is returned contains each centre exactly once. *)
Theorem C40_each_once :
  forall detector fc rows cols flipped pts, length fc = (rows * cols)%nat ->
  extractKeyPoints detector fc rows cols flipped = Ok pts -> Permutation pts fc.
Proof. exact each_once. Qed.
Print Assumptions C40_each_once.

(** A pin-hole camera in front of the target, with every circle in front of the camera, has a view from the front. *)
Theorem C40_front_view :
  forall k T rows cols s, rigid T -> 0 < fx k -> 0 < fy k -> 0 < s -> 0 < vz (tr (iso_inv T)) ->
  (forall r c, (r < rows)%nat -> (c < cols)%nat -> 0 < vz (iso_app T (grid_point rows s r c))) ->
  front_view rows cols (fun r c => pinhole k (iso_app T (grid_point rows s r c))).
Proof. exact pinhole_front. Qed.
Print Assumptions C40_front_view.

(** Through the finder and the target: each circle is paired with its own point of the target. *)
Theorem C40_correspondences_partial :
  forall find altered p t img size ks w flipped,
  (2 <= cg_rows t)%nat -> (2 <= cg_cols t)%nat ->
  searched find t flipped (walk_grid w (cg_rows t) (cg_cols t) img) ->
  search_keypoints (fun alpha beta => detect (altered alpha beta) p) (cg_rows t) (cg_cols t) = Ok ks ->
  detected (cg_rows t) (cg_cols t) img size ks -> large_corner (cg_rows t) (cg_cols t) size -> front_view (cg_rows t) (cg_cols t) img ->
  found_by w (cg_rows t) (cg_cols t) flipped -> handled w (cg_rows t) (cg_cols t) ->
  exists cs, (do tf <- find_circle_grid find altered p t; circle_correspondences t tf) = Ok cs /\
    map in_image cs = layout (cg_rows t) (cg_cols t) img /\ map in_target cs = layout (cg_rows t) (cg_cols t) (grid_point (cg_rows t) (cg_spacing t)).
Proof. exact found_correspondences. Qed.
Print Assumptions C40_correspondences_partial.

(** A grid of a single row or column reads outside the vector of sizes. *)
Theorem C40_thin_grid :
  forall rows cols img size ks detector flipped, (rows < 2 \/ cols < 2)%nat -> search_keypoints detector rows cols = Ok ks -> detected rows cols img size ks ->
  extractKeyPoints detector (layout rows cols img) rows cols flipped = UB.
Proof. exact thin_grid. Qed.
Print Assumptions C40_thin_grid.

(** So does a search that leaves too few centres, all of them detected. *)
Theorem C40_incomplete_centres :
  forall find detector t ks l, let rows := cg_rows t in let cols := cg_cols t in
  fst (find cols rows) = false -> snd (find rows cols) = map fst l -> l <> [] -> (length l < rows * cols)%nat ->
  search_keypoints detector rows cols = Ok ks -> matched l ks ->
  extractModifiedCircleGrid find detector t = UB.
Proof. exact incomplete. Qed.
Print Assumptions C40_incomplete_centres.

(** The hypotheses hold for grids of every size. *)
Example C40_plain :
  forall rows cols w flipped, (2 <= rows)%nat -> (2 <= cols)%nat -> found_by w rows cols flipped -> handled w rows cols ->
  extractKeyPoints (fun _ _ => Ok (plain_keypoints rows cols)) (walk_grid w rows cols plain_view) rows cols flipped = Ok (layout rows cols plain_view).
Proof. exact plain_ordered. Qed.
