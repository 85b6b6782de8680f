(** Modified circle grid finder (rct_image_tools/src/rct_image_tools/modified_circle_grid_finder.cpp). *)
From Coq Require Import Reals Arith Bool List.
From Verif.Base Require Import Geom Outcome Float.
From Verif.Model Require Import CircleDetector Targets.
Import ListNotations.
Local Open Scope R_scope.

(** std::numeric_limits<float>::epsilon() *)
Definition FLT_EPS : R := / 2 ^ 23.

(** modified_circle_grid_finder.cpp:6-10, isEqual. The unqualified [abs] is taken as the absolute value of
    a floating point number. Conversions between float and double are taken as exact. *)
Definition isEqual (tol a b : R) : bool := rltb (Rabs (a - b)) tol.
(** [isEqual(pt.x, q.x) && isEqual(pt.y, q.y)] *)
Definition same_point (tol : R) (pt q : vec2) : bool := isEqual tol (px pt) (px q) && isEqual tol (py pt) (py q).

(** modified_circle_grid_finder.cpp:75-93: tries gains and offsets until enough keypoints are detected; the
    keypoints of the last try stay otherwise. [detector alpha beta] detects in the image altered by
    them. *)
Fixpoint search_beta (detector : nat -> res (list keypoint)) (enough : nat) (betas : list nat) (keypoints : list keypoint)
  : res (bool * list keypoint) :=
  match betas with
  | [] => Ok (false, keypoints)
  | beta :: r =>
      do keypoints <- detector beta;
      if Nat.leb enough (length keypoints) then Ok (true, keypoints) else search_beta detector enough r keypoints
  end.
Fixpoint search_alpha (detector : R -> nat -> res (list keypoint)) (enough : nat) (alphas : list R) (keypoints : list keypoint)
  : res (list keypoint) :=
  match alphas with
  | [] => Ok keypoints
  | alpha :: r =>
      do f <- search_beta (detector alpha) enough (seq 0 101) keypoints;
      if fst f then Ok (snd f) else search_alpha detector enough r (snd f)
  end.
(** 0.01, rounded to double *)
Definition d0_01 : f64 := dnum 5764607523034235 (-59).
(** modified_circle_grid_finder.cpp:75, [for (double alpha = 1.0; alpha <= 3.0; alpha += 0.01)] in double precision: the values of
    alpha. The loop ends after fewer than 1000 rounds (gains_stop in Proofs/SearchProofs.v). *)
Fixpoint gains_from (rounds : nat) (alpha : f64) : list f64 :=
  match rounds with
  | O => []
  | S r => if dle alpha (dint 3) then alpha :: gains_from r (dadd alpha d0_01) else []
  end.
Definition gains : list R := map dval (gains_from 1000 (dint 1)).
Definition search_keypoints (detector : R -> nat -> res (list keypoint)) (rows cols : nat) : res (list keypoint) :=
  search_alpha detector (rows * cols) gains [].

(** [std::find_if] followed by [erase] *)
Fixpoint erase_first {A} (f : A -> bool) (l : list A) : list A :=
  match l with [] => [] | a :: r => if f a then r else a :: erase_first f r end.
(** modified_circle_grid_finder.cpp:98-109 *)
Definition unmatched (keypoints : list keypoint) (feature_coordinates : list vec2) : list vec2 :=
  fold_left (fun tmp k => erase_first (fun pt => same_point FLT_EPS pt (kp_pt k)) tmp) keypoints feature_coordinates.

(** Assigns to the first element that satisfies the test. *)
Fixpoint assign_first (f : vec2 -> bool) (v : R) (centers : list vec2) (sizes : list R) : list R :=
  match centers, sizes with
  | c :: cs, s :: ss => if f c then v :: ss else s :: assign_first f v cs ss
  | _, _ => sizes
  end.
(** modified_circle_grid_finder.cpp:135-153 *)
Definition feature_sizes (keypoints : list keypoint) (feature_coordinates : list vec2) : list R :=
  fold_left (fun sizes k => assign_first (fun c => same_point DBL_EPS c (kp_pt k)) (kp_size k) feature_coordinates sizes)
    keypoints (repeat 0 (length feature_coordinates)).

(** Subtraction of std::size_t in an index: wraps to an index outside every vector. *)
Definition index_sub (a b : nat) : res nat := if Nat.ltb a b then UB else Ok (a - b)%nat.
(** Quotient of two sizes. A zero denominator is taken as not a number. *)
Definition relative_size (sizes : list R) (i j : nat) : res R :=
  do a <- idx sizes i; do b <- idx sizes j; if Req_EM_T b 0 then UB else Ok (a / b).
Definition avg_rel_size (sizes : list R) (i j k : nat) : res R :=
  do a <- relative_size sizes i j; do b <- relative_size sizes i k; Ok ((a + b) / 2).

(** modified_circle_grid_finder.cpp:191-203 *)
Definition usual (start_last end_last end_first : vec2) : bool :=
  let v1x := px end_last - px start_last in
  let v1y := - py end_last + py start_last in
  let v2x := px end_first - px end_last in
  let v2y := - py end_first + py end_last in
  negb (rltb (v1x * v2y - v1y * v2x) 0).

(** [a > b && a > c && a > d] *)
Definition largest (a b c d : R) : bool := rltb b a && rltb c a && rltb d a.

Definition up (n : nat) : list nat := seq 0 n.
Definition down (n : nat) : list nat := rev (seq 0 n).
(** A loop over the columns [js] around one over the rows [ks]. *)
Definition visit (feature_coordinates : list vec2) (temp_cols : nat) (js ks : list nat) : res (list vec2) :=
  mapM (fun i => idx feature_coordinates i) (flat_map (fun j => map (fun k => (k * temp_cols + j)%nat) ks) js).

(** modified_circle_grid_finder.cpp:115-351, extractKeyPoints after the keypoints are matched *)
Definition order_points (feature_coordinates : list vec2) (sizes : list R) (rows cols : nat) (flipped : bool) : res (list vec2) :=
  let temp_rows := if flipped then cols else rows in
  let temp_cols := if flipped then rows else cols in
  let start_first := 0%nat in
  do end_first <- index_sub cols 1;
  do start_last <- index_sub (rows * cols) cols;
  do end_last <- index_sub (rows * cols) 1;
  do start_last_pt <- idx feature_coordinates start_last;
  do end_last_pt <- idx feature_coordinates end_last;
  do _ <- idx feature_coordinates start_first;
  do end_first_pt <- idx feature_coordinates end_first;
  do i <- index_sub start_last cols;
  do start_last_size <- avg_rel_size sizes start_last (start_last + 1) i;
  do i <- index_sub end_last 1;
  do j <- index_sub end_last cols;
  do end_last_size <- avg_rel_size sizes end_last i j;
  do start_first_size <- avg_rel_size sizes start_first (start_first + 1) (start_first + cols);
  do i <- index_sub end_first 1;
  do end_first_size <- avg_rel_size sizes end_first i (end_first + cols);
  let usual_ordering := usual start_last_pt end_last_pt end_first_pt in
  if largest start_last_size start_first_size end_first_size end_last_size then
    if usual_ordering then mapM (idx feature_coordinates) (up (length feature_coordinates))
    else visit feature_coordinates temp_cols (down temp_cols) (down temp_rows)
  else if largest end_first_size end_last_size start_last_size start_first_size then
    if usual_ordering then mapM (idx feature_coordinates) (down (length feature_coordinates))
    else visit feature_coordinates temp_cols (up temp_cols) (up temp_rows)
  else if largest end_last_size start_last_size end_first_size start_first_size then
    if usual_ordering then visit feature_coordinates temp_cols (up temp_cols) (down temp_rows)
    else visit feature_coordinates temp_cols (up temp_cols) (up temp_rows)
  else if largest start_first_size end_last_size end_first_size start_last_size then
    if usual_ordering then visit feature_coordinates temp_cols (down temp_cols) (up temp_rows)
    else visit feature_coordinates temp_cols (down temp_cols) (down temp_rows)
  else Throw RuntimeError.

(** modified_circle_grid_finder.cpp:54-352, extractKeyPoints *)
Definition extractKeyPoints (detector : R -> nat -> res (list keypoint)) (feature_coordinates : list vec2)
  (rows cols : nat) (flipped : bool) : res (list vec2) :=
  do keypoints <- search_keypoints detector rows cols;
  match unmatched keypoints feature_coordinates with
  | _ :: _ => Throw RuntimeError
  | [] => order_points feature_coordinates (feature_sizes keypoints feature_coordinates) rows cols flipped
  end.

(** modified_circle_grid_finder.cpp:354-393, extractModifiedCircleGrid. [findCirclesGrid width height] is
    OpenCV's search for a pattern: whether it was found, and the centres it leaves. *)
Definition extractModifiedCircleGrid (findCirclesGrid : nat -> nat -> bool * list vec2)
  (detector : R -> nat -> res (list keypoint)) (t : circle_grid) : res (list vec2) :=
  let rows := cg_rows t in let cols := cg_cols t in
  let regular := findCirclesGrid cols rows in
  let '(centers, flipped) :=
    if fst regular && Nat.eqb (length (snd regular)) (rows * cols) then (snd regular, false)
    else
      let other := findCirclesGrid rows cols in
      (snd other, fst other && Nat.eqb (length (snd other)) (rows * cols)) in
  if Nat.eqb (length centers) 0 then Throw RuntimeError
  else extractKeyPoints detector centers rows cols flipped.

(** modified_circle_grid_finder.cpp:410-427, findTargetFeatures. [altered alpha beta t] are the contours of
    the altered image at threshold t. *)
Definition find_circle_grid (findCirclesGrid : nat -> nat -> bool * list vec2)
  (altered : R -> nat -> R -> list contour) (p : circle_params) (t : circle_grid) : res features :=
  do points <- extractModifiedCircleGrid findCirclesGrid (fun alpha beta => detect (altered alpha beta) p) t;
  circle_features points.
