(** What it means to be one circle seen at several thresholds, and to be a circle at all. *)
From Coq Require Import Reals Arith List.
From Verif.Base Require Import Geom.
From Verif.Model Require Import CircleDetector.
Import ListNotations.
Local Open Scope R_scope.

Definition near (p : circle_params) (a b : center) : Prop :=
  norm2 (v2sub (c_location a) (c_location b)) <= circleInclusionRadius p /\ Rabs (c_radius a - c_radius b) <= maxRadiusDiff p.

(** The first centre of group i. *)
Definition group_head (gs : list (list center)) (i : nat) (h : center) : Prop :=
  exists rest, nth_error gs i = Some (h :: rest).

(** Every centre of group i is near the head of group i and of no earlier one. *)
Definition well_grouped (p : circle_params) (gs : list (list center)) : Prop :=
  (forall g, In g gs -> g <> []) /\
  (forall i h rest c, nth_error gs i = Some (h :: rest) -> In c rest -> near p h c) /\
  (forall i j h g c, (i < j)%nat -> group_head gs i h -> nth_error gs j = Some g -> In c g -> ~ near p h c).

(** The groups seen often enough. *)
Definition repeated (p : circle_params) (gs : list (list center)) : list (list center) :=
  filter (fun g => Nat.leb (minRepeatability p) (length g)) gs.

Definition sum_of {A} (f : A -> R) (l : list A) : R := fold_right (fun a s => f a + s) 0 l.
(** The mean of f weighted by confidence. *)
Definition weighted (f : center -> R) (g : list center) : R :=
  sum_of (fun c => c_confidence c * f c) g / sum_of c_confidence g.

(** The principal second moments: eigenvalues of [mu20 mu11; mu11 mu02]. *)
Definition principal_moments (mu20 mu11 mu02 lo hi : R) : Prop :=
  lo <= hi /\ lo + hi = mu20 + mu02 /\ lo * hi = mu20 * mu02 - mu11 * mu11.
(** Their ratio, one when they are equal up to a hundredth. *)
Definition inertia (mu20 mu11 mu02 r : R) : Prop :=
  exists lo hi, principal_moments mu20 mu11 mu02 lo hi /\ ((1 / 100 < hi - lo /\ r = lo / hi) \/ (hi - lo <= 1 / 100 /\ r = 1)).

Definition within (lo hi x : R) : Prop := lo <= x < hi.

(** The point at parameter t of the ellipse: semi-axes w/2 and h/2 along directions turned by the angle. *)
Definition ellipse_point (b : rotated_rect) (t : R) : vec2 :=
  let a := rr_angle b * PI / 180 in
  let x := rr_width b / 2 * cos t in let y := rr_height b / 2 * sin t in
  V2 (px (rr_center b) + (x * cos a + y * sin a)) (py (rr_center b) + (x * sin a - y * cos a)).
(** The distance of a point from the centre as a fraction of that of the ellipse in its direction: pt is
    centre + k times a point of the ellipse. *)
Definition ellipse_fraction (b : rotated_rect) (pt : vec2) (k : R) : Prop :=
  0 <= k /\ exists t, v2sub pt (rr_center b) = V2 (k * px (v2sub (ellipse_point b t) (rr_center b))) (k * py (v2sub (ellipse_point b t) (rr_center b))).
(** The mean deviation of the contour from its ellipse. *)
Definition ellipse_deviation (c : contour) (e : R) : Prop :=
  exists ks, Forall2 (ellipse_fraction (ct_box c)) (ct_points c) ks /\
    e = Rabs (fold_right Rplus 0 ks / INR (length (ct_points c)) - 1).

(** A contour passes the enabled filters and fits its ellipse. *)
Definition accepted (p : circle_params) (c : contour) : Prop :=
  (5 <= length (ct_points c))%nat /\
  (filterByArea p = true -> within (minArea p) (maxArea p) (ct_m00 c)) /\
  (filterByCircularity p = true -> within (minCircularity p) (maxCircularity p) (4 * PI * ct_m00 c / (ct_perimeter c * ct_perimeter c))) /\
  (filterByInertia p = true -> exists r, inertia (ct_mu20 c) (ct_mu11 c) (ct_mu02 c) r /\ within (minInertiaRatio p) (maxInertiaRatio p) r) /\
  (filterByConvexity p = true -> within (minConvexity p) (maxConvexity p) (ct_area c / ct_hull_area c)) /\
  (filterByColor p = true -> ct_color c = circleColor p) /\
  exists e, ellipse_deviation c e /\ e < maxAverageEllipseError p.

(** The numbers the filters divide by are not zero. *)
Definition measurable (c : contour) : Prop :=
  ct_perimeter c <> 0 /\ ct_hull_area c <> 0 /\ 0 < ct_mu20 c + ct_mu02 c /\
  0 < rr_width (ct_box c) /\ 0 < rr_height (ct_box c).

(** The centre reported for a contour: that of its ellipse, the mean of the semi-axes, and the inverse
    of the deviation. *)
Definition center_of (c : contour) (x : center) : Prop :=
  c_location x = rr_center (ct_box c) /\ c_radius x = (rr_width (ct_box c) / 2 + rr_height (ct_box c) / 2) / 2 /\
  exists e, ellipse_deviation c e /\ 0 < e /\ c_confidence x = 1 / e.
