(** C38: blob grouping and keypoints of the circle detector. *)
From Coq Require Import Reals Arith List Permutation.
From Verif.Base Require Import Geom Outcome.
From Verif.Model Require Import CircleDetector.
From Verif.Spec Require Import DetectorSpec.
From Verif.Proofs Require Import DetectorProofs FilterProofs.
Import ListNotations.
Local Open Scope R_scope.

(** Every centre is in exactly one group; it is near the first member of its group and not near the
    first member of an earlier one. *)
Theorem C38_partition :
  forall p all, exists gs, group_centers p all = Ok gs /\ well_grouped p gs /\ Permutation (concat gs) (concat all).
Proof. exact groups_spec. Qed.
Print Assumptions C38_partition.

(** One keypoint for each group with enough members: the mean weighted by confidence. *)
Theorem C38_keypoints :
  forall p all ks gs, group_centers p all = Ok gs -> detectKeyPoints all p = Ok ks ->
  Forall2 (fun g k =>
      kp_pt k = V2 (weighted (fun c => px (c_location c)) g) (weighted (fun c => py (c_location c)) g) /\
      kp_size k = 2 * weighted c_radius g) (repeated p gs) ks.
Proof. exact keypoints_spec. Qed.
Print Assumptions C38_keypoints.

Theorem C38_defined :
  forall p all, (forall c, In c (concat all) -> 0 < c_confidence c) -> exists ks, detectKeyPoints all p = Ok ks.
Proof. exact keypoints_defined. Qed.
Print Assumptions C38_defined.

(** It lies within the inclusion radius of the first member, and its radius within the difference. *)
Theorem C38_close :
  forall p all ks gs, 0 <= circleInclusionRadius p -> 0 <= maxRadiusDiff p ->
  (forall c, In c (concat all) -> 0 < c_confidence c) ->
  group_centers p all = Ok gs -> detectKeyPoints all p = Ok ks ->
  Forall2 (fun g k => exists h rest, g = h :: rest /\ norm2 (v2sub (c_location h) (kp_pt k)) <= circleInclusionRadius p /\
     Rabs (c_radius h - kp_size k / 2) <= maxRadiusDiff p) (repeated p gs) ks.
Proof. exact keypoints_close. Qed.
Print Assumptions C38_close.

(** The same from the image on: the confidences found in an image are positive. *)
Theorem C38_detect :
  forall image p ks, (forall t c, In c (image t) -> measurable c) -> 0 <= circleInclusionRadius p -> 0 <= maxRadiusDiff p ->
  detect image p = Ok ks ->
  exists ts all gs, length ts = nThresholds p /\ Forall2 (fun t cs => findCircles (image t) p = Ok cs) ts all /\
    Permutation (concat gs) (concat all) /\ well_grouped p gs /\
    Forall2 (fun g k => exists h rest, g = h :: rest /\ norm2 (v2sub (c_location h) (kp_pt k)) <= circleInclusionRadius p /\
     Rabs (c_radius h - kp_size k / 2) <= maxRadiusDiff p) (repeated p gs) ks.
Proof. exact detect_spec. Qed.
Print Assumptions C38_detect.

Example C38_two_circles : detectKeyPoints ex_centers ex_params = Ok [KP (V2 (3 / 4) 0) 10].
Proof. exact ex_keypoint. Qed.
