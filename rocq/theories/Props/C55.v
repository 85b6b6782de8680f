(** C55: correspondences of the modified circle grid. *)
From Coq Require Import Reals Arith List.
From Verif.Base Require Import Geom Outcome Matrix.
From Verif.Model Require Import Pose HandEye Targets.
From Verif.Spec Require Import TargetSpec.
From Verif.Proofs Require Import TargetProofs.
Import ListNotations.
Local Open Scope R_scope.

(** One correspondence for each target point, in order: point i with the first feature of ID i. *)
Theorem C55_pairs :
  forall t tf cs, circle_correspondences t tf = Ok cs ->
  length cs = (cg_rows t * cg_cols t)%nat /\
  forall i c, nth_error cs i = Some c ->
    nth_error (createPoints t) i = Some (in_target c) /\ exists fs, find_key i tf = Some fs /\ nth_error fs 0 = Some (in_image c).
Proof. exact circle_pairs. Qed.
Print Assumptions C55_pairs.

Theorem C55_outcome :
  forall t tf,
  ((forall i, (i < cg_rows t * cg_cols t)%nat -> exists f fs, find_key i tf = Some (f :: fs)) ->
     exists cs, circle_correspondences t tf = Ok cs) /\
  (forall i, (i < cg_rows t * cg_cols t)%nat -> find_key i tf = None \/ find_key i tf = Some [] ->
     circle_correspondences t tf = Throw OutOfRange).
Proof. exact circle_outcome. Qed.
Print Assumptions C55_outcome.

(** The finder's features lead to the ordered points paired with the target points. *)
Theorem C55_found_points :
  forall t pts, length pts = (cg_rows t * cg_cols t)%nat ->
  exists cs, (do tf <- circle_features pts; circle_correspondences t tf) = Ok cs /\
    map in_image cs = pts /\ map in_target cs = createPoints t.
Proof. exact circle_end_to_end. Qed.
Print Assumptions C55_found_points.

Example C55_four_circles :
  exists cs, (do tf <- circle_features [V2 0 0; V2 9 0; V2 0 9; V2 9 9]; circle_correspondences (CG 2 2 1) tf) = Ok cs /\ length cs = 4%nat.
Proof. eexists. split; [ reflexivity | reflexivity ]. Qed.
