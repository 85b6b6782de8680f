(** C98: the search for keypoints. [search_keypoints] are the keypoints that the circle grid finder goes on with;
    [tries], [first_enough] and [never_enough] are in Spec/SearchSpec.v. The gains are summed up in double precision. *)
From Coq Require Import Reals List.
From Verif.Base Require Import Geom Outcome.
From Verif.Model Require Import CircleDetector Targets CircleGridFinder.
From Verif.Spec Require Import SearchSpec.
From Verif.Proofs Require Import SearchProofs.
Import ListNotations.
Local Open Scope R_scope.

(** 201 gains from 1 to 3, 101 offsets for each. *)
Theorem C98_search :
  exists gs, length gs = 201%nat /\ (forall i, (i < 201)%nat -> Rabs (nth i gs 0 - (1 + INR i / 100)) <= 1 / 10 ^ 12) /\
  (forall detector rows cols ks, search_keypoints detector rows cols = Ok ks <->
    first_enough detector (rows * cols) (tries gs) ks \/ never_enough detector (rows * cols) (tries gs) ks) /\
  forall detector rows cols e, search_keypoints detector rows cols = Throw e <->
    exists before t after, tries gs = before ++ t :: after /\ Forall (too_few detector (rows * cols)) before /\
      detector (fst t) (snd t) = Throw e.
Proof. exact search_spec. Qed.
Print Assumptions C98_search.

(** Features are only returned if a try found as many keypoints as the target has circles, and each of them is one of the
    keypoints of the first such try, up to the precision of a float. *)
Theorem C98_features :
  exists gs, length gs = 201%nat /\ (forall i, (i < 201)%nat -> Rabs (nth i gs 0 - (1 + INR i / 100)) <= 1 / 10 ^ 12) /\
  forall find detector t pts, extractModifiedCircleGrid find detector t = Ok pts ->
  exists ks, first_enough detector (cg_rows t * cg_cols t) (tries gs) ks /\
    Forall (fun p => exists k, In k ks /\ Rabs (px p - px (kp_pt k)) < / 2 ^ 23 /\ Rabs (py p - py (kp_pt k)) < / 2 ^ 23) pts.
Proof. exact features_found. Qed.
Print Assumptions C98_features.

(** A detector that finds ten circles once the gain is above 2.005: enough for 2 by 5, never enough for 3 by 5; and one that
    throws there. *)
Example C98_example :
  search_keypoints ex_search_detector 2 5 = Ok ex_search_keypoints /\
  search_keypoints ex_search_detector 3 5 = Ok ex_search_keypoints /\
  search_keypoints (fun gain offset => if Rlt_dec (2005 / 1000) gain then Throw RuntimeError else Ok []) 2 5 = Throw RuntimeError.
Proof. exact ex_search. Qed.
