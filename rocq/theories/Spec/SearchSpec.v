(** How keypoints are searched for in an image: gains and offsets are tried one after the other. *)
From Coq Require Import Reals List.
From Verif.Base Require Import Geom Outcome.
From Verif.Model Require Import CircleDetector.
Import ListNotations.
Local Open Scope R_scope.

(** For each gain the offsets 0 to 100 *)
Definition tries (gains : list R) : list (R * nat) := flat_map (fun g => map (pair g) (seq 0 101)) gains.
(** The detector runs at this try and finds too few keypoints. *)
Definition too_few (detector : R -> nat -> res (list keypoint)) (enough : nat) (t : R * nat) : Prop :=
  exists ks, detector (fst t) (snd t) = Ok ks /\ (length ks < enough)%nat.
(** [ks] are the keypoints of the first try with enough of them. *)
Definition first_enough (detector : R -> nat -> res (list keypoint)) (enough : nat) (ts : list (R * nat)) (ks : list keypoint) : Prop :=
  exists before t after, ts = before ++ t :: after /\ Forall (too_few detector enough) before /\
    detector (fst t) (snd t) = Ok ks /\ (enough <= length ks)%nat.
(** No try finds enough, and [ks] are the keypoints of the last one. *)
Definition never_enough (detector : R -> nat -> res (list keypoint)) (enough : nat) (ts : list (R * nat)) (ks : list keypoint) : Prop :=
  exists before t, ts = before ++ [t] /\ Forall (too_few detector enough) ts /\ detector (fst t) (snd t) = Ok ks.
