(** Images in memory before and after drawing. *)
From Coq Require Import String List.
From Verif.Base Require Import Geom.
From Verif.Model Require Import Targets FeatureDrawing.
Import ListNotations.
Local Open Scope nat_scope.

(** No image that was there has changed. *)
Definition images_kept {image : Type} (before after : list image) : Prop :=
  forall k i, nth_error before k = Some i -> nth_error after k = Some i.
(** A new image is there with this content. *)
Definition new_image {image : Type} (before after : list image) (k : nat) (i : image) : Prop :=
  List.length before <= k /\ nth_error after k = Some i.
(** Only image [k] has changed, from [i] to [j]. *)
Definition only_changed {image : Type} (before after : list image) (k : nat) (i j : image) : Prop :=
  List.length before = List.length after /\ nth_error before k = Some i /\ nth_error after k = Some j /\
  forall l, l <> k -> nth_error after l = nth_error before l.

(** The corners of the grid drawn on an image, and three labelled points *)
Definition labelled {image : Type} (paint : mark -> image -> image) (t : circle_grid) (points : list vec2) (first origin last : vec2) (i : image) : image :=
  paint (PointLabel "Last Point" last) (paint (PointLabel "Origin" origin) (paint (PointLabel "First Point" first)
    (paint (ChessboardCorners (cg_cols t) (cg_rows t) points) i))).
