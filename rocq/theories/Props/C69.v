(** C69: the camera-on-wrist example and the reprojections the tools draw. *)
From Coq Require Import Reals Arith String List.
From Verif.Base Require Import Geom Outcome.
From Verif.Model Require Import Pose HandEye DataSet ExampleTools.
From Verif.Spec Require Import PinHole ToolSpec.
From Verif.Proofs Require Import LoopProofs SceneProofs ScenesProofs.
Import ListNotations.
Local Open Scope R_scope.

(** The example uses exactly the images in which the finder returns, in order, each with its own correspondences and
    wrist pose. *)
Theorem C69_example_images :
  forall image features (v : vision image features) (ps : list (image * iso)) obs,
  exampleObservations v (data_of ps) = Ok obs ->
  exists sel, chosen (returns v) ps sel /\ obs = map camera_moves sel.
Proof. exact (fun image features => @example_images image features). Qed.
Print Assumptions C69_example_images.

(** A reprojection is drawn for every target point, in order, at the pixel at which a pin-hole camera sees it. *)
Theorem C69_reprojections :
  forall T k pts, (forall p, In p pts -> vz (iso_app T p) <> 0) ->
  getReprojections T k pts = map (fun p => pinhole k (iso_app T p)) pts.
Proof. exact reprojections_pinhole. Qed.
Print Assumptions C69_reprojections.

Example C69_scene : exists obs, exampleObservations sc_vision (data_of sc_data) = Ok obs /\ List.length obs = 3%nat.
Proof. exact sc_example. Qed.
