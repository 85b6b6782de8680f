(** What is said about an image. *)
From Coq Require Import Reals Arith Decimal DecimalString String List.
From Verif.Base Require Import Geom Outcome.
From Verif.Model Require Import Pose Homography ExampleTools CheckText.
From Verif.Spec Require Import StatSpec ToolSpec.
Import ListNotations.
Local Open Scope string_scope.

Definition decimal (n : nat) : string := NilZero.string_of_uint (Nat.to_uint n).
(** That so many features were found, ... *)
Definition found (n : nat) : message := Info ("Found " ++ decimal n ++ " target features").
(** ... and that the image with this number was not used, for this reason. *)
Definition skipped (i : nat) (reason : string) : message := Warn ("Image " ++ decimal i ++ ": '" ++ reason ++ "'").
(** A warning is the last thing said; before it there is nothing or the number of features. *)
Definition warned (i : nat) (ms : list message) : Prop :=
  exists reason, ms = [skipped i reason] \/ exists n, ms = [found n; skipped i reason].
Definition is_warning (m : message) : bool := match m with Warn _ => true | Info _ => false end.
Definition warnings (ms : list message) : nat := List.length (filter is_warning ms).
(** Messages in the order of the images, [P] of each image's. *)
Definition image_by_image {A} (P : nat -> A -> list message -> Prop) (images : list A) (ms : list message) : Prop :=
  exists per, ms = concat per /\ List.length per = List.length images /\
    forall i a m, nth_error images i = Some a -> nth_error per i = Some m -> P i a m.

Section Said.
  Context {image features : Type} (v : vision image features) (size : features -> nat).
  (** Of an image that is used: how many features were found, and no more. Of another: a warning with its number; the reason is given
      if there are no features. *)
  Definition said (used : Prop) (img : image) (i : nat) (ms : list message) : Prop :=
    (used -> exists f, find v img = Ok f /\ ms = [found (size f)]) /\ (~ used -> warned i ms) /\
    (forall f, find v img = Ok f -> none v f = true -> ms = [skipped i "Failed to find any target features"]).

  Context {G : Type} (lu : lu_solver) (seeded : nat -> G) (uniform_int : nat -> nat -> G -> nat * G) (to_string_f : R -> string) (t : R).
  (** The same of a hand-eye tool, which also warns of images that it uses but cannot show, and gives the average error of images
      that a homography does not explain. *)
  Definition said_hand_eye (p : image * iso) (i : nat) (ms : list message) : Prop :=
    (forall cs, usable v lu seeded uniform_int t p cs -> exists f, find v (fst p) = Ok f /\
       (show_features v (fst p) f = Ok tt /\ ms = [found (size f)] \/
        (exists e, show_features v (fst p) f = Throw e) /\ exists reason, ms = [found (size f); skipped i reason])) /\
    ((forall cs, ~ usable v lu seeded uniform_int t p cs) -> warned i ms) /\
    (forall f, find v (fst p) = Ok f -> none v f = true -> ms = [skipped i "Failed to find any target features"]) /\
    (forall f cs es, find v (fst p) = Ok f -> none v f = false -> create v f = Ok cs -> (12 <= List.length cs)%nat ->
       calculateHomographyError lu cs (randomSample seeded uniform_int (RS (List.length cs) (List.length cs / 3) 1)) = Ok es -> (t < average es)%R ->
       ms = [found (size f); skipped i ("Homography error exceeds threshold (" ++ to_string_f (average es) ++ ")")]).
End Said.
