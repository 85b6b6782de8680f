(** Which targets were found. *)
From Coq Require Import List Arith.
From Verif.Base Require Import Outcome.
From Verif.Model Require Import DataSet CorrDataSet.
Import ListNotations.

(** How many elements have a property. *)
Inductive count {A} (P : A -> Prop) : list A -> nat -> Prop :=
| count_nil : count P [] 0
| count_yes a l n : P a -> count P l n -> count P (a :: l) (S n)
| count_no a l n : ~ P a -> count P l n -> count P (a :: l) n.

Section Found.
  Context {image features C : Type} (find : image -> res features) (none : features -> bool)
          (create : features -> res C) (show : image -> features -> res unit) (debug : bool).

  (** The finder finds features, which give correspondences (and can be shown). *)
  Definition found_as (img : image) (k : C) : Prop :=
    exists f, find img = Ok f /\ none f = false /\ create f = Ok k /\ (debug = true -> show img f = Ok tt).
  Definition found (img : image) : Prop := exists k, found_as img k.
  (** Calls return or throw a std::exception; of the exceptions considered only XmlRpcException is none. *)
  Definition behaved {A} (x : res A) : Prop := match x with Ok _ => True | Throw e => e <> XmlRpcException | UB => False end.
  Definition all_behaved : Prop :=
    (forall img, behaved (find img)) /\ (forall f, behaved (create f)) /\ (forall img f, behaved (show img f)).
End Found.
(** The image with this number of the camera with this number. *)
Definition taken {image} (data : list (data_set image)) (c i : nat) (img : image) : Prop :=
  exists d, nth_error data c = Some d /\ nth_error (ds_images d) i = Some img.
