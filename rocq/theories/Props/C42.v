(** C42: correspondence data set bookkeeping. *)
From Coq Require Import List ZArith.
From Verif.Base Require Import Outcome.
From Verif.Model Require Import DataSet CorrDataSet.
From Verif.Spec Require Import CorrDataSpec.
From Verif.Proofs Require Import CorrDataProofs.
Import ListNotations.

(** With cameras of different numbers of images the counts are not right. *)
Theorem C42_counts_refuted :
  ~ (forall image features C (find : image -> res features) none (create : features -> res C) show debug u e data,
     all_behaved find create show -> data <> [] -> exists d, construct find none create show debug u e data = Ok d /\
       forall c s, nth_error data c = Some s -> exists m, getCameraImageCount d c = Ok m /\ count (found find none create show debug) (ds_images s) m).
Proof. exact uneven_refuted. Qed.
Print Assumptions C42_counts_refuted.

(** With equal numbers of images everything is right, whatever was in the memory before. *)
Theorem C42_counts_partial : forall image features C (find : image -> res features) none (create : features -> res C) show debug u e data n,
  all_behaved find create show -> data <> [] -> (forall s, In s data -> length (ds_images s) = n) ->
  exists d, construct find none create show debug u e data = Ok d /\ getCameraCount d = length data /\ getImageCount d = n /\
    (forall c i img, taken data c i img -> exists b, foundCorrespondence d c i = Ok b /\ (b = true <-> found find none create show debug img) /\
       forall k, found_as find none create show debug img k -> getCorrespondenceSet d c i = Ok k) /\
    (forall c s, nth_error data c = Some s -> (Z.of_nat n < 2 ^ 32)%Z ->
       exists m, getCameraImageCount d c = Ok m /\ count (found find none create show debug) (ds_images s) m) /\
    (forall i, i < n -> (Z.of_nat (length data) < 2 ^ 32)%Z ->
       exists m, getImageCameraCount d i = Ok m /\
         count (fun s => exists img, nth_error (ds_images s) i = Some img /\ found find none create show debug img) data m).
Proof. intros image features C find none create show debug u e data n B. exact (even_ok find none create show debug B u e data n). Qed.
Print Assumptions C42_counts_partial.

(** A camera with more images than the first one makes the constructor write outside its matrices. *)
Theorem C42_more_images : forall image features C (find : image -> res features) none (create : features -> res C) show debug u e data first c s,
  all_behaved find create show -> nth_error data 0 = Some first -> nth_error data c = Some s -> length (ds_images first) < length (ds_images s) ->
  construct find none create show debug u e data = UB.
Proof. intros image features C find none create show debug. exact (long_camera find none create show debug). Qed.
Print Assumptions C42_more_images.

(** For a camera with fewer images, old memory decides about the missing ones. *)
Theorem C42_fewer_images : forall image features C (find : image -> res features) none (create : features -> res C) show debug u e data first c i s,
  all_behaved find create show -> nth_error data 0 = Some first -> (forall t, In t data -> length (ds_images t) <= length (ds_images first)) ->
  nth_error data c = Some s -> length (ds_images s) <= i < length (ds_images first) ->
  exists d, construct find none create show debug u e data = Ok d /\ foundCorrespondence d c i = Ok (negb (Nat.eqb (u c i) 0)).
Proof. intros image features C find none create show debug. exact (short_camera find none create show debug). Qed.
Print Assumptions C42_fewer_images.

(** Without any camera the constructor reads outside the vector. *)
Theorem C42_no_camera : forall image features C (find : image -> res features) none (create : features -> res C) show debug u e,
  construct find none create show debug u e [] = UB.
Proof. intros image features C find none create show debug. exact (construct_empty find none create show debug). Qed.
Print Assumptions C42_no_camera.

(** Two cameras with three images. *)
Example C42_two_cameras : exists d, construct see nothing keep shown true (fun _ _ => 7) false [DS [true; false; true] []; DS [false; false; true] []] = Ok d /\
  map (getCameraImageCount d) [0; 1] = [Ok 2; Ok 1] /\ map (getImageCameraCount d) [0; 1; 2] = [Ok 1; Ok 0; Ok 2].
Proof. exact even_example. Qed.
