(** Target observations of several cameras: rct_ros_tools/src/data_set.cpp (ds.cpp) *)
From Coq Require Import List Arith ZArith.
From Verif.Base Require Import Outcome.
From Verif.Model Require Import DataSet.
Import ListNotations.

(** rct_ros_tools/include/rct_ros_tools/data_set.h:28-60, ExtrinsicCorrespondenceDataSet: two matrices of the
    same size. The mask has unsigned elements. *)
Record corr_data (C : Type) := CD { cd_rows : nat; cd_cols : nat; cd_sets : nat -> nat -> C; cd_mask : nat -> nat -> nat }.
Arguments CD {C}. Arguments cd_rows {C}. Arguments cd_cols {C}. Arguments cd_sets {C}. Arguments cd_mask {C}.
Definition entry2 {A} (m : nat -> nat -> A) (r c : nat) (a : A) : nat -> nat -> A :=
  fun r' c' => if (Nat.eqb r' r && Nat.eqb c' c)%bool then a else m r' c'.
Definition set_mask {C} (d : corr_data C) (r c v : nat) := CD (cd_rows d) (cd_cols d) (cd_sets d) (entry2 (cd_mask d) r c v).
Definition set_corr {C} (d : corr_data C) (r c : nat) (k : C) := CD (cd_rows d) (cd_cols d) (entry2 (cd_sets d) r c k) (cd_mask d).

(** The exceptions that [catch (const std::exception&)] catches *)
Definition std_exception (e : exn) : bool := match e with XmlRpcException => false | _ => true end.

Section Construct.
  (** The target finder, the emptiness test of its features, the target's createCorrespondences, and drawing and
      showing the features *)
  Context {image features C : Type} (find : image -> res features) (none : features -> bool)
          (create : features -> res C) (show : image -> features -> res unit) (debug : bool).

  (** ds.cpp:144-173, one image *)
  Definition observe (d : corr_data C) (c i : nat) (img : image) : res (corr_data C) :=
    if Nat.leb (cd_cols d) i then UB else
    let d1 := set_mask d c i 1 in
    match (do f <- find img; if none f then Throw RuntimeError else do k <- create f; Ok (f, k)) with
    | Ok (f, k) =>
        let d2 := set_corr d1 c i k in
        if debug then
          match show img f with
          | Ok _ => Ok d2
          | Throw e => if std_exception e then Ok (set_mask d2 c i 0) else Throw e
          | UB => UB
          end
        else Ok d2
    | Throw e => if std_exception e then Ok (set_mask d1 c i 0) else Throw e
    | UB => UB
    end.
  (** ds.cpp:123-179, the constructor. The matrices get as many columns as the first data set has images; new
      elements of the mask are not initialised ([u]), new correspondence sets are empty ([empty_set]). Opening
      and closing the debug window is left out. *)
  Definition construct (u : nat -> nat -> nat) (empty_set : C) (data : list (data_set image)) : res (corr_data C) :=
    do first <- idx data 0;
    foldM (fun d p => foldM (fun d q => observe d (fst p) (fst q) (snd q)) (combine (seq 0 (length (ds_images (snd p)))) (ds_images (snd p))) d)
      (combine (seq 0 (length data)) data)
      (CD (length data) (length (ds_images first)) (fun _ _ => empty_set) u).
End Construct.

(** ds.cpp:181-183 *)
Definition getCameraCount {C} (d : corr_data C) : nat := cd_rows d.
Definition getImageCount {C} (d : corr_data C) : nat := cd_cols d.
(** The sum of unsigned numbers *)
Definition usum (l : list nat) : nat := Z.to_nat (Z.of_nat (fold_right Nat.add 0 l) mod 2 ^ 32).
(** ds.cpp:185-193. Indices outside the matrix are undefined. *)
Definition getImageCameraCount {C} (d : corr_data C) (image_index : nat) : res nat :=
  if Nat.ltb image_index (cd_cols d) then Ok (usum (map (fun r => cd_mask d r image_index) (seq 0 (cd_rows d)))) else UB.
Definition getCameraImageCount {C} (d : corr_data C) (camera_index : nat) : res nat :=
  if Nat.ltb camera_index (cd_rows d) then Ok (usum (map (fun i => cd_mask d camera_index i) (seq 0 (cd_cols d)))) else UB.
(** ds.cpp:195-206 *)
Definition inside {C} (d : corr_data C) (r c : nat) : bool := (Nat.ltb r (cd_rows d) && Nat.ltb c (cd_cols d))%bool.
Definition foundCorrespondence {C} (d : corr_data C) (camera_index image_index : nat) : res bool :=
  if inside d camera_index image_index then Ok (negb (Nat.eqb (cd_mask d camera_index image_index) 0)) else UB.
Definition getCorrespondenceSet {C} (d : corr_data C) (camera_index image_index : nat) : res C :=
  if inside d camera_index image_index then Ok (cd_sets d camera_index image_index) else UB.
