(** C50: collected images and poses stay paired. *)
From Coq Require Import Reals ZArith String List.
From Verif.Base Require Import Geom Outcome.
From Verif.Model Require Import DataSet Collector.
From Verif.Spec Require Import DataSetSpec CollectorSpec.
From Verif.Proofs Require Import InterruptProofs CollectorProofs MoreExamples.
Import ListNotations.
Local Open Scope string_scope.

(** After every history of images, requests to collect and requests to save, there are as many poses as images,
    and they are the pairs of each successful request: its transform and the latest picture before it, unchanged
    by anything done to later pictures or by the target finder. *)
Theorem C50_pairs : forall message image file (lib : codec image file) (cam : camera message image) dir disk es c,
  fst (spin lib cam dir (Running (initial disk)) es) = Running c ->
  length (poses c) = length (images c) /\ pairs lib c = collected cam None es.
Proof. intros message image file lib cam dir. exact (history lib cam dir). Qed.
Print Assumptions C50_pairs.

(** A request to collect adds both a pose and an image and succeeds, if there are a transform and a picture;
    otherwise it fails and adds neither. *)
Theorem C50_trigger : forall message image file (lib : codec image file) (cam : camera message image) dir disk es c tf,
  fst (spin lib cam dir (Running (initial disk)) es) = Running c ->
  exists c', (exists t i, tf = Some t /\ latest cam None es = Some i /\ step lib cam dir (Running c) (Trigger tf) = (Running c', Answer true) /\
      length (poses c') = length (images c') /\ pairs lib c' = (pairs lib c ++ [(i, t)])%list) \/
    ((tf = None \/ latest cam None es = None) /\ step lib cam dir (Running c) (Trigger tf) = (Running c', Answer false) /\ c' = c).
Proof. intros message image file lib cam dir. exact (trigger_history lib cam dir). Qed.
Print Assumptions C50_trigger.

(** A request to save keeps what was collected; it fails exactly if one of the images is empty (never because a
    file cannot be written). *)
Theorem C50_save : forall message image file (lib : codec image file) (cam : camera message image) dir disk es c can_write,
  fst (spin lib cam dir (Running (initial disk)) es) = Running c ->
  exists c' ok, step lib cam dir (Running c) (Save can_write) = (Running c', Answer ok) /\ pairs lib c' = pairs lib c /\ length (poses c') = length (images c') /\
    (ok = true <-> forall i t, In (i, t) (collected cam None es) -> empty_image lib i = false).
Proof. intros message image file lib cam dir. exact (save_history lib cam dir). Qed.
Print Assumptions C50_save.

(** End to end: after a save, parsing the directory gives the pairs that were collected. *)
Theorem C50_saved : forall message image file (lib : codec image file) (cam : camera message image) dir storable disk0 es c u can_write,
  lossless lib storable -> (forall i t, In (i, t) (collected cam None es) -> storable i /\ qnorm2 (tf_rotation t) = 1%R) ->
  (forall p, can_write p = true) -> fst (spin lib cam dir (Running (initial disk0)) es) = Running c ->
  exists c', step lib cam dir (Running c) (Save can_write) = (Running c', Answer true) /\
    parseFromFile lib (disk c') u (dir ++ "/data.yaml") = Ok (Some (of_pairs (map with_pose (collected cam None es)))).
Proof. intros message image file lib cam dir. exact (saved_history lib cam dir). Qed.
Print Assumptions C50_saved.

(** Only requests to save change the disk. *)
Theorem C50_disk : forall message image file (lib : codec image file) (cam : camera message image) dir n es, (forall e, In e es -> is_save e = false) ->
  node_disk (fst (spin lib cam dir n es)) = node_disk n.
Proof. intros message image file lib cam dir. exact (disk_history lib cam dir). Qed.
Print Assumptions C50_disk.

(** The node ends exactly if one of the images it received makes it end: bad messages and runtime errors of the
    target finder do not, but a cv::Exception of the target finder does. No access is out of bounds. *)
Theorem C50_ends : forall message image file (lib : codec image file) (cam : camera message image) dir disk es,
  (exists e d, fst (spin lib cam dir (Running (initial disk)) es) = Ended e d) <-> exists m, In (NewImage m) es /\ ends cam m.
Proof. intros message image file lib cam dir. exact (ends_history lib cam dir). Qed.
Print Assumptions C50_ends.
Theorem C50_defined : forall message image file (lib : codec image file) (cam : camera message image) dir disk es,
  ~ In Undefined (snd (spin lib cam dir (Running (initial disk)) es)).
Proof. intros message image file lib cam dir. exact (defined_history lib cam dir). Qed.
Print Assumptions C50_defined.

(** A history with a bad message, a failing target finder, and requests that succeed and fail; and one that ends
    the node. *)
Example C50_history : forall t1 t2 t3 disk, let es := [Trigger (Some t1); NewImage (Some 1); Trigger (Some t2); NewImage (Some 4); NewImage None; Trigger None; Trigger (Some t3)] in
  collected plain_camera None es = [(1, t2); (4, t3)] /\
  exists c, spin plain_codec plain_camera "d" (Running (initial disk)) es =
    (Running c, [Answer false; NoAnswer; Answer true; NoAnswer; NoAnswer; Answer false; Answer true]).
Proof. intros t1 t2 t3 disk. split; [ reflexivity | eexists; reflexivity ]. Qed.
Example C50_end : forall disk, fst (spin plain_codec plain_camera "d" (Running (initial disk)) [NewImage (Some 3)]) = Ended CvError disk.
Proof. reflexivity. Qed.
(** A history whose pairs can be stored, saved and read *)
Example C50_save_and_read : forall disk u, exists c c', fst (spin plain_codec plain_camera "d" (Running (initial disk)) ex_history) = Running c /\
  step plain_codec plain_camera "d" (Running c) (Save always) = (Running c', Answer true) /\
  parseFromFile plain_codec (Collector.disk c') u ("d" ++ "/data.yaml") =
    Ok (Some (of_pairs [(1, Iso (q_matrix (Q (3/5) (4/5) 0 0)) (V3 1 2 3)); (4, Iso (q_matrix (Q 1 0 0 0)) (V3 0 0 1))])).
Proof. exact ex_history_saved. Qed.
