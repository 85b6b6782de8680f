(** C37: correspondences of ArUco and ChArUco boards. [all_features], [board_corner] and
    [first_with] are in Spec/TargetSpec.v. *)
From Coq Require Import Reals Arith List.
From Verif.Base Require Import Geom Outcome Matrix.
From Verif.Model Require Import Pose HandEye Targets.
From Verif.Spec Require Import TargetSpec.
From Verif.Proofs Require Import TargetProofs.
Import ListNotations.
Local Open Scope R_scope.

(** ** ArUco: one correspondence for each feature, with the corner of that ID and index. *)
Theorem C37_aruco_pairs :
  forall board points tf cs, ids_distinct tf -> mapArucoIdsToObjPts board = Ok points ->
  aruco_correspondences points tf = Ok cs ->
  Forall2 (fun '(id, i, f) c => in_image c = f /\ board_corner board id i (in_target c)) (all_features tf) cs.
Proof. exact aruco_pairs. Qed.
Print Assumptions C37_aruco_pairs.

(** It succeeds when every feature is on the board and throws when one is not. *)
Theorem C37_aruco_outcome :
  forall board points tf, ids_distinct tf -> mapArucoIdsToObjPts board = Ok points ->
  ((forall id i f, In (id, i, f) (all_features tf) -> exists p, board_corner board id i p) ->
     exists cs, aruco_correspondences points tf = Ok cs) /\
  (forall id i f, In (id, i, f) (all_features tf) -> (forall p, ~ board_corner board id i p) ->
     aruco_correspondences points tf = Throw OutOfRange).
Proof. exact aruco_outcome. Qed.
Print Assumptions C37_aruco_outcome.

(** From what OpenCV detects, four corners for each marker, to the correspondences. *)
Theorem C37_aruco_detection :
  forall u ids corners board points cs,
  (length ids <= length corners)%nat -> Forall (fun cs => length cs = 4%nat) corners ->
  mapArucoIdsToObjPts board = Ok points ->
  (do tf <- aruco_features u ids corners; aruco_correspondences points tf) = Ok cs ->
  forall c, In c cs <->
    exists m id ps i, first_with ids m id /\ nth_error corners m = Some ps /\ nth_error ps i = Some (in_image c) /\
      board_corner board id i (in_target c).
Proof. exact aruco_end_to_end. Qed.
Print Assumptions C37_aruco_detection.

Theorem C37_aruco_features :
  forall u ids corners, (length ids <= length corners)%nat -> Forall (fun cs => length cs = 4%nat) corners ->
  exists tf, aruco_features u ids corners = Ok tf /\ ids_distinct tf /\
  forall id i f, In (id, i, f) (all_features tf) <->
    exists m cs, first_with ids m id /\ nth_error corners m = Some cs /\ nth_error cs i = Some f.
Proof. exact aruco_features_spec. Qed.
Print Assumptions C37_aruco_features.

(** ** ChArUco: one correspondence for each ID, with the chessboard corner of that number. *)
Theorem C37_charuco_pairs :
  forall corners points tf cs, ids_distinct tf -> mapCharucoIdsToObjPts corners = Ok points ->
  charuco_correspondences points tf = Ok cs ->
  Forall2 (fun '(id, fs) c => nth_error fs 0 = Some (in_image c) /\ nth_error corners id = Some (in_target c)) tf cs.
Proof. exact charuco_pairs. Qed.
Print Assumptions C37_charuco_pairs.

Theorem C37_charuco_outcome :
  forall corners points tf, ids_distinct tf -> mapCharucoIdsToObjPts corners = Ok points ->
  ((forall id fs, In (id, fs) tf -> (id < length corners)%nat /\ fs <> []) -> exists cs, charuco_correspondences points tf = Ok cs) /\
  (forall id fs, In (id, fs) tf -> (length corners <= id)%nat \/ fs = [] -> charuco_correspondences points tf = Throw OutOfRange).
Proof. exact charuco_outcome. Qed.
Print Assumptions C37_charuco_outcome.

Theorem C37_charuco_features :
  forall marker_ids n corners ids, marker_ids <> [] -> length corners = n -> length ids = n ->
  exists tf, charuco_features marker_ids n corners ids = Ok tf /\ ids_distinct tf /\
  forall id fs, In (id, fs) tf <-> exists m c, first_with ids m id /\ nth_error corners m = Some c /\ fs = [c].
Proof. exact charuco_features_spec. Qed.
Print Assumptions C37_charuco_features.

Theorem C37_charuco_no_markers_throws :
  forall n corners ids, charuco_features [] n corners ids = Throw RuntimeError.
Proof. exact charuco_no_markers. Qed.
Print Assumptions C37_charuco_no_markers_throws.

(** Two markers detected in the other order than on the board. *)
Example C37_two_markers :
  let square x := [V3 x 1 0; V3 (x + 1) 1 0; V3 (x + 1) 0 0; V3 x 0 0] in
  let seen x := [V2 x 0; V2 (x + 5) 0; V2 (x + 5) 5; V2 x 5] in
  let board := Board [7; 3]%nat [square 0; square 2] in
  (do points <- mapArucoIdsToObjPts board;
   do tf <- aruco_features (fun _ => V2 0 0) [7; 3]%nat [seen 10; seen 20];
   do cs <- aruco_correspondences points tf; Ok (map in_target cs, map in_image cs)) =
  Ok (square 2 ++ square 0, seen 20 ++ seen 10).
Proof. reflexivity. Qed.
Example C37_charuco_board :
  (do points <- mapCharucoIdsToObjPts [V3 0 0 0; V3 1 0 0; V3 2 0 0];
   do tf <- charuco_features [4]%nat 2 [V2 8 0; V2 9 0] [2; 0]%nat;
   do cs <- charuco_correspondences points tf; Ok (map in_target cs, map in_image cs)) =
  Ok ([V3 0 0 0; V3 2 0 0], [V2 9 0; V2 8 0]).
Proof. reflexivity. Qed.
