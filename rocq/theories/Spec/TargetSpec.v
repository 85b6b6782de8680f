(** Grids, target features and board corners, independent of the model of the finders. *)
From Coq Require Import Reals Arith List.
From Verif.Base Require Import Geom Matrix.
From Verif.Model Require Import Targets.
Import ListNotations.
Local Open Scope R_scope.

(** R rows of C values, row by row. *)
Definition layout {A} (R C : nat) (f : nat -> nat -> A) : list A :=
  flat_map (fun k => map (f k) (seq 0 C)) (seq 0 R).

(** The circle in row r from the top and column c from the left: the origin is the bottom left circle,
    x points right and y up. *)
Definition grid_point (rows : nat) (spacing : R) (r c : nat) : vec3 :=
  V3 (INR c * spacing) (INR (rows - 1 - r) * spacing) 0.

(** All features found: ID, index within the ID, image position. *)
Definition all_features (tf : features) : list (nat * nat * vec2) :=
  flat_map (fun e => combine (map (pair (fst e)) (seq 0 (length (snd e)))) (snd e)) tf.
(** In a std::map the IDs are distinct. *)
Definition ids_distinct {V} (m : amap V) : Prop := NoDup (keys m).

(** [id] is at position b of the list, and not before. *)
Definition first_with (ids : list nat) (b id : nat) : Prop :=
  nth_error ids b = Some id /\ forall b', (b' < b)%nat -> nth_error ids b' <> Some id.

(** Corner i of the marker with this ID. *)
Definition board_corner (board : aruco_board) (id i : nat) (p : vec3) : Prop :=
  exists b ps, first_with (board_ids board) b id /\ nth_error (board_objPoints board) b = Some ps /\ nth_error ps i = Some p.
(** Every ID of the board has its corners. *)
Definition board_complete (board : aruco_board) : Prop :=
  (length (board_ids board) <= length (board_objPoints board))%nat.
