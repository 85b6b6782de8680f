(** C23: homography samplers. *)
From Coq Require Import Arith List.
From Verif.Base Require Import Outcome.
From Verif.Model Require Import Homography.
From Verif.Proofs Require Import HomographyProofs.
Import ListNotations.
Local Open Scope nat_scope.

(** The grid sampler rejects targets with fewer than eight cells, and only those; otherwise it
    returns the four corners of the grid, features being stored row by row, [stride] per cell. *)
Theorem C23_grid_rejects :
  forall rows cols stride, gridSample rows cols stride = Throw RuntimeError <-> rows * cols < 8.
Proof. exact grid_throws. Qed.
Print Assumptions C23_grid_rejects.

Theorem C23_grid_returns_corners :
  forall rows cols stride, 8 <= rows * cols ->
  gridSample rows cols stride =
  Ok [0; (cols - 1) * stride; (rows - 1) * cols * stride; ((rows - 1) * cols + (cols - 1)) * stride].
Proof. exact grid_returns. Qed.
Print Assumptions C23_grid_returns_corners.

Theorem C23_grid_in_range :
  forall rows cols stride l, 1 <= stride -> gridSample rows cols stride = Ok l ->
  Forall (fun i => i < rows * cols * stride) l.
Proof. exact grid_below. Qed.
Print Assumptions C23_grid_in_range.

(** The corners of an accepted target are distinct exactly if it has two rows and two columns. *)
Theorem C23_grid_distinct_partial :
  forall rows cols stride l, 1 <= stride -> gridSample rows cols stride = Ok l ->
  NoDup l <-> (2 <= rows /\ 2 <= cols).
Proof. exact grid_distinct. Qed.
Print Assumptions C23_grid_distinct_partial.

Theorem C23_grid_distinct_refuted :
  ~ (forall rows cols stride l, 1 <= stride -> gridSample rows cols stride = Ok l -> NoDup l).
Proof. exact grid_not_distinct. Qed.
Print Assumptions C23_grid_distinct_refuted.

(** The random sampler accepts between four and all correspondences, and returns the right number
    of indices, each that of a correspondence, whatever the generator draws within its range. *)
Theorem C23_random_accepts :
  forall n k seed,
  (mk_random_sampler n k seed = Ok (RS n k seed) <-> 4 <= k <= n) /\
  (mk_random_sampler n k seed = Throw RuntimeError <-> k < 4 \/ n < k).
Proof. exact sampler_accepts. Qed.
Print Assumptions C23_random_accepts.

Theorem C23_random_in_range :
  forall G (seeded : nat -> G) (uniform_int : nat -> nat -> G -> nat * G) n k seed s,
  mk_random_sampler n k seed = Ok s ->
  (forall a b g, a <= b -> a <= fst (uniform_int a b g) <= b) ->
  List.length (randomSample seeded uniform_int s) = k /\
  Forall (fun i => i < n) (randomSample seeded uniform_int s).
Proof. exact @random_draws. Qed.
Print Assumptions C23_random_in_range.

(** Nothing keeps the random indices distinct. *)
Theorem C23_random_may_repeat :
  forall n k seed, 4 <= k <= n ->
  exists (uniform_int : nat -> nat -> unit -> nat * unit) s,
    (forall a b g, a <= b -> a <= fst (uniform_int a b g) <= b) /\
    mk_random_sampler n k seed = Ok s /\ ~ NoDup (randomSample (fun _ => tt) uniform_int s).
Proof. exact random_duplicates. Qed.
Print Assumptions C23_random_may_repeat.

Example C23_corners_of_5x7_with_stride_4 : gridSample 5 7 4 = Ok [0; 24; 112; 136].
Proof. reflexivity. Qed.
Example C23_single_row : gridSample 1 8 1 = Ok [0; 7; 0; 7].
Proof. reflexivity. Qed.
Example C23_counter : mk_random_sampler 10 4 0 = Ok (RS 10 4 0) /\
  randomSample (fun s => s) (fun a b g => (Nat.max a (Nat.min b g), S g)) (RS 10 4 0) = [0; 1; 2; 3].
Proof. split; reflexivity. Qed.
