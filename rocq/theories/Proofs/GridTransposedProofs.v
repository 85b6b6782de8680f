(** Grids that are not square, listed column by column without a turn. *)
From Coq Require Import Reals Lra Lia Arith Bool List Permutation.
From Verif.Base Require Import Geom Outcome.
From Verif.Model Require Import CircleDetector Targets CircleGridFinder.
From Verif.Spec Require Import TargetSpec GridOrderSpec.
From Verif.Proofs Require Import GeomLemmas ListLemmas TargetProofs DetectorProofs GridOrderProofs GridWalkProofs GridViewProofs.
Import ListNotations.
Local Open Scope R_scope.

Section Even.
  Variables (ss : list R) (L : nat) (big s : R).
  Hypothesis Pos : 0 < s.
  Hypothesis Big : s < big.
  Hypothesis HL : nth_error ss L = Some big.
  Hypothesis Hs : forall i, i <> L -> (i < length ss)%nat -> nth_error ss i = Some s.
  Lemma rel_even i j : i <> L -> (i < length ss)%nat -> (j < length ss)%nat -> exists v, relative_size ss i j = Ok v /\ v <= 1 /\ (j <> L -> v = 1).
  Proof.
    intros N Hi Hj. unfold relative_size, idx. rewrite (Hs i N Hi). destruct (Nat.eq_dec j L) as [-> | Nj].
    - rewrite HL. cbn [bind]. destruct (Req_EM_T big 0) as [Z | _]; [ exfalso; lra | ]. exists (s / big). split; [ reflexivity | ]. split; [ | congruence ].
      apply Rmult_le_reg_r with big; [ lra | ]. replace (s / big * big) with s by (field; lra). lra.
    - rewrite (Hs j Nj Hj). cbn [bind]. destruct (Req_EM_T s 0) as [Z | _]; [ exfalso; lra | ]. exists (s / s). split; [ reflexivity | ].
      assert (s / s = 1) by (field; lra). split; [ lra | auto ].
  Qed.
  Lemma avg_even i j k : i <> L -> (i < length ss)%nat -> (j < length ss)%nat -> (k < length ss)%nat ->
    exists v, avg_rel_size ss i j k = Ok v /\ v <= 1 /\ (j <> L -> k <> L -> v = 1).
  Proof.
    intros. destruct (rel_even i j) as (a & Ea & Ba & Ca); [ assumption | assumption | assumption | ].
    destruct (rel_even i k) as (b & Eb & Bb & Cb); [ assumption | assumption | assumption | ].
    unfold avg_rel_size. rewrite Ea, Eb. cbn [bind]. eexists. split; [ reflexivity | ]. split; [ lra | ]. intros Nj Nk. rewrite Ca, Cb by assumption. lra.
  Qed.
End Even.
Lemma largest_tie a b c d : a <= 1 -> b = 1 \/ c = 1 \/ d = 1 -> largest a b c d = false.
Proof. intros. unfold largest. rewrite !andb_false_iff. unfold rltb. destruct (Rlt_dec b a), (Rlt_dec c a), (Rlt_dec d a); auto; exfalso; lra. Qed.

(** Two of the corners of the code have no neighbour that is the large circle. *)
Definition two_apart (N cols L : nat) : Prop :=
  let sl := (N - cols + 1 <> L /\ N - cols - cols <> L)%nat in let el := (N - 1 - 1 <> L /\ N - 1 - cols <> L)%nat in
  let sf := (1 <> L /\ cols <> L)%nat in let ef := (cols - 1 - 1 <> L /\ cols - 1 + cols <> L)%nat in
  (el /\ (sl \/ ef)) \/ (sf /\ (ef \/ sl)).
Lemma order_none fc ss rows cols flipped L big s :
  (2 <= rows)%nat -> (2 <= cols)%nat -> length fc = (rows * cols)%nat -> length ss = (rows * cols)%nat ->
  0 < s -> s < big -> nth_error ss L = Some big -> (forall i, i <> L -> (i < rows * cols)%nat -> nth_error ss i = Some s) ->
  (L <> 0 /\ L <> cols - 1 /\ L <> rows * cols - cols /\ L <> rows * cols - 1)%nat -> two_apart (rows * cols) cols L ->
  order_points fc ss rows cols flipped = Throw RuntimeError.
Proof.
  intros Hr Hc Lf Ls Pos Big HL Hs (N0 & N1 & N2 & N3) A. unfold order_points.
  assert (HN : (2 * cols <= rows * cols)%nat) by (apply Nat.mul_le_mono_r; exact Hr).
  set (N := (rows * cols)%nat) in *. clearbody N. rewrite <- Ls in Hs.
  rewrite (index_sub_ok cols 1), (index_sub_ok N cols), (index_sub_ok N 1) by lia. cbn [bind].
  assert (F : forall i, (i < N)%nat -> exists p, idx fc i = Ok p).
  { intros i Hi. unfold idx. destruct (nth_error fc i) as [p | ] eqn:E; [ exists p; reflexivity | apply nth_error_None in E; lia ]. }
  destruct (F (N - cols)%nat) as [p1 E1]; [ lia | ]. destruct (F (N - 1)%nat) as [p2 E2]; [ lia | ]. destruct (F 0%nat) as [p3 E3]; [ lia | ]. destruct (F (cols - 1)%nat) as [p4 E4]; [ lia | ].
  rewrite E1, E2, E3, E4. cbn [bind]. clear F E1 E2 E3 E4.
  rewrite (index_sub_ok (N - cols) cols), (index_sub_ok (N - 1) 1), (index_sub_ok (N - 1) cols), (index_sub_ok (cols - 1) 1) by lia. cbn [bind].
  pose proof (avg_even ss L big s Pos Big HL Hs) as AS. clear HL Hs.
  destruct (AS (N - cols) (N - cols + 1) (N - cols - cols))%nat as (sl & Esl & Bsl & Csl); [ lia .. | ]. rewrite Esl. cbn [bind]. clear Esl.
  destruct (AS (N - 1) (N - 1 - 1) (N - 1 - cols))%nat as (el & Eel & Bel & Cel); [ lia .. | ]. rewrite Eel. cbn [bind]. clear Eel.
  destruct (AS 0 (0 + 1) (0 + cols))%nat as (sf & Esf & Bsf & Csf); [ lia .. | ]. rewrite Esf. cbn [bind]. clear Esf.
  destruct (AS (cols - 1) (cols - 1 - 1) (cols - 1 + cols))%nat as (ef & Eef & Bef & Cef); [ lia .. | ]. rewrite Eef. cbn [bind]. clear Eef.
  cbn [Nat.add] in Csf.
  assert (T : (el = 1 /\ (sl = 1 \/ ef = 1)) \/ (sf = 1 /\ (ef = 1 \/ sl = 1))).
  { unfold two_apart in A. destruct A as [[A1 [A2 | A2]] | [A1 [A2 | A2]]]; [ left | left | right | right ].
    - split; [ apply Cel; apply A1 | left; apply Csl; apply A2 ].
    - split; [ apply Cel; apply A1 | right; apply Cef; apply A2 ].
    - split; [ apply Csf; apply A1 | left; apply Cef; apply A2 ].
    - split; [ apply Csf; apply A1 | right; apply Csl; apply A2 ]. }
  clear A Csl Cel Csf Cef AS.
  rewrite (largest_tie sl sf ef el) by (try assumption; destruct T as [[T1 [T2 | T2]] | [T1 [T2 | T2]]]; auto).
  rewrite (largest_tie ef el sl sf) by (try assumption; destruct T as [[T1 [T2 | T2]] | [T1 [T2 | T2]]]; auto).
  rewrite (largest_tie el sl ef sf) by (try assumption; destruct T as [[T1 [T2 | T2]] | [T1 [T2 | T2]]]; auto).
  rewrite (largest_tie sf el ef sl) by (try assumption; destruct T as [[T1 [T2 | T2]] | [T1 [T2 | T2]]]; auto).
  reflexivity.
Qed.

(** The large circle of a transposed grid that is not square is at none of the corners of the code. *)
Lemma transposed_apart rows cols : (2 <= rows)%nat -> (2 <= cols)%nat -> rows <> cols ->
  let L := (rows - 1)%nat in
  (L <> 0 /\ L <> cols - 1 /\ L <> rows * cols - cols /\ L <> rows * cols - 1)%nat /\ two_apart (rows * cols) cols L.
Proof.
  intros Hr Hc N. destruct rows as [ | [ | a]]; [ lia | lia | ]. destruct cols as [ | [ | b]]; [ lia | lia | ].
  assert (M : (S (S a) * S (S b) = a * b + 2 * a + 2 * b + 4)%nat) by ring. rewrite M. cbv zeta. clear Hr Hc M. unfold two_apart. split.
  - assert (a + b <> 0)%nat by lia. generalize (a * b)%nat. intros; lia.
  - left. split; [ generalize (a * b)%nat; intros; lia | ].
    destruct a as [ | [ | a]]; destruct b as [ | b].
    + lia.
    + left. lia.
    + right. lia.
    + left. lia.
    + left. lia.
    + left. generalize (S (S a) * S b)%nat; intros; lia.
Qed.
Lemma anti_apart rows cols : (2 <= rows)%nat -> (2 <= cols)%nat -> rows <> cols ->
  let L := (rows * cols - rows)%nat in
  (L <> 0 /\ L <> cols - 1 /\ L <> rows * cols - cols /\ L <> rows * cols - 1)%nat /\ two_apart (rows * cols) cols L.
Proof.
  intros Hr Hc N. destruct rows as [ | [ | a]]; [ lia | lia | ]. destruct cols as [ | [ | b]]; [ lia | lia | ].
  assert (M : (S (S a) * S (S b) = a * b + 2 * a + 2 * b + 4)%nat) by ring. rewrite M. cbv zeta. clear Hr Hc M. unfold two_apart. split.
  - generalize (a * b)%nat. intros; lia.
  - right. split; [ generalize (a * b)%nat; intros; lia | ].
    destruct a as [ | [ | a]]; destruct b as [ | b].
    + lia.
    + left. lia.
    + right. lia.
    + left. lia.
    + left. lia.
    + left. generalize (S (S a) * S b)%nat; intros; lia.
Qed.

Lemma transposed_throws rows cols img size ks detector w flipped :
  (2 <= rows)%nat -> (2 <= cols)%nat -> rows <> cols -> w = Transposed \/ w = AntiTransposed ->
  search_keypoints detector rows cols = Ok ks -> detected rows cols img size ks -> even_sizes rows cols size ->
  extractKeyPoints detector (walk_grid w rows cols img) rows cols flipped = Throw RuntimeError.
Proof.
  intros Hr Hc N W E D (s & Pos & Big & H). rewrite (extract_order rows cols img size ks D w detector flipped E).
  assert (X : forall L k0 j0, (k0 < cols)%nat -> (j0 < rows)%nat -> wR w rows cols = cols -> wC w rows cols = rows -> cell w rows cols k0 j0 = (rows - 1, 0)%nat -> L = (k0 * rows + j0)%nat ->
     (L <> 0 /\ L <> cols - 1 /\ L <> rows * cols - cols /\ L <> rows * cols - 1)%nat -> two_apart (rows * cols) cols L ->
     order_points (walk_grid w rows cols img) (walk_grid w rows cols size) rows cols flipped = Throw RuntimeError).
  { intros L k0 j0 K0 J0 WR WC C0 EL A1 A2. apply order_none with (L := L) (big := size (rows - 1)%nat 0%nat) (s := s); try assumption; try apply walk_length.
    - rewrite walk_layout, EL. rewrite WR, WC. rewrite nth_layout by assumption. unfold cell_of. rewrite C0. reflexivity.
    - intros i Ni Hi. rewrite Nat.mul_comm in Hi. destruct (divide _ _ i Hi) as (k & j & Hk & Hj & ->).
      rewrite walk_layout, WR, WC, nth_layout by assumption. unfold cell_of.
      assert (Hk' : (k < wR w rows cols)%nat) by (rewrite WR; exact Hk). assert (Hj' : (j < wC w rows cols)%nat) by (rewrite WC; exact Hj).
      destruct (cell_range w rows cols k j Hk' Hj') as [R1 C1]. rewrite H; [ reflexivity | assumption | assumption | ].
      intros Y. apply Ni. rewrite EL. rewrite <- surjective_pairing, <- C0 in Y.
      destruct (cell_inj w rows cols k j k0 j0 Hk' Hj') as [-> ->]; [ rewrite WR; exact K0 | rewrite WC; exact J0 | rewrite Y; reflexivity | rewrite Y; reflexivity | reflexivity ]. }
  destruct W as [-> | ->].
  - destruct (transposed_apart rows cols Hr Hc N) as [A1 A2]. apply (X (rows - 1) 0 (rows - 1))%nat; try assumption; try reflexivity; lia.
  - destruct (anti_apart rows cols Hr Hc N) as [A1 A2]. apply (X (rows * cols - rows) (cols - 1) 0)%nat; try assumption; try reflexivity; try lia.
    + cbn [cell]. f_equal; lia.
Qed.
Lemma plain_even rows cols : even_sizes rows cols (plain_size rows).
Proof.
  exists 10. unfold plain_size. rewrite !Nat.eqb_refl. cbn [andb]. split; [ lra | split; [ lra | ] ]. intros r c _ _ N.
  destruct (Nat.eqb_spec r (rows - 1)) as [-> | Nr]; [ destruct (Nat.eqb_spec c 0) as [-> | Nc]; [ congruence | ] | ]; cbn [andb]; reflexivity.
Qed.
Lemma transposed_wrong : forall rows cols w, (2 <= rows)%nat -> (2 <= cols)%nat -> w = Transposed \/ w = AntiTransposed -> rows <> cols ->
  ~ (forall img size ks detector flipped,
     search_keypoints detector rows cols = Ok ks -> detected rows cols img size ks -> large_corner rows cols size ->
     front_view rows cols img -> found_by w rows cols flipped ->
     extractKeyPoints detector (walk_grid w rows cols img) rows cols flipped = Ok (layout rows cols img)).
Proof.
  intros rows cols w Hr Hc W N H. assert (F : found_by w rows cols true) by (left; destruct W as [-> | ->]; reflexivity).
  specialize (H plain_view (plain_size rows) _ _ true (plain_search rows cols) (plain_detected rows cols) (plain_large rows cols) (plain_front rows cols) F).
  rewrite (transposed_throws rows cols plain_view (plain_size rows) (plain_keypoints rows cols)) in H; try assumption; [ discriminate | apply plain_search | apply plain_detected | apply plain_even ].
Qed.
(** The walks that are put in order are exactly those of [handled]. *)
Lemma handled_exactly : forall rows cols w, (2 <= rows)%nat -> (2 <= cols)%nat ->
  (handled w rows cols <->
   forall img size ks detector flipped,
     search_keypoints detector rows cols = Ok ks -> detected rows cols img size ks -> large_corner rows cols size ->
     front_view rows cols img -> found_by w rows cols flipped ->
     extractKeyPoints detector (walk_grid w rows cols img) rows cols flipped = Ok (layout rows cols img)).
Proof.
  intros rows cols w Hr Hc. split.
  - intros H img size ks detector flipped E D LC V F. apply ordered with (size := size) (ks := ks); assumption.
  - intros H. destruct w; cbn [handled]; try exact I.
    + intros M. exact (quarter_turn_wrong rows cols QuarterLeft Hr Hc (or_introl eq_refl) M H).
    + intros M. exact (quarter_turn_wrong rows cols QuarterRight Hr Hc (or_intror eq_refl) M H).
    + destruct (Nat.eq_dec rows cols) as [e | N]; [ exact e | destruct (transposed_wrong rows cols Transposed Hr Hc (or_introl eq_refl) N H) ].
    + destruct (Nat.eq_dec rows cols) as [e | N]; [ exact e | destruct (transposed_wrong rows cols AntiTransposed Hr Hc (or_intror eq_refl) N H) ].
    + exact (flipped_over_wrong rows cols UpsideDown Hr Hc (or_introl eq_refl) H).
    + exact (flipped_over_wrong rows cols Mirrored Hr Hc (or_intror eq_refl) H).
Qed.
