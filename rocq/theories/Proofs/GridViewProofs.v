(** Views of the circle grid from the front, the finder from search to correspondences, and a plain view. *)
From Coq Require Import Reals Lra Lia Arith Bool List Permutation.
From Verif.Base Require Import Geom Outcome Float.
From Verif.Model Require Import Pose HandEye CircleDetector Targets CircleGridFinder.
From Verif.Spec Require Import PinHole TargetSpec GridOrderSpec.
From Verif.Proofs Require Import GeomLemmas ListLemmas TargetProofs DetectorProofs GridOrderProofs GridWalkProofs.
Import ListNotations.
Local Open Scope R_scope.

(** ** A pin-hole camera in front of the target *)

Lemma view_area k T a1 b1 a2 b2 a3 b3 : rigid T ->
  let see a b := iso_app T (V3 a b 0) in
  vz (see a1 b1) <> 0 -> vz (see a2 b2) <> 0 -> vz (see a3 b3) <> 0 ->
  image_area2 (pinhole k (see a1 b1)) (pinhole k (see a2 b2)) (pinhole k (see a3 b3)) =
  fx k * fy k * area2 (V2 a1 b1) (V2 a2 b2) (V2 a3 b3) * vz (tr (iso_inv T)) / (vz (see a1 b1) * vz (see a2 b2) * vz (see a3 b3)).
Proof.
  intros Ri see. pose proof (is_rot_adj _ Ri) as A. subst see. destruct T as [[a b c d e f g h i] [x y z]]. unfold rigid in *. cbn [lin] in A.
  unfold mT, adj in A. cbn [m00 m01 m02 m10 m11 m12 m20 m21 m22] in A. injection A as E1 E2 E3 E4 E5 E6 E7 E8 E9. clear Ri.
  unfold image_area2, area2, pinhole, iso_app, iso_inv, mvec, vadd, vneg, mT. cbn [px py vx vy vz lin tr m00 m01 m02 m10 m11 m12 m20 m21 m22].
  intros Z1 Z2 Z3. match goal with |- _ = ?r => replace r with (fx k * fy k * ((a2 - a1) * (b3 - b2) - (b2 - b1) * (a3 - a2)) * (- ((d * h - e * g) * x + (b * g - a * h) * y + (a * e - b * d) * z)) /
    ((g * a1 + h * b1 + i * 0 + z) * (g * a2 + h * b2 + i * 0 + z) * (g * a3 + h * b3 + i * 0 + z))) end.
  - rewrite Rmult_0_r, Rplus_0_r in Z1, Z2, Z3. field. auto.
  - f_equal. f_equal. rewrite E7, E8, E9. ring.
Qed.
Lemma pinhole_front k T rows cols s : rigid T -> 0 < fx k -> 0 < fy k -> 0 < s -> 0 < vz (tr (iso_inv T)) ->
  (forall r c, (r < rows)%nat -> (c < cols)%nat -> 0 < vz (iso_app T (grid_point rows s r c))) ->
  front_view rows cols (fun r c => pinhole k (iso_app T (grid_point rows s r c))).
Proof.
  intros Ri Fx Fy Hs Hz P r1 c1 r2 c2 r3 c3 A1 A2 A3 A4 A5 A6.
  pose proof (P r1 c1 A1 A2) as P1. pose proof (P r2 c2 A3 A4) as P2. pose proof (P r3 c3 A5 A6) as P3. unfold grid_point in *.
  rewrite (view_area k T) by (assumption || lra).
  assert (E : area2 (V2 (INR c1 * s) (INR (rows - 1 - r1) * s)) (V2 (INR c2 * s) (INR (rows - 1 - r2) * s)) (V2 (INR c3 * s) (INR (rows - 1 - r3) * s)) =
    s * s * area2 (on_target r1 c1) (on_target r2 c2) (on_target r3 c3)).
  { unfold area2, on_target. cbn [px py]. rewrite !minus_INR by lia. cbn [INR]. ring. }
  rewrite E. set (w := area2 (on_target r1 c1) _ _). clearbody w.
  set (z1 := vz (iso_app T (V3 (INR c1 * s) _ 0))) in *. set (z2 := vz (iso_app T (V3 (INR c2 * s) _ 0))) in *. set (z3 := vz (iso_app T (V3 (INR c3 * s) _ 0))) in *. clearbody z1 z2 z3.
  assert (G : 0 < fx k * fy k * (s * s) * vz (tr (iso_inv T)) / (z1 * z2 * z3)).
  { apply Rdiv_lt_0_compat; [ | apply Rmult_lt_0_compat; [ apply Rmult_lt_0_compat | ]; assumption ]. repeat apply Rmult_lt_0_compat; assumption. }
  replace (fx k * fy k * (s * s * w) * vz (tr (iso_inv T)) / (z1 * z2 * z3)) with (fx k * fy k * (s * s) * vz (tr (iso_inv T)) / (z1 * z2 * z3) * w) by (field; lra).
  split; intros W.
  - apply Rmult_lt_0_compat; assumption.
  - rewrite <- (Rmult_0_r (fx k * fy k * (s * s) * vz (tr (iso_inv T)) / (z1 * z2 * z3))). apply Rmult_lt_compat_l; assumption.
Qed.

(** ** From the search to the correspondences *)

Lemma extract_regular find detector t l : fst (find (cg_cols t) (cg_rows t)) = true -> snd (find (cg_cols t) (cg_rows t)) = l ->
  length l = (cg_rows t * cg_cols t)%nat -> (0 < cg_rows t * cg_cols t)%nat ->
  extractModifiedCircleGrid find detector t = extractKeyPoints detector l (cg_rows t) (cg_cols t) false.
Proof.
  intros F S L N. unfold extractModifiedCircleGrid. rewrite F, S, L, Nat.eqb_refl. cbn [andb]. rewrite L, (proj2 (Nat.eqb_neq _ 0)) by lia. reflexivity.
Qed.
Lemma extract_flipped find detector t l : fst (find (cg_cols t) (cg_rows t)) = false -> fst (find (cg_rows t) (cg_cols t)) = true ->
  snd (find (cg_rows t) (cg_cols t)) = l -> length l = (cg_rows t * cg_cols t)%nat -> (0 < cg_rows t * cg_cols t)%nat ->
  extractModifiedCircleGrid find detector t = extractKeyPoints detector l (cg_rows t) (cg_cols t) true.
Proof.
  intros F F' S L N. unfold extractModifiedCircleGrid. rewrite F, F', S, L, Nat.eqb_refl. cbn [andb]. rewrite L, (proj2 (Nat.eqb_neq _ 0)) by lia. reflexivity.
Qed.
Lemma searched_extract find detector t flipped l : searched find t flipped l -> length l = (cg_rows t * cg_cols t)%nat -> (0 < cg_rows t * cg_cols t)%nat ->
  extractModifiedCircleGrid find detector t = extractKeyPoints detector l (cg_rows t) (cg_cols t) flipped.
Proof.
  intros S L N. unfold searched in S. destruct flipped.
  - destruct S as (S1 & S2). apply extract_flipped; try assumption; rewrite S2; reflexivity.
  - apply extract_regular; try assumption; rewrite S; reflexivity.
Qed.
Lemma found_correspondences find altered p t img size ks w flipped :
  (2 <= cg_rows t)%nat -> (2 <= cg_cols t)%nat ->
  searched find t flipped (walk_grid w (cg_rows t) (cg_cols t) img) ->
  search_keypoints (fun alpha beta => detect (altered alpha beta) p) (cg_rows t) (cg_cols t) = Ok ks ->
  detected (cg_rows t) (cg_cols t) img size ks -> large_corner (cg_rows t) (cg_cols t) size -> front_view (cg_rows t) (cg_cols t) img ->
  found_by w (cg_rows t) (cg_cols t) flipped -> handled w (cg_rows t) (cg_cols t) ->
  exists cs, (do tf <- find_circle_grid find altered p t; circle_correspondences t tf) = Ok cs /\
    map in_image cs = layout (cg_rows t) (cg_cols t) img /\ map in_target cs = layout (cg_rows t) (cg_cols t) (grid_point (cg_rows t) (cg_spacing t)).
Proof.
  intros Hr Hc S E D LC V F H. unfold find_circle_grid.
  rewrite (searched_extract find _ t flipped _ S); [ | apply walk_length | nia ].
  rewrite (ordered _ _ img size ks _ w flipped) by assumption. cbn [bind]. rewrite <- points_layout. apply circle_end_to_end. apply length_layout.
Qed.

(** ** A plain view: circles 100 pixels apart *)

Lemma INR_apart a b : Rabs (INR a * 100 - INR b * 100) < 1 -> a = b.
Proof.
  intros H. destruct (Nat.lt_trichotomy a b) as [L | [E | L]]; [ | exact E | ]; exfalso.
  - apply (le_INR (S a) b) in L. rewrite S_INR in L. rewrite Rabs_left in H by lra. lra.
  - apply (le_INR (S b) a) in L. rewrite S_INR in L. rewrite Rabs_right in H by lra. lra.
Qed.
Lemma plain_apart r c r' c' : indistinct (plain_view r c) (plain_view r' c') -> r = r' /\ c = c'.
Proof.
  intros [H1 H2]. unfold plain_view in *. cbn [px py] in *.
  assert (F : / 2 ^ 23 < 1). { rewrite <- Rinv_1. apply Rinv_lt_contravar; [ lra | ]. simpl; lra. }
  split; apply INR_apart; lra.
Qed.
Lemma plain_detected rows cols : detected rows cols plain_view (plain_size rows) (plain_keypoints rows cols).
Proof.
  unfold plain_keypoints. split; [ | split ].
  - intros r c Hr Hc. apply in_layout. exists r, c. auto.
  - intros r c k Hr Hc Hk I. apply in_layout in Hk. destruct Hk as (r' & c' & _ & _ & ->). cbn [kp_pt] in I. apply plain_apart in I. destruct I as [-> ->]. reflexivity.
  - intros r c r' c' _ _ _ _ I. apply plain_apart. exact I.
Qed.
Lemma plain_large rows cols : large_corner rows cols (plain_size rows).
Proof.
  exists 10, 10. unfold plain_size. rewrite !Nat.eqb_refl. cbn [andb]. split; [ lra | split; [ lra | ] ]. intros r c _ _ N.
  destruct (Nat.eqb_spec r (rows - 1)) as [-> | Nr]; [ destruct (Nat.eqb_spec c 0) as [-> | Nc]; [ congruence | ] | ]; cbn [andb]; lra.
Qed.
Lemma plain_front rows cols : front_view rows cols plain_view.
Proof.
  intros r1 c1 r2 c2 r3 c3 _ _ _ _ _ _. unfold image_area2, area2, plain_view, on_target. cbn [px py].
  assert (E : forall a b c d e f, (b * 100 - a * 100) * (- (f * 100) - - (d * 100)) - (- (d * 100) - - (e * 100)) * (c * 100 - b * 100) = 10000 * ((b - a) * (- f - - d) - (- d - - e) * (c - b))) by (intros; ring).
  rewrite E. split; intros; lra.
Qed.
Lemma gains_start : exists rest, gains = dval (dint 1) :: rest.
Proof. exists (map dval (gains_from 999 (dadd (dint 1) d0_01))). reflexivity. Qed.
Lemma plain_search rows cols : search_keypoints (fun _ _ => Ok (plain_keypoints rows cols)) rows cols = Ok (plain_keypoints rows cols).
Proof.
  unfold search_keypoints. destruct gains_start as [rest ->]. cbn [seq map search_alpha search_beta bind]. unfold plain_keypoints at 1. rewrite length_layout, Nat.leb_refl. reflexivity.
Qed.
Lemma plain_ordered rows cols w flipped : (2 <= rows)%nat -> (2 <= cols)%nat -> found_by w rows cols flipped -> handled w rows cols ->
  extractKeyPoints (fun _ _ => Ok (plain_keypoints rows cols)) (walk_grid w rows cols plain_view) rows cols flipped = Ok (layout rows cols plain_view).
Proof.
  intros. eapply ordered; try eassumption; [ apply plain_search | apply plain_detected | apply plain_large | apply plain_front ].
Qed.

(** ** Orders that go wrong *)

Lemma plain_wrong rows cols w flipped v : (2 <= rows)%nat -> (2 <= cols)%nat -> found_by w rows cols flipped ->
  (w = UpsideDown \/ w = Mirrored) /\ v = QuarterRight \/ (w = QuarterLeft \/ w = QuarterRight) /\ ((cols - 1) mod rows = 0)%nat /\ v = Mirrored ->
  extractKeyPoints (fun _ _ => Ok (plain_keypoints rows cols)) (walk_grid w rows cols plain_view) rows cols flipped = Ok (walk_grid v rows cols plain_view).
Proof.
  intros Hr Hc F H. destruct (misordered rows cols plain_view (plain_size rows) (plain_keypoints rows cols) (fun _ _ => Ok (plain_keypoints rows cols)) w flipped) as [X Y];
    try assumption; [ apply plain_search | apply plain_detected | apply plain_large | apply plain_front | ].
  destruct H as [[H ->] | (H & M & ->)]; auto.
Qed.
Lemma wrong_order rows cols v : (2 <= rows)%nat -> (2 <= cols)%nat -> v = QuarterRight \/ v = Mirrored -> walk_grid v rows cols plain_view <> layout rows cols plain_view.
Proof.
  intros Hr Hc Hv E. destruct (misplaced rows cols plain_view Hr Hc) as [M _]. specialize (M v Hv). rewrite E in M.
  assert (Q : (rows * cols - 1 = (rows - 1) * cols + (cols - 1))%nat) by nia. rewrite Q, nth_layout in M by lia.
  apply (f_equal (fun o => match o with Some v => px v | None => 0 end)) in M. unfold plain_view in M. cbn [px INR] in M. rewrite Rmult_0_l in M. assert (0 < INR (cols - 1)) by (apply lt_0_INR; lia). lra.
Qed.
Lemma flipped_over_wrong : forall rows cols w, (2 <= rows)%nat -> (2 <= cols)%nat -> w = UpsideDown \/ w = Mirrored ->
  ~ (forall img size ks detector flipped,
     search_keypoints detector rows cols = Ok ks -> detected rows cols img size ks -> large_corner rows cols size ->
     front_view rows cols img -> found_by w rows cols flipped ->
     extractKeyPoints detector (walk_grid w rows cols img) rows cols flipped = Ok (layout rows cols img)).
Proof.
  intros rows cols w Hr Hc W H. assert (F : found_by w rows cols false) by (left; destruct W as [-> | ->]; reflexivity).
  specialize (H plain_view (plain_size rows) _ _ false (plain_search rows cols) (plain_detected rows cols) (plain_large rows cols) (plain_front rows cols) F).
  rewrite (plain_wrong rows cols w false QuarterRight) in H by auto. revert H. intros H. apply (wrong_order rows cols QuarterRight); auto. exact (f_equal (fun o => match o with Ok l => l | _ => [] end) H).
Qed.
Lemma quarter_turn_wrong : forall rows cols w, (2 <= rows)%nat -> (2 <= cols)%nat -> w = QuarterLeft \/ w = QuarterRight -> ((cols - 1) mod rows = 0)%nat ->
  ~ (forall img size ks detector flipped,
     search_keypoints detector rows cols = Ok ks -> detected rows cols img size ks -> large_corner rows cols size ->
     front_view rows cols img -> found_by w rows cols flipped ->
     extractKeyPoints detector (walk_grid w rows cols img) rows cols flipped = Ok (layout rows cols img)).
Proof.
  intros rows cols w Hr Hc W M H. assert (F : found_by w rows cols true) by (left; destruct W as [-> | ->]; reflexivity).
  specialize (H plain_view (plain_size rows) _ _ true (plain_search rows cols) (plain_detected rows cols) (plain_large rows cols) (plain_front rows cols) F).
  rewrite (plain_wrong rows cols w true Mirrored) in H by auto. revert H. intros H. apply (wrong_order rows cols Mirrored); auto. exact (f_equal (fun o => match o with Ok l => l | _ => [] end) H).
Qed.
