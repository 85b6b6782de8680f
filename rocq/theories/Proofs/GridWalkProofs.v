(** The ordering of the circles, walk by walk. *)
From Coq Require Import Reals Lra Lia Arith Bool List Permutation.
From Verif.Base Require Import Geom Outcome.
From Verif.Model Require Import CircleDetector Targets CircleGridFinder.
From Verif.Spec Require Import TargetSpec GridOrderSpec.
From Verif.Proofs Require Import GeomLemmas ListLemmas TargetProofs DetectorProofs GridOrderProofs.
Import ListNotations.
Local Open Scope R_scope.

(** ** Walks as layouts *)

Definition tall (w : walk) : bool := match w with QuarterLeft | QuarterRight | Transposed | AntiTransposed => true | _ => false end.
Definition wR (w : walk) (rows cols : nat) := if tall w then cols else rows.
Definition wC (w : walk) (rows cols : nat) := if tall w then rows else cols.
Definition cell (w : walk) (rows cols k j : nat) : nat * nat :=
  match w with
  | Upright => (k, j) | HalfTurn => (rows - 1 - k, cols - 1 - j)
  | QuarterLeft => (rows - 1 - j, k) | QuarterRight => (j, cols - 1 - k)
  | Transposed => (j, k) | AntiTransposed => (rows - 1 - j, cols - 1 - k)
  | UpsideDown => (rows - 1 - k, j) | Mirrored => (k, cols - 1 - j)
  end%nat.
Definition cell_of {A} (w : walk) (rows cols : nat) (g : nat -> nat -> A) k j := g (fst (cell w rows cols k j)) (snd (cell w rows cols k j)).
Lemma walk_layout {A} w rows cols (g : nat -> nat -> A) : walk_grid w rows cols g = layout (wR w rows cols) (wC w rows cols) (cell_of w rows cols g).
Proof. destruct w; reflexivity. Qed.
Lemma wRC w rows cols : (wR w rows cols * wC w rows cols)%nat = (rows * cols)%nat.
Proof. unfold wR, wC. destruct (tall w); lia. Qed.
Lemma cell_range w rows cols k j : (k < wR w rows cols)%nat -> (j < wC w rows cols)%nat ->
  (fst (cell w rows cols k j) < rows)%nat /\ (snd (cell w rows cols k j) < cols)%nat.
Proof. unfold wR, wC. destruct w; cbn; lia. Qed.
Lemma cell_inj w rows cols k j k' j' : (k < wR w rows cols)%nat -> (j < wC w rows cols)%nat -> (k' < wR w rows cols)%nat -> (j' < wC w rows cols)%nat ->
  fst (cell w rows cols k j) = fst (cell w rows cols k' j') -> snd (cell w rows cols k j) = snd (cell w rows cols k' j') -> k = k' /\ j = j'.
Proof. unfold wR, wC. destruct w; cbn; lia. Qed.
Lemma map_layout {A B} (h : A -> B) R C f : map h (layout R C f) = layout R C (fun k j => h (f k j)).
Proof. unfold layout. rewrite !flat_map_concat_map, concat_map, map_map. f_equal. apply map_ext. intros k. rewrite map_map. reflexivity. Qed.
Lemma map_walk {A B} (h : A -> B) w rows cols g : map h (walk_grid w rows cols g) = walk_grid w rows cols (fun r c => h (g r c)).
Proof. rewrite !walk_layout, map_layout. reflexivity. Qed.
Lemma walk_length {A} w rows cols (g : nat -> nat -> A) : length (walk_grid w rows cols g) = (rows * cols)%nat.
Proof. rewrite walk_layout, length_layout. apply wRC. Qed.

Section Walk.
  Variables (rows cols : nat) (img : nat -> nat -> vec2) (size : nat -> nat -> R) (ks : list keypoint).
  Hypothesis D : detected rows cols img size ks.
  Lemma walk_matched w : matched (walk_grid w rows cols (fun r c => (img r c, size r c))) ks.
  Proof.
    destruct D as (D1 & D2 & D3). split; [ | split ].
    - rewrite map_walk, walk_layout. cbn [fst]. apply layout_NoDup. intros k j k' j' Hk Hj Hk' Hj' E. unfold cell_of in E.
      destruct (cell_range w rows cols k j Hk Hj) as [R1 C1]. destruct (cell_range w rows cols k' j' Hk' Hj') as [R2 C2].
      destruct (D3 _ _ _ _ R1 C1 R2 C2) as [E1 E2]; [ rewrite E; apply indistinct_refl | ]. exact (cell_inj w rows cols k j k' j' Hk Hj Hk' Hj' E1 E2).
    - intros p s H. rewrite walk_layout in H. apply in_layout in H. destruct H as (k & j & Hk & Hj & E). unfold cell_of in E. injection E as -> ->.
      destruct (cell_range w rows cols k j Hk Hj) as [R1 C1]. apply D1; assumption.
    - intros p s x H Hx I. rewrite walk_layout in H. apply in_layout in H. destruct H as (k & j & Hk & Hj & E). unfold cell_of in E. injection E as -> ->.
      destruct (cell_range w rows cols k j Hk Hj) as [R1 C1]. apply D2; assumption.
  Qed.
  Lemma extract_order w detector flipped : search_keypoints detector rows cols = Ok ks ->
    extractKeyPoints detector (walk_grid w rows cols img) rows cols flipped =
    order_points (walk_grid w rows cols img) (walk_grid w rows cols size) rows cols flipped.
  Proof.
    intros E. unfold extractKeyPoints. rewrite E. cbn [bind]. pose proof (walk_matched w) as M. pose proof (unmatched_none _ _ M) as U. pose proof (sizes_matched _ _ M) as S.
    rewrite !map_walk in U, S. cbn [fst snd] in U, S. rewrite map_walk in S. cbn [snd] in S.
    change (walk_grid w rows cols (fun r c => img r c)) with (walk_grid w rows cols img) in U, S. change (walk_grid w rows cols (fun r c => size r c)) with (walk_grid w rows cols size) in S.
    rewrite U, S. reflexivity.
  Qed.
  Lemma extract_walk w detector flipped s k0 j0 ka ja kb jb kc jc :
    (2 <= rows)%nat -> (2 <= cols)%nat -> large_corner rows cols size -> search_keypoints detector rows cols = Ok ks ->
    let Rw := wR w rows cols in let Cw := wC w rows cols in
    (k0 < Rw)%nat -> (j0 < Cw)%nat -> cell w rows cols k0 j0 = (rows - 1, 0)%nat -> spot_index (rows * cols) cols s = (k0 * Cw + j0)%nat ->
    (ka < Rw)%nat -> (ja < Cw)%nat -> (rows * cols - cols = ka * Cw + ja)%nat ->
    (kb < Rw)%nat -> (jb < Cw)%nat -> (rows * cols - 1 = kb * Cw + jb)%nat ->
    (kc < Rw)%nat -> (jc < Cw)%nat -> (cols - 1 = kc * Cw + jc)%nat ->
    extractKeyPoints detector (walk_grid w rows cols img) rows cols flipped =
    spot_order (walk_grid w rows cols img) (if flipped then cols else rows) (if flipped then rows else cols) s
      (negb (rltb (image_area2 (cell_of w rows cols img ka ja) (cell_of w rows cols img kb jb) (cell_of w rows cols img kc jc)) 0)).
  Proof.
    intros Hr Hc (lo & hi & Lo & Big & B) E Rw Cw K0 J0 C0 S0 Ka Ja Na Kb Jb Nb Kc Jc Nc. rewrite (extract_order w detector flipped E).
    apply order_at with (big := size (rows - 1)%nat 0%nat) (lo := lo) (hi := hi); try assumption; try apply walk_length.
    - rewrite S0, walk_layout, nth_layout by assumption. unfold cell_of. rewrite C0. reflexivity.
    - intros i Ni Hi. rewrite <- (wRC w rows cols) in Hi. destruct (divide _ _ i Hi) as (k & j & Hk & Hj & ->). exists (cell_of w rows cols size k j).
      rewrite walk_layout, nth_layout by assumption. split; [ reflexivity | ]. destruct (cell_range w rows cols k j Hk Hj) as [R1 C1]. apply B; [ assumption | assumption | ].
      intros X. apply Ni. rewrite S0. rewrite <- surjective_pairing, <- C0 in X.
      destruct (cell_inj w rows cols k j k0 j0 Hk Hj K0 J0) as [-> ->]; [ rewrite X; reflexivity | rewrite X; reflexivity | reflexivity ].
    - rewrite Na, walk_layout. apply nth_layout; assumption.
    - rewrite Nb, walk_layout. apply nth_layout; assumption.
    - rewrite Nc, walk_layout. apply nth_layout; assumption.
  Qed.

  Hypothesis V : front_view rows cols img.
  Lemma seen_ccw r1 c1 r2 c2 r3 c3 : (r1 < rows)%nat -> (c1 < cols)%nat -> (r2 < rows)%nat -> (c2 < cols)%nat -> (r3 < rows)%nat -> (c3 < cols)%nat ->
    0 < area2 (on_target r1 c1) (on_target r2 c2) (on_target r3 c3) -> negb (rltb (image_area2 (img r1 c1) (img r2 c2) (img r3 c3)) 0) = true.
  Proof.
    intros A1 A2 A3 A4 A5 A6 H. destruct (V r1 c1 r2 c2 r3 c3 A1 A2 A3 A4 A5 A6) as [P _]. specialize (P H). unfold rltb. destruct (Rlt_dec _ 0); [ exfalso; lra | reflexivity ].
  Qed.
  Lemma seen_cw r1 c1 r2 c2 r3 c3 : (r1 < rows)%nat -> (c1 < cols)%nat -> (r2 < rows)%nat -> (c2 < cols)%nat -> (r3 < rows)%nat -> (c3 < cols)%nat ->
    area2 (on_target r1 c1) (on_target r2 c2) (on_target r3 c3) < 0 -> negb (rltb (image_area2 (img r1 c1) (img r2 c2) (img r3 c3)) 0) = false.
  Proof.
    intros A1 A2 A3 A4 A5 A6 H. destruct (V r1 c1 r2 c2 r3 c3 A1 A2 A3 A4 A5 A6) as [_ P]. specialize (P H). unfold rltb. destruct (Rlt_dec _ 0); [ reflexivity | exfalso; lra ].
  Qed.
End Walk.

(** ** Signed areas of grid triangles, in integers *)

Lemma area_target r1 c1 r2 c2 r3 c3 : area2 (on_target r1 c1) (on_target r2 c2) (on_target r3 c3) =
  IZR ((Z.of_nat c2 - Z.of_nat c1) * (Z.of_nat r2 - Z.of_nat r3) - (Z.of_nat r1 - Z.of_nat r2) * (Z.of_nat c3 - Z.of_nat c2)).
Proof. unfold area2, on_target. cbn [px py]. rewrite !INR_IZR_INZ, minus_IZR, !mult_IZR, !minus_IZR. ring. Qed.

(** What the code makes of each walk. *)
Definition outcome (w : walk) (rows cols : nat) : walk :=
  match w with
  | UpsideDown | Mirrored => QuarterRight
  | QuarterLeft | QuarterRight => if Nat.eqb ((cols - 1) mod rows) 0 then Mirrored else Upright
  | _ => Upright
  end.
Definition fits (w : walk) (rows cols : nat) (flipped : bool) : Prop :=
  match w with
  | QuarterLeft | QuarterRight => flipped = true \/ rows = cols
  | Transposed | AntiTransposed => rows = cols
  | _ => flipped = false \/ rows = cols
  end.

Lemma visit_up_up R C f : visit (layout R C f) C (up C) (up R) = Ok (layout C R (fun j k => f k j)).
Proof. exact (visit_layout R C f true true). Qed.
Lemma visit_up_down R C f : visit (layout R C f) C (up C) (down R) = Ok (layout C R (fun j k => f (R - 1 - k)%nat j)).
Proof. exact (visit_layout R C f true false). Qed.
Lemma visit_down_up R C f : visit (layout R C f) C (down C) (up R) = Ok (layout C R (fun j k => f k (C - 1 - j)%nat)).
Proof. exact (visit_layout R C f false true). Qed.
Lemma visit_down_down R C f : visit (layout R C f) C (down C) (down R) = Ok (layout C R (fun j k => f (R - 1 - k)%nat (C - 1 - j)%nat)).
Proof. exact (visit_layout R C f false false). Qed.

Lemma fits_shape w rows cols flipped : fits w rows cols flipped ->
  (if flipped then cols else rows) = wR w rows cols /\ (if flipped then rows else cols) = wC w rows cols.
Proof. unfold wR, wC. destruct w, flipped; cbn; intros H; try (destruct H as [H | H]; try discriminate H); try rewrite H; auto. Qed.

Lemma turn_sign n m q b : (2 <= n)%Z -> (2 <= m)%Z -> (m - 1 = q * n + b)%Z -> (0 <= b < n)%Z -> (0 <= q)%Z ->
  (b = 0 -> b * (m - 1) - q * (n - 1) < 0)%Z /\ (b <> 0 -> 0 < b * (m - 1) - q * (n - 1))%Z.
Proof.
  intros Hn Hm E Hb Hq. split.
  - intros ->. assert (q <> 0)%Z by (intros ->; lia). nia.
  - intros B. rewrite E. replace (b * (q * n + b) - q * (n - 1))%Z with (q * n * (b - 1) + q + b * b)%Z by ring. assert (0 <= q * n)%Z by nia. nia.
Qed.
Lemma turn_left n m q b : (2 <= n)%nat -> (2 <= m)%nat -> (m - 1 = q * n + b)%nat -> (b < n)%nat -> (q < m)%nat ->
  area2 (on_target (n - 1 - (n - 1 - b)) (m - 1 - q)) (on_target (n - 1 - (n - 1)) (m - 1)) (on_target (n - 1 - b) q) =
  IZR (Z.of_nat b * (Z.of_nat m - 1) - Z.of_nat q * (Z.of_nat n - 1)).
Proof.
  intros Hn Hm E Hb Hq. rewrite area_target. f_equal. rewrite !Nat2Z.inj_sub by lia. ring.
Qed.
Lemma turn_right n m q b : (2 <= n)%nat -> (2 <= m)%nat -> (m - 1 = q * n + b)%nat -> (b < n)%nat -> (q < m)%nat ->
  area2 (on_target (n - 1 - b) (m - 1 - (m - 1 - q))) (on_target (n - 1) (m - 1 - (m - 1))) (on_target b (m - 1 - q)) =
  IZR (Z.of_nat b * (Z.of_nat m - 1) - Z.of_nat q * (Z.of_nat n - 1)).
Proof.
  intros Hn Hm E Hb Hq. rewrite area_target. f_equal. rewrite !Nat2Z.inj_sub by lia. ring.
Qed.
Ltac indices M M' rows cols :=
  try assumption; try reflexivity; try (f_equal; lia); try lia;
  try (rewrite M; generalize ((rows - 1) * cols)%nat; intros; lia);
  try (rewrite M'; generalize ((cols - 1) * rows)%nat; intros; lia).
Lemma outcome_spec rows cols img size ks detector w flipped :
  detected rows cols img size ks -> (2 <= rows)%nat -> (2 <= cols)%nat -> large_corner rows cols size -> search_keypoints detector rows cols = Ok ks ->
  front_view rows cols img -> fits w rows cols flipped ->
  extractKeyPoints detector (walk_grid w rows cols img) rows cols flipped = Ok (walk_grid (outcome w rows cols) rows cols img).
Proof.
  intros D Hr Hc LC E V F. pose proof (fits_shape w rows cols flipped F) as [F1 F2].
  pose proof (extract_walk rows cols img size ks D w detector flipped) as X. cbv zeta in X. rewrite F1, F2 in X. clear F1 F2.
  assert (M : (rows * cols = (rows - 1) * cols + cols)%nat) by (replace rows with (rows - 1 + 1)%nat at 1 by lia; rewrite Nat.mul_add_distr_r; lia).
  assert (M' : (rows * cols = (cols - 1) * rows + rows)%nat) by (replace cols with (cols - 1 + 1)%nat at 1 by lia; rewrite Nat.mul_add_distr_l; lia).
  unfold wR, wC in X. destruct w; cbn [tall] in X; cbn [outcome fits] in F |- *.
  - (* Upright *)
    rewrite (X StartLast (rows - 1) 0 (rows - 1) 0 (rows - 1) (cols - 1) 0 (cols - 1))%nat; cbn [cell spot_index]; indices M M' rows cols.
    unfold cell_of. cbn [cell fst snd]. rewrite (seen_ccw rows cols img V) by (try lia; rewrite area_target; apply (IZR_lt 0); nia).
    cbn [spot_order]. rewrite visit_all. reflexivity.
  - (* HalfTurn *)
    rewrite (X EndFirst 0 (cols - 1) (rows - 1) 0 (rows - 1) (cols - 1) 0 (cols - 1))%nat; cbn [cell spot_index]; indices M M' rows cols.
    unfold cell_of. cbn [cell fst snd]. rewrite (seen_ccw rows cols img V) by (try lia; rewrite area_target; apply (IZR_lt 0); nia).
    cbn [spot_order]. rewrite visit_back. cbn [walk_grid]. rewrite rev_layout. f_equal. apply layout_ext. intros. f_equal; lia.
  - (* QuarterLeft *)
    set (q := ((cols - 1) / rows)%nat). set (b := ((cols - 1) mod rows)%nat).
    assert (Qb : (cols - 1 = q * rows + b)%nat) by (unfold q, b; rewrite Nat.mul_comm; apply Nat.div_mod; lia).
    assert (Bb : (b < rows)%nat) by (apply Nat.mod_upper_bound; lia). assert (Bq : (q < cols)%nat) by nia. clearbody q b.
    destruct (turn_sign (Z.of_nat rows) (Z.of_nat cols) (Z.of_nat q) (Z.of_nat b)) as [S0 S1]; [ lia | lia | rewrite <- Nat2Z.inj_mul; lia | lia | lia | ].
    assert (Qn : ((cols - 1 - q) * rows = (cols - 1) * rows - q * rows)%nat) by apply Nat.mul_sub_distr_r.
    assert (Qm : (q * rows <= (cols - 1) * rows)%nat) by (apply Nat.mul_le_mono_r; lia).
    rewrite (X StartFirst 0 0 (cols - 1 - q) (rows - 1 - b) (cols - 1) (rows - 1) q b)%nat; cbn [cell spot_index]; indices M M' rows cols;
      try (rewrite Qn, M'; revert Qm; generalize ((cols - 1) * rows)%nat (q * rows)%nat; intros; lia).
    unfold cell_of. cbn [cell fst snd]. destruct (Nat.eqb_spec b 0) as [B0 | B0].
    + rewrite (seen_cw rows cols img V) by (try lia; rewrite turn_left by assumption; apply (IZR_lt _ 0); apply S0; lia).
      cbn [spot_order walk_grid]. rewrite visit_down_down. f_equal. apply layout_ext. intros. f_equal; lia.
    + rewrite (seen_ccw rows cols img V) by (try lia; rewrite turn_left by assumption; apply (IZR_lt 0); apply S1; lia).
      cbn [spot_order walk_grid]. rewrite visit_down_up. f_equal. apply layout_ext. intros. f_equal; lia.
  - (* QuarterRight *)
    set (q := ((cols - 1) / rows)%nat). set (b := ((cols - 1) mod rows)%nat).
    assert (Qb : (cols - 1 = q * rows + b)%nat) by (unfold q, b; rewrite Nat.mul_comm; apply Nat.div_mod; lia).
    assert (Bb : (b < rows)%nat) by (apply Nat.mod_upper_bound; lia). assert (Bq : (q < cols)%nat) by nia. clearbody q b.
    destruct (turn_sign (Z.of_nat rows) (Z.of_nat cols) (Z.of_nat q) (Z.of_nat b)) as [S0 S1]; [ lia | lia | rewrite <- Nat2Z.inj_mul; lia | lia | lia | ].
    assert (Qn : ((cols - 1 - q) * rows = (cols - 1) * rows - q * rows)%nat) by apply Nat.mul_sub_distr_r.
    assert (Qm : (q * rows <= (cols - 1) * rows)%nat) by (apply Nat.mul_le_mono_r; lia).
    rewrite (X EndLast (cols - 1) (rows - 1) (cols - 1 - q) (rows - 1 - b) (cols - 1) (rows - 1) q b)%nat; cbn [cell spot_index]; indices M M' rows cols;
      try (rewrite Qn, M'; revert Qm; generalize ((cols - 1) * rows)%nat (q * rows)%nat; intros; lia).
    unfold cell_of. cbn [cell fst snd]. destruct (Nat.eqb_spec b 0) as [B0 | B0].
    + rewrite (seen_cw rows cols img V) by (try lia; rewrite turn_right by assumption; apply (IZR_lt _ 0); apply S0; lia).
      cbn [spot_order walk_grid]. rewrite visit_up_up. f_equal.
    + rewrite (seen_ccw rows cols img V) by (try lia; rewrite turn_right by assumption; apply (IZR_lt 0); apply S1; lia).
      cbn [spot_order walk_grid]. rewrite visit_up_down. f_equal. apply layout_ext. intros. f_equal; lia.
  - (* Transposed *)
    subst cols. rewrite (X EndFirst 0 (rows - 1) (rows - 1) 0 (rows - 1) (rows - 1) 0 (rows - 1))%nat; cbn [cell spot_index]; indices M M' rows rows.
    unfold cell_of. cbn [cell fst snd]. rewrite (seen_cw rows rows img V) by (try lia; rewrite area_target; apply (IZR_lt _ 0); nia).
    cbn [spot_order walk_grid]. rewrite visit_up_up. reflexivity.
  - (* AntiTransposed *)
    subst cols. rewrite (X StartLast (rows - 1) 0 (rows - 1) 0 (rows - 1) (rows - 1) 0 (rows - 1))%nat; cbn [cell spot_index]; indices M M' rows rows.
    unfold cell_of. cbn [cell fst snd]. rewrite (seen_cw rows rows img V) by (try lia; rewrite area_target; apply (IZR_lt _ 0); nia).
    cbn [spot_order walk_grid]. rewrite visit_down_down. f_equal. apply layout_ext. intros. f_equal; lia.
  - (* UpsideDown *)
    rewrite (X StartFirst 0 0 (rows - 1) 0 (rows - 1) (cols - 1) 0 (cols - 1))%nat; cbn [cell spot_index]; indices M M' rows cols.
    unfold cell_of. cbn [cell fst snd]. rewrite (seen_cw rows cols img V) by (try lia; rewrite area_target; apply (IZR_lt _ 0); nia).
    cbn [spot_order walk_grid]. rewrite visit_down_down. f_equal. apply layout_ext. intros. f_equal; lia.
  - (* Mirrored *)
    rewrite (X EndLast (rows - 1) (cols - 1) (rows - 1) 0 (rows - 1) (cols - 1) 0 (cols - 1))%nat; cbn [cell spot_index]; indices M M' rows cols.
    unfold cell_of. cbn [cell fst snd]. rewrite (seen_cw rows cols img V) by (try lia; rewrite area_target; apply (IZR_lt _ 0); nia).
    cbn [spot_order walk_grid]. rewrite visit_up_up. reflexivity.
Qed.

Lemma handled_fits w rows cols flipped : found_by w rows cols flipped -> handled w rows cols -> fits w rows cols flipped.
Proof. unfold found_by. destruct w; cbn; tauto. Qed.
Lemma ordered rows cols img size ks detector w flipped :
  (2 <= rows)%nat -> (2 <= cols)%nat -> search_keypoints detector rows cols = Ok ks -> detected rows cols img size ks -> large_corner rows cols size ->
  front_view rows cols img -> found_by w rows cols flipped -> handled w rows cols ->
  extractKeyPoints detector (walk_grid w rows cols img) rows cols flipped = Ok (layout rows cols img).
Proof.
  intros Hr Hc E D LC V F H. rewrite (outcome_spec rows cols img size ks detector w flipped) by (try assumption; apply handled_fits; assumption).
  destruct w; cbn in H |- *; try reflexivity; try contradiction; destruct (Nat.eqb_spec ((cols - 1) mod rows) 0); try contradiction; reflexivity.
Qed.
Lemma misordered rows cols img size ks detector w flipped :
  (2 <= rows)%nat -> (2 <= cols)%nat -> search_keypoints detector rows cols = Ok ks -> detected rows cols img size ks -> large_corner rows cols size ->
  front_view rows cols img -> found_by w rows cols flipped ->
  (w = UpsideDown \/ w = Mirrored -> extractKeyPoints detector (walk_grid w rows cols img) rows cols flipped = Ok (walk_grid QuarterRight rows cols img)) /\
  (w = QuarterLeft \/ w = QuarterRight -> ((cols - 1) mod rows = 0)%nat ->
     extractKeyPoints detector (walk_grid w rows cols img) rows cols flipped = Ok (walk_grid Mirrored rows cols img)).
Proof.
  intros Hr Hc E D LC V F. split.
  - intros W. assert (Y : fits w rows cols flipped) by (clear - F W; unfold found_by in F; destruct W as [-> | ->]; cbn [turned fits] in *; tauto).
    rewrite (outcome_spec rows cols img size ks detector w flipped) by assumption. destruct W as [-> | ->]; reflexivity.
  - intros W M. assert (Y : fits w rows cols flipped) by (clear - F W; unfold found_by in F; destruct W as [-> | ->]; cbn [turned fits] in *; tauto).
    rewrite (outcome_spec rows cols img size ks detector w flipped) by assumption. destruct W as [-> | ->]; cbn [outcome]; rewrite M; reflexivity.
Qed.
(** In both, the large circle comes last instead of at the origin. *)
Lemma misplaced rows cols (img : nat -> nat -> vec2) : (2 <= rows)%nat -> (2 <= cols)%nat ->
  (forall w, w = QuarterRight \/ w = Mirrored -> nth_error (walk_grid w rows cols img) (rows * cols - 1) = Some (img (rows - 1) 0)%nat) /\
  nth_error (createPoints (CG rows cols 1)) (rows * cols - 1) = Some (grid_point rows 1 (rows - 1) (cols - 1)) /\
  nth_error (createPoints (CG rows cols 1)) (rows * cols - cols) = Some (V3 0 0 0).
Proof.
  intros Hr Hc.
  assert (M : (rows * cols = (rows - 1) * cols + cols)%nat) by (replace rows with (rows - 1 + 1)%nat at 1 by lia; rewrite Nat.mul_add_distr_r; lia).
  assert (M' : (rows * cols = (cols - 1) * rows + rows)%nat) by (replace cols with (cols - 1 + 1)%nat at 1 by lia; rewrite Nat.mul_add_distr_l; lia).
  split; [ | split ].
  - intros w [-> | ->]; cbn [walk_grid].
    + replace (rows * cols - 1)%nat with ((cols - 1) * rows + (rows - 1))%nat by (rewrite M'; generalize ((cols - 1) * rows)%nat; intros; lia).
      rewrite nth_layout by lia. do 2 f_equal. lia.
    + replace (rows * cols - 1)%nat with ((rows - 1) * cols + (cols - 1))%nat by (rewrite M; generalize ((rows - 1) * cols)%nat; intros; lia).
      rewrite nth_layout by lia. do 2 f_equal. lia.
  - rewrite points_layout. cbn [cg_rows cg_cols cg_spacing].
    replace (rows * cols - 1)%nat with ((rows - 1) * cols + (cols - 1))%nat by (rewrite M; generalize ((rows - 1) * cols)%nat; intros; lia). apply nth_layout; lia.
  - rewrite points_layout. cbn [cg_rows cg_cols cg_spacing].
    replace (rows * cols - cols)%nat with ((rows - 1) * cols + 0)%nat by (rewrite M; generalize ((rows - 1) * cols)%nat; intros; lia). rewrite nth_layout by lia.
    f_equal. unfold grid_point. rewrite Nat.sub_diag. cbn [INR]. f_equal; ring.
Qed.

(** ** Each centre exactly once *)

Lemma mapM_idx_map {A} (l : list A) d is vs : mapM (idx l) is = Ok vs -> vs = map (fun i => nth i l d) is.
Proof.
  intros H. apply mapM_idx_inv in H. induction H as [ | i v is vs E F IH]; [ reflexivity | ]. cbn. rewrite <- IH. f_equal. symmetry. apply nth_error_nth. exact E.
Qed.
Lemma visit_perm (l : list vec2) is vs : Permutation is (seq 0 (length l)) -> mapM (idx l) is = Ok vs -> Permutation vs l.
Proof.
  intros P H. rewrite (mapM_idx_map l (V2 0 0) is vs H). pose proof (mapM_idx_map l (V2 0 0) _ _ (visit_all l)) as E. unfold up in E.
  eapply Permutation_trans; [ apply Permutation_map; exact P | rewrite <- E; apply Permutation_refl ].
Qed.
Lemma lines_perm R C dj dk : Permutation (flat_map (fun j => map (fun k => (k * C + j)%nat) (lines dk R)) (lines dj C)) (seq 0 (R * C)).
Proof.
  rewrite !lines_map, flat_map_map.
  assert (E : flat_map (fun a => map (fun k => (k * C + dir dj C a)%nat) (map (dir dk R) (seq 0 R))) (seq 0 C) = layout C R (fun j k => dir dk R k * C + dir dj C j)%nat).
  { unfold layout. rewrite !flat_map_concat_map. f_equal. apply map_ext. intros j. rewrite map_map. reflexivity. }
  rewrite E. apply NoDup_Permutation_bis.
  - apply layout_NoDup. intros j k j' k' Hj Hk Hj' Hk' X. assert (A := dir_lt dj C j Hj). assert (B := dir_lt dj C j' Hj').
    destruct (Nat.div_mod_unique C (dir dk R k) (dir dk R k') (dir dj C j) (dir dj C j')) as [K J]; [ assumption | assumption | rewrite !(Nat.mul_comm C); exact X | ].
    split; [ destruct dj; cbn in J; lia | destruct dk; cbn in K; lia ].
  - rewrite length_layout, seq_length. lia.
  - intros i Hi. apply in_layout in Hi. destruct Hi as (j & k & Hj & Hk & ->). apply in_seq. assert (A := dir_lt dj C j Hj). assert (B := dir_lt dk R k Hk).
    assert (Y : (S (dir dk R k) * C <= R * C)%nat) by (apply Nat.mul_le_mono_r; exact B). cbn [Nat.mul] in Y. lia.
Qed.
Lemma order_each_once fc ss rows cols flipped pts : length fc = (rows * cols)%nat -> order_points fc ss rows cols flipped = Ok pts -> Permutation pts fc.
Proof.
  intros L. unfold order_points. set (tr := if flipped then cols else rows). set (tc := if flipped then rows else cols).
  assert (T : (tr * tc)%nat = length fc) by (unfold tr, tc; destruct flipped; lia). clearbody tr tc. clear L.
  assert (U : forall o, mapM (idx fc) (up (length fc)) = Ok o -> Permutation o fc) by (intros o; rewrite visit_all; intros X; injection X as <-; reflexivity).
  assert (D : forall o, mapM (idx fc) (down (length fc)) = Ok o -> Permutation o fc) by (intros o; rewrite visit_back; intros X; injection X as <-; apply Permutation_sym, Permutation_rev).
  assert (V : forall dj dk o, visit fc tc (lines dj tc) (lines dk tr) = Ok o -> Permutation o fc).
  { intros dj dk o X. eapply visit_perm; [ | exact X ]. rewrite <- T. apply lines_perm. }
  pose proof (V true true) as Vuu. pose proof (V true false) as Vud. pose proof (V false true) as Vdu. pose proof (V false false) as Vdd. cbn [lines] in *.
  do 3 (destruct (index_sub _ _); cbn [bind]; try discriminate).
  do 4 (destruct (idx fc _); cbn [bind]; try discriminate).
  repeat (first [ destruct (index_sub _ _); cbn [bind]; [ | discriminate | discriminate ] | destruct (avg_rel_size _ _ _ _); cbn [bind]; [ | discriminate | discriminate ] ]).
  destruct (largest _ _ _ _); [ destruct (usual _ _ _); auto | ]. destruct (largest _ _ _ _); [ destruct (usual _ _ _); auto | ].
  destruct (largest _ _ _ _); [ destruct (usual _ _ _); auto | ]. destruct (largest _ _ _ _); [ destruct (usual _ _ _); auto | discriminate ].
Qed.
Lemma each_once detector fc rows cols flipped pts : length fc = (rows * cols)%nat -> extractKeyPoints detector fc rows cols flipped = Ok pts -> Permutation pts fc.
Proof.
  intros L. unfold extractKeyPoints. destruct (search_keypoints detector rows cols); cbn [bind]; try discriminate. destruct (unmatched _ _); [ | discriminate ]. apply order_each_once. exact L.
Qed.

(** ** Outside the vectors *)

Lemma order_short fc ss rows cols flipped : (length fc < rows * cols)%nat -> order_points fc ss rows cols flipped = UB.
Proof.
  intros L. unfold order_points, index_sub. destruct (Nat.ltb cols 1); cbn [bind]; [ reflexivity | ]. destruct (Nat.ltb (rows * cols) cols); cbn [bind]; [ reflexivity | ].
  destruct (Nat.ltb_spec (rows * cols) 1) as [H | H]; [ lia | ]. cbn [bind]. unfold idx at 1. destruct (nth_error fc (rows * cols - cols)); [ cbn [bind] | reflexivity ].
  rewrite (idx_ub fc (rows * cols - 1)) by lia. reflexivity.
Qed.
Lemma order_thin fc ss rows cols flipped : (rows < 2 \/ cols < 2)%nat -> length ss = (rows * cols)%nat -> order_points fc ss rows cols flipped = UB.
Proof.
  intros T L. unfold order_points.
  destruct (Nat.eq_dec cols 0) as [-> | C0]; [ reflexivity | ]. rewrite (index_sub_ok cols 1) by lia. cbn [bind].
  destruct (Nat.eq_dec rows 0) as [-> | R0]; [ unfold index_sub at 1; rewrite (proj2 (Nat.ltb_lt _ _)) by lia; reflexivity | ].
  rewrite (index_sub_ok (rows * cols) cols), (index_sub_ok (rows * cols) 1) by nia. cbn [bind].
  assert (NT : forall i, (exists v, idx fc i = Ok v) \/ idx fc i = UB) by (intros i; unfold idx; destruct (nth_error fc i); eauto).
  destruct (NT (rows * cols - cols)%nat) as [[? ->] | ->]; cbn [bind]; [ | reflexivity ]. destruct (NT (rows * cols - 1)%nat) as [[? ->] | ->]; cbn [bind]; [ | reflexivity ].
  destruct (NT 0%nat) as [[? ->] | ->]; cbn [bind]; [ | reflexivity ]. destruct (NT (cols - 1)%nat) as [[? ->] | ->]; cbn [bind]; [ | reflexivity ].
  destruct T as [T | T].
  - assert (rows = 1%nat) by lia. subst rows. rewrite Nat.mul_1_l, Nat.sub_diag. unfold index_sub at 1. rewrite (proj2 (Nat.ltb_lt _ _)) by lia. reflexivity.
  - assert (cols = 1%nat) by lia. subst cols. rewrite Nat.mul_1_r in *. destruct (Nat.eq_dec rows 1) as [-> | R1]; [ reflexivity | ]. rewrite (index_sub_ok (rows - 1) 1) by lia. cbn [bind].
    unfold avg_rel_size at 1, relative_size. rewrite (idx_ub ss (rows - 1 + 1)) by lia. unfold idx. destruct (nth_error ss (rows - 1)); reflexivity.
Qed.
Lemma thin_grid rows cols img size ks detector flipped : (rows < 2 \/ cols < 2)%nat -> search_keypoints detector rows cols = Ok ks -> detected rows cols img size ks ->
  extractKeyPoints detector (layout rows cols img) rows cols flipped = UB.
Proof. intros T E D. change (layout rows cols img) with (walk_grid Upright rows cols img). rewrite (extract_order rows cols img size ks D) by exact E. apply order_thin; [ exact T | apply walk_length ]. Qed.
Lemma incomplete find detector t ks l : let rows := cg_rows t in let cols := cg_cols t in
  fst (find cols rows) = false -> snd (find rows cols) = map fst l -> l <> [] -> (length l < rows * cols)%nat ->
  search_keypoints detector rows cols = Ok ks -> matched l ks ->
  extractModifiedCircleGrid find detector t = UB.
Proof.
  intros rows cols F1 F2 N L E M. unfold extractModifiedCircleGrid. fold rows cols. rewrite F1, F2. cbn [andb]. rewrite map_length.
  destruct l as [ | x l0] eqn:El; [ congruence | ]. rewrite <- El in *. rewrite (proj2 (Nat.eqb_neq (length l) 0)) by (rewrite El; discriminate).
  unfold extractKeyPoints. rewrite E. cbn [bind]. rewrite (unmatched_none l ks M). apply order_short. rewrite map_length. exact L.
Qed.
