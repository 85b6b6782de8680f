(** Where the squares of a printed checkerboard meet. *)
From Coq Require Import Reals ZArith Bool Ascii String List Lra Lia Psatz.
From Verif.Base Require Import Geom.
From Verif.Model Require Import Targets TargetScript.
From Verif.Spec Require Import SheetSpec.
From Verif.Proofs Require Import SheetProofs.
Import ListNotations.
Local Open Scope R_scope.

Lemma black_shows l q : (forall s, In s l -> fill s = Black) ->
  (shows l q Black <-> exists s, In s l /\ covers s q) /\ (shows l q White <-> ~ exists s, In s l /\ covers s q).
Proof.
  induction l as [|s l IH] using rev_ind; intros F.
  - rewrite !shows_nil. split; split; try discriminate; auto; try (intros (s & [] & _)). intros _ (s & [] & _).
  - destruct IH as [I1 I2]; [ intros a Ha; apply F, in_or_app; auto | ].
    assert (Fs : fill s = Black) by (apply F, in_or_app; right; left; reflexivity).
    assert (New : (exists a, In a (l ++ [s]) /\ covers a q) <-> covers s q \/ exists a, In a l /\ covers a q).
    { split.
      - intros (a & Ha & H). apply in_app_iff in Ha as [Ha|[<-|[]]]; [ right; exists a; auto | left; exact H ].
      - intros [H|(a & Ha & H)]; [ exists s | exists a ]; (split; [ apply in_or_app; cbn; auto | exact H ]). }
    rewrite !New, !shows_snoc, Fs, I1, I2. destruct (covers_dec s q) as [C|C].
    + assert (White <> Black) by discriminate. split; split; tauto.
    + split; split; tauto.
Qed.

Section Board.
Context (gx gy : Z) (sp : R) (Hs : 0 < sp).
Definition board (i : bool) := checkerTarget gx gy (Some sp) i.
Definition side : R := sp * mm.
Lemma side_pos : 0 < side.
Proof. unfold side, mm, inch. apply Rmult_lt_0_compat; lra. Qed.
(** Column or row [c] of the board *)
Definition band (c : Z) (x : R) : Prop := 36 + IZR c * side <= x <= 36 + IZR c * side + side.
Definition inside (c : Z) (x : R) : Prop := 36 + IZR c * side < x < 36 + IZR c * side + side.

Definition dark (q : vec2) : Prop :=
  exists c r, (0 <= c < gx)%Z /\ (0 <= r < gy)%Z /\ ((r + c) mod 2 = 0)%Z /\ band c (px q) /\ band r (py q).
Lemma in_board i s : In s (shapes (board i)) <->
  exists c r, (0 <= c < gx)%Z /\ (0 <= r < gy)%Z /\ ((r + c) mod 2 = 0)%Z /\ s = Rect (36 + IZR c * side) (36 + IZR r * side) side side Black.
Proof.
  unfold board, checkerTarget, grid_spacing, range. cbn [shapes]. rewrite margin_36. fold side. rewrite in_flat_map. split.
  - intros (c & Hc & H). apply in_flat_map in H as (r & Hr & H). apply in_seq in Hc. apply in_seq in Hr.
    destruct (Nat.eqb ((r + c) mod 2) 0) eqn:E; [ | destruct H ]. destruct H as [<-|[]]. apply Nat.eqb_eq in E.
    exists (Z.of_nat c), (Z.of_nat r). rewrite <- !INR_IZR_INZ. split; [ lia | split; [ lia | split; [ | reflexivity ] ] ].
    rewrite <- Nat2Z.inj_add. change 2%Z with (Z.of_nat 2). rewrite <- Nat2Z.inj_mod, E. reflexivity.
  - intros (c & r & Hc & Hr & E & ->). exists (Z.to_nat c). split; [ apply in_seq; lia | ]. apply in_flat_map. exists (Z.to_nat r).
    split; [ apply in_seq; lia | ].
    assert (Q : ((Z.to_nat r + Z.to_nat c) mod 2 = 0)%nat).
    { apply Nat2Z.inj. rewrite Nat2Z.inj_mod, Nat2Z.inj_add, !Z2Nat.id by lia. exact E. }
    rewrite Q. cbn [Nat.eqb]. left. rewrite !INR_IZR_INZ, !Z2Nat.id by lia. reflexivity.
Qed.
Lemma board_shows i q : (shows (shapes (board i)) q Black <-> dark q) /\ (shows (shapes (board i)) q White <-> ~ dark q).
Proof.
  assert (D : (exists s, In s (shapes (board i)) /\ covers s q) <-> dark q).
  { split.
    - intros (s & H & C). apply in_board in H as (c & r & Hc & Hr & E & ->). destruct C. exists c, r. unfold band. auto.
    - intros (c & r & Hc & Hr & E & Bx & By). eexists. split; [ apply in_board; exists c, r; repeat split; auto; apply Hc || apply Hr | ].
      split; assumption. }
  rewrite <- D. apply black_shows. intros s H. apply in_board in H as (c & r & _ & _ & _ & ->). reflexivity.
Qed.
Lemma inside_band c k x : inside c x -> (band k x <-> k = c).
Proof.
  pose proof side_pos as P. unfold inside, band. intros I. split; [ | intros ->; lra ].
  intros B. assert (IZR k < IZR c + 1) by nra. assert (IZR c < IZR k + 1) by nra.
  rewrite <- plus_IZR in *. apply lt_IZR in H. apply lt_IZR in H0. lia.
Qed.
Lemma dark_same_column i a b c x x' y : inside c x -> inside c x' -> shows (shapes (board i)) (V2 x y) a -> shows (shapes (board i)) (V2 x' y) b -> a = b.
Proof.
  intros I I' A B.
  assert (E : dark (V2 x y) <-> dark (V2 x' y)).
  { unfold dark. cbn [px py]. split; intros (k & r & Hk & Hr & M & Bx & By); exists k, r; repeat split; try assumption; try apply Hk; try apply Hr; try apply By;
      [ apply (inside_band c k x I) in Bx | apply (inside_band c k x I) in Bx | apply (inside_band c k x' I') in Bx | apply (inside_band c k x' I') in Bx ]; subst; unfold inside in *; lra. }
  destruct (Classical_Prop.classic (dark (V2 x y))) as [D|D].
  - rewrite (shows_det _ _ _ _ A (proj2 (proj1 (board_shows i _)) D)).
    apply E in D. rewrite (shows_det _ _ _ _ B (proj2 (proj1 (board_shows i _)) D)). reflexivity.
  - rewrite (shows_det _ _ _ _ A (proj2 (proj2 (board_shows i _)) D)).
    rewrite E in D. rewrite (shows_det _ _ _ _ B (proj2 (proj2 (board_shows i _)) D)). reflexivity.
Qed.
Lemma dark_same_row i a b c x y y' : inside c y -> inside c y' -> shows (shapes (board i)) (V2 x y) a -> shows (shapes (board i)) (V2 x y') b -> a = b.
Proof.
  intros I I' A B.
  assert (E : dark (V2 x y) <-> dark (V2 x y')).
  { unfold dark. cbn [px py]. split; intros (k & r & Hk & Hr & M & Bx & By); exists k, r; repeat split; try assumption; try apply Hk; try apply Hr; try apply Bx;
      [ apply (inside_band c r y I) in By | apply (inside_band c r y I) in By | apply (inside_band c r y' I') in By | apply (inside_band c r y' I') in By ]; subst; unfold inside in *; lra. }
  destruct (Classical_Prop.classic (dark (V2 x y))) as [D|D].
  - rewrite (shows_det _ _ _ _ A (proj2 (proj1 (board_shows i _)) D)).
    apply E in D. rewrite (shows_det _ _ _ _ B (proj2 (proj1 (board_shows i _)) D)). reflexivity.
  - rewrite (shows_det _ _ _ _ A (proj2 (proj2 (board_shows i _)) D)).
    rewrite E in D. rewrite (shows_det _ _ _ _ B (proj2 (proj2 (board_shows i _)) D)). reflexivity.
Qed.

(** Every number is in the interior of a band or on the line before it. *)
Lemma on_line x : exists c, x = 36 + IZR c * side \/ inside c x.
Proof.
  pose proof side_pos as P. set (u := (x - 36) / side). exists (up u - 1)%Z. destruct (archimed u) as [A1 A2].
  assert (E : x = 36 + u * side) by (unfold u; field; lra).
  unfold inside. rewrite minus_IZR. destruct (Req_dec u (IZR (up u) - 1)) as [Q|Q]; [ left; rewrite <- Q; exact E | right ].
  rewrite E. split; nra.
Qed.
Lemma near_inside c x : inside c x -> forall d, 0 < d -> exists e, 0 < e < d /\ inside c (x + e) /\ inside c (x - e).
Proof.
  unfold inside. intros I d D.
  set (m := Rmin d (Rmin (x - (36 + IZR c * side)) (36 + IZR c * side + side - x))).
  assert (0 < m) by (unfold m; repeat apply Rmin_pos; lra).
  assert (m <= d) by apply Rmin_l.
  assert (m <= x - (36 + IZR c * side)) by (eapply Rle_trans; [ apply Rmin_r | apply Rmin_l ]).
  assert (m <= 36 + IZR c * side + side - x) by (eapply Rle_trans; [ apply Rmin_r | apply Rmin_r ]).
  exists (m / 2). lra.
Qed.
Definition corner (i j : Z) : vec2 := V2 (36 + IZR i * side) (36 + IZR j * side).
Lemma small d : 0 < d -> exists e, 0 < e < d /\ e < side.
Proof.
  intros D. pose proof side_pos. exists (Rmin d side / 2). pose proof (Rmin_l d side). pose proof (Rmin_r d side).
  assert (0 < Rmin d side) by (apply Rmin_pos; lra). lra.
Qed.
Lemma outside_white i c q : inside c (px q) -> ~ (0 <= c < gx)%Z -> shows (shapes (board i)) q White.
Proof.
  intros I N. apply board_shows. intros (k & r & Hk & Hr & _ & Bx & _). apply (inside_band c k _ I) in Bx. subst. auto.
Qed.
Lemma outside_white_row i c q : inside c (py q) -> ~ (0 <= c < gy)%Z -> shows (shapes (board i)) q White.
Proof.
  intros I N. apply board_shows. intros (k & r & Hk & Hr & _ & _ & By). apply (inside_band c r _ I) in By. subst. auto.
Qed.
Lemma meeting_corner i q : meeting (shows (shapes (board i))) q ->
  exists a b, (0 < a < gx)%Z /\ (0 < b < gy)%Z /\ q = corner a b.
Proof.
  intros (d & D & c1 & c2 & N & M). destruct q as [x y]. cbn [px py] in M. pose proof side_pos as P.
  destruct (on_line x) as (a & [Ea|Ia]).
  2:{ exfalso. destruct (near_inside a x Ia d D) as (e & He & I1 & I2). destruct (M e e He He) as (_ & M2 & M3 & _).
      apply N. symmetry. exact (dark_same_column i c2 c1 a _ _ _ I1 I2 M3 M2). }
  destruct (on_line y) as (b & [Eb|Ib]).
  2:{ exfalso. destruct (near_inside b y Ib d D) as (e & He & I1 & I2). destruct (M e e He He) as (M1 & _ & M3 & _).
      apply N. exact (dark_same_row i c1 c2 b _ _ _ I1 I2 M1 M3). }
  destruct (small d D) as (e & He & Es). destruct (M e e He He) as (M1 & M2 & M3 & M4).
  exists a, b. split; [ | split; [ | unfold corner; congruence ] ].
  - destruct (Z_lt_le_dec 0 a) as [La|La].
    + destruct (Z_lt_le_dec a gx) as [Lb|Lb]; [ auto | exfalso ]. apply N.
      assert (I : inside a (x + e)) by (unfold inside; lra).
      rewrite (shows_det _ _ _ _ M1 (outside_white i a (V2 (x + e) (y + e)) I ltac:(lia))).
      rewrite (shows_det _ _ _ _ M3 (outside_white i a (V2 (x + e) (y - e)) I ltac:(lia))). reflexivity.
    + exfalso. apply N.
      assert (I : inside (a - 1) (x - e)) by (unfold inside; rewrite minus_IZR; lra).
      rewrite (shows_det _ _ _ _ M2 (outside_white i (a - 1) (V2 (x - e) (y - e)) I ltac:(lia))).
      rewrite (shows_det _ _ _ _ M4 (outside_white i (a - 1) (V2 (x - e) (y + e)) I ltac:(lia))). reflexivity.
  - destruct (Z_lt_le_dec 0 b) as [La|La].
    + destruct (Z_lt_le_dec b gy) as [Lb|Lb]; [ auto | exfalso ]. apply N.
      assert (I : inside b (y + e)) by (unfold inside; lra).
      rewrite (shows_det _ _ _ _ M1 (outside_white_row i b (V2 (x + e) (y + e)) I ltac:(lia))).
      rewrite (shows_det _ _ _ _ M4 (outside_white_row i b (V2 (x - e) (y + e)) I ltac:(lia))). reflexivity.
    + exfalso. apply N.
      assert (I : inside (b - 1) (y - e)) by (unfold inside; rewrite minus_IZR; lra).
      rewrite (shows_det _ _ _ _ M2 (outside_white_row i (b - 1) (V2 (x - e) (y - e)) I ltac:(lia))).
      rewrite (shows_det _ _ _ _ M3 (outside_white_row i (b - 1) (V2 (x + e) (y - e)) I ltac:(lia))). reflexivity.
Qed.
Definition square_colour (a b : Z) : colour := if Z.eqb ((b + a) mod 2) 0 then Black else White.
Lemma square_shows i a b q : (0 <= a < gx)%Z -> (0 <= b < gy)%Z -> inside a (px q) -> inside b (py q) ->
  shows (shapes (board i)) q (square_colour a b).
Proof.
  intros Ha Hb Ia Ib. unfold square_colour. destruct (Z.eqb ((b + a) mod 2) 0) eqn:E.
  - apply Z.eqb_eq in E. apply board_shows. exists a, b. split; [ exact Ha | split; [ exact Hb | split; [ exact E | ] ] ].
    split; [ apply (inside_band a a _ Ia) | apply (inside_band b b _ Ib) ]; reflexivity.
  - apply Z.eqb_neq in E. apply board_shows. intros (k & r & _ & _ & M & Bx & By).
    apply (inside_band a k _ Ia) in Bx. apply (inside_band b r _ Ib) in By. subst. auto.
Qed.
Lemma corner_meeting i a b : (0 < a < gx)%Z -> (0 < b < gy)%Z -> meeting (shows (shapes (board i))) (corner a b).
Proof.
  intros Ha Hb. pose proof side_pos as P. exists side. split; [ exact P | ].
  exists (square_colour a b), (square_colour a (b - 1)). split.
  { unfold square_colour. replace (b - 1 + a)%Z with (b + a - 1)%Z by ring. 
    destruct (Z.eqb ((b + a) mod 2) 0) eqn:E1, (Z.eqb ((b + a - 1) mod 2) 0) eqn:E2; try discriminate; exfalso.
    - apply Z.eqb_eq in E1. apply Z.eqb_eq in E2. apply Z.mod_divide in E1 as [k1 K1]; [ | lia ]. apply Z.mod_divide in E2 as [k2 K2]; lia.
    - apply Z.eqb_neq in E1. apply Z.eqb_neq in E2. pose proof (Z.mod_pos_bound (b + a) 2 ltac:(lia)). pose proof (Z.mod_pos_bound (b + a - 1) 2 ltac:(lia)).
      pose proof (Z.div_mod (b + a) 2 ltac:(lia)). pose proof (Z.div_mod (b + a - 1) 2 ltac:(lia)). lia. }
  unfold corner. cbn [px py]. intros e f He Hf.
  assert (Pa : inside a (36 + IZR a * side + e)) by (unfold inside; lra).
  assert (Pb : inside b (36 + IZR b * side + f)) by (unfold inside; lra).
  assert (Na : inside (a - 1) (36 + IZR a * side - e)) by (unfold inside; rewrite minus_IZR; lra).
  assert (Nb : inside (b - 1) (36 + IZR b * side - f)) by (unfold inside; rewrite minus_IZR; lra).
  split; [ apply square_shows; cbn; auto; lia | ]. split.
  - replace (square_colour a b) with (square_colour (a - 1) (b - 1)); [ apply square_shows; cbn; auto; lia | ].
    unfold square_colour. replace (b - 1 + (a - 1))%Z with (b + a + (-1) * 2)%Z by ring. rewrite Z.mod_add by lia. reflexivity.
  - split; [ apply square_shows; cbn; auto; lia | ].
    replace (square_colour a (b - 1)) with (square_colour (a - 1) b); [ apply square_shows; cbn; auto; lia | ].
    unfold square_colour. replace (b + (a - 1))%Z with (b - 1 + a)%Z by ring. reflexivity.
Qed.

Definition corners : list vec2 :=
  flat_map (fun a => map (fun b => corner (Z.of_nat a) (Z.of_nat b)) (seq 1 (Z.to_nat (gy - 1)))) (seq 1 (Z.to_nat (gx - 1))).
Lemma corner_inj a b a' b' : corner a b = corner a' b' -> a = a' /\ b = b'.
Proof.
  intros E. pose proof (f_equal px E) as X. pose proof (f_equal py E) as Y. unfold corner in X, Y. cbn [px py] in X, Y. pose proof side_pos.
  split; apply eq_IZR; nra.
Qed.
Lemma in_corners q : In q corners <-> exists a b, (0 < a < gx)%Z /\ (0 < b < gy)%Z /\ q = corner a b.
Proof.
  unfold corners. rewrite in_flat_map. split.
  - intros (a & Ha & H). apply in_map_iff in H as (b & <- & Hb). apply in_seq in Ha. apply in_seq in Hb.
    exists (Z.of_nat a), (Z.of_nat b). split; [ lia | split; [ lia | reflexivity ] ].
  - intros (a & b & Ha & Hb & ->). exists (Z.to_nat a). split; [ apply in_seq; lia | ]. apply in_map_iff. exists (Z.to_nat b).
    rewrite !Z2Nat.id by lia. split; [ reflexivity | apply in_seq; lia ].
Qed.
Lemma corners_intersections i : intersections (board i) corners.
Proof.
  split.
  - unfold corners. generalize (seq_NoDup (Z.to_nat (gx - 1)) 1). generalize (seq 1 (Z.to_nat (gx - 1))) as l. intros l N.
    induction N as [|a l Na N IH]; [ constructor | ]. cbn [flat_map].
    assert (App : forall l1 l2 : list vec2, NoDup l1 -> NoDup l2 -> (forall z, In z l1 -> In z l2 -> False) -> NoDup (l1 ++ l2)).
    { intros l1 l2 N1 N2 D. induction N1 as [|z l1 Nz N1 I1]; [ exact N2 | ]. cbn. constructor.
      - intros H. apply in_app_iff in H as [H|H]; [ exact (Nz H) | exact (D z (or_introl eq_refl) H) ].
      - apply I1. intros w Hw. apply D. right. exact Hw. }
    apply App; [ | exact IH | ].
    + apply FinFun.Injective_map_NoDup; [ | apply seq_NoDup ]. intros b b' E. apply corner_inj in E as [_ E]. lia.
    + intros z Hz Hz'. apply in_map_iff in Hz as (b & <- & _). apply in_flat_map in Hz' as (a' & Ha' & H).
      apply in_map_iff in H as (b' & E & _). apply corner_inj in E as [E _]. apply Nat2Z.inj in E. subst. auto.
  - intros q. rewrite in_corners. split.
    + intros (a & b & Ha & Hb & ->). apply corner_meeting; assumption.
    + apply meeting_corner.
Qed.
Lemma corners_length : Datatypes.length corners = (Z.to_nat (gx - 1) * Z.to_nat (gy - 1))%nat.
Proof.
  unfold corners. rewrite <- (seq_length (Z.to_nat (gx - 1)) 1) at 2. generalize (seq 1 (Z.to_nat (gx - 1))) as l.
  induction l as [|a l IH]; [ reflexivity | ]. cbn [flat_map Datatypes.length]. rewrite app_length, map_length, seq_length, IH. cbn. lia.
Qed.
End Board.

Lemma asked_shapes t o : o_type o = Checker -> forall q c, shows (shapes (target_of t o)) q c <-> shows (shapes (board (o_grid_x o) (o_grid_y o) (o_spacing o) false)) q c.
Proof. intros T q c. unfold target_of. rewrite T. destruct (o_footer o); [ apply footer_shows | reflexivity ]. Qed.
Lemma meeting_ext (f g : vec2 -> colour -> Prop) q : (forall x c, f x c <-> g x c) -> meeting f q <-> meeting g q.
Proof.
  intros E. unfold meeting. split; intros (d & D & c1 & c2 & N & M); exists d; (split; [ exact D | ]); exists c1, c2; (split; [ exact N | ]);
    intros a b Ha Hb; destruct (M a b Ha Hb) as (M1 & M2 & M3 & M4); rewrite ?E in *; repeat split; apply E; assumption || (apply E; assumption).
Qed.
Lemma board_intersections t o : o_type o = Checker -> 0 < o_spacing o ->
  exists l, intersections (target_of t o) l /\ Datatypes.length l = (Z.to_nat (o_grid_x o - 1) * Z.to_nat (o_grid_y o - 1))%nat /\
    (forall q, In q l <-> exists i j, (0 < i < o_grid_x o)%Z /\ (0 < j < o_grid_y o)%Z /\
       q = V2 (36 + IZR i * (metre * (o_spacing o / 1000))) (36 + IZR j * (metre * (o_spacing o / 1000)))).
Proof.
  intros T P. exists (corners (o_grid_x o) (o_grid_y o) (o_spacing o)).
  destruct (corners_intersections (o_grid_x o) (o_grid_y o) (o_spacing o) P false) as [N I].
  split; [ split; [ exact N | ] | split; [ apply corners_length | ] ].
  - intros q. rewrite I. apply meeting_ext. intros x c. symmetry. apply asked_shapes, T.
  - intros q. rewrite in_corners. unfold corner, side.
    replace (o_spacing o * mm) with (metre * (o_spacing o / 1000)) by (rewrite <- mm_metre; field). reflexivity.
Qed.
Lemma board_squares t o : o_type o = Checker -> 0 < o_spacing o ->
  let side := metre * (o_spacing o / 1000) in
  page_width (target_of t o) = 36 + IZR (o_grid_x o) * side + 36 /\ page_height (target_of t o) = 36 + IZR (o_grid_y o) * side + 36 /\
  forall q,
    (shows (shapes (target_of t o)) q Black <->
       exists c r, (0 <= c < o_grid_x o)%Z /\ (0 <= r < o_grid_y o)%Z /\ ((r + c) mod 2 = 0)%Z /\ in_square side c r q) /\
    (shows (shapes (target_of t o)) q White <-> ~ shows (shapes (target_of t o)) q Black).
Proof.
  intros T P sd.
  assert (Es : side (o_spacing o) = sd) by (unfold side, sd; rewrite <- mm_metre; field).
  split; [ | split ].
  - unfold target_of. rewrite T. unfold addTextFooter, checkerTarget. destruct (o_footer o); cbn [page_width]; unfold grid_spacing; fold (side (o_spacing o)); rewrite Es, margin_36; ring.
  - unfold target_of. rewrite T. unfold addTextFooter, checkerTarget. destruct (o_footer o); cbn [page_height]; unfold grid_spacing; fold (side (o_spacing o)); rewrite Es, margin_36; ring.
  - intros q. rewrite !(asked_shapes t o T). destruct (board_shows (o_grid_x o) (o_grid_y o) (o_spacing o) false q) as [B W].
    rewrite W, B. split; [ | reflexivity ]. unfold dark, band, in_square. rewrite Es.
    split; intros (c & r & Hc & Hr & M & X & Y); exists c, r; rewrite ?plus_IZR in *; repeat split; try assumption; try apply Hc; try apply Hr; lra.
Qed.
Lemma intersections_count d l l' : intersections d l -> intersections d l' -> Datatypes.length l = Datatypes.length l'.
Proof.
  intros [N I] [N' I']. apply Nat.le_antisymm; apply NoDup_incl_length; try assumption; intros q Hq.
  - apply I', I, Hq.
  - apply I, I', Hq.
Qed.
Definition small_board : options := Options Checker 9 6 25 10 300 false "board.pdf" None.
Lemma fewer_intersections : exists o, o_type o = Checker /\ o_spacing o = 25 /\ o_grid_x o = 9%Z /\ o_grid_y o = 6%Z /\ forall t,
  (exists l, intersections (target_of t o) l /\ Datatypes.length l = 40%nat) /\
  ~ exists l, intersections (target_of t o) l /\ Datatypes.length l = (9 * 6)%nat.
Proof.
  exists small_board. repeat split; try reflexivity.
  - destruct (board_intersections t small_board eq_refl) as (l & I & L & _); [ cbn; lra | ]. exists l. auto.
  - intros (l' & I' & L'). destruct (board_intersections t small_board eq_refl) as (l & I & L & _); [ cbn; lra | ].
    pose proof (intersections_count _ _ _ I I') as E. rewrite L, L' in E. cbn in E. lia.
Qed.
