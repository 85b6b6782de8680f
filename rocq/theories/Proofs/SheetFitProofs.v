(** When the dots of a printed target are whole and apart. *)
From Coq Require Import Reals ZArith Bool Ascii String List Lra Lia Psatz.
From Verif.Base Require Import Geom.
From Verif.Model Require Import Targets TargetScript.
From Verif.Spec Require Import TargetSpec SheetSpec.
From Verif.Proofs Require Import LineTargetProofs SheetProofs.
Import ListNotations.
Local Open Scope R_scope.

Lemma within_box r c q : 0 <= r -> within r c q -> px c - r <= px q <= px c + r /\ py c - r <= py q <= py c + r.
Proof.
  unfold within. intros Hr H.
  assert (K : forall a b, a * a + b * b <= r * r -> - r <= a <= r).
  { intros a b L. split; apply Rnot_lt_le; intros X; nra. }
  pose proof (K _ _ H). rewrite Rplus_comm in H. pose proof (K _ _ H). lra.
Qed.
Lemma page_size t o rows cols s dot : asks_dots o rows cols s dot -> (1 <= rows)%nat -> (1 <= cols)%nat ->
  page_width (target_of t o) = INR (cols - 1) * (metre * s) + metre * dot + 108 /\
  page_height (target_of t o) = INR (rows - 1) * (metre * s) + metre * dot + 108.
Proof.
  intros (T & X & Y & P & D) Hr Hc. unfold target_of. rewrite T, X, Y, P, D.
  assert (E : forall n, (1 <= n)%nat -> IZR (Z.of_nat n - 1) = INR (n - 1)).
  { intros n Hn. rewrite INR_IZR_INZ. f_equal. lia. }
  assert (Q : forall i, page_width (dotTarget (Z.of_nat cols) (Z.of_nat rows) (Some (1000 * s)) i (1000 * dot)) = INR (cols - 1) * (metre * s) + metre * dot + 108 /\
    page_height (dotTarget (Z.of_nat cols) (Z.of_nat rows) (Some (1000 * s)) i (1000 * dot)) = INR (rows - 1) * (metre * s) + metre * dot + 108).
  { intros i. unfold dotTarget, grid_spacing. cbn [page_width page_height]. rewrite !mm_metre, margin_36, !E by assumption. split; ring. }
  destruct (o_footer o); unfold addTextFooter; cbn [page_width page_height]; apply Q.
Qed.
Lemma metre_inch x y : metre * x <= metre * y <-> x <= y.
Proof. pose proof metre_pos. split; [ apply Rmult_le_reg_l; assumption | apply Rmult_le_compat_l; lra ]. Qed.

Lemma dots_fit t o rows cols s dot : asks_dots o rows cols s dot -> (1 <= rows)%nat -> (1 <= cols)%nat -> 0 <= s -> 0 <= dot ->
  (forall q, in_dot (corner_dot dot) (createPoints (CG rows cols s)) dot q -> on_page (target_of t o) q) <->
  dot <= 508 / 10000 /\ dot <= INR (cols - 1) * s + 254 / 10000 /\ dot <= INR (rows - 1) * s + 254 / 10000.
Proof.
  intros A Hr Hc S0 D0. pose proof metre_pos as M. assert (M1 : metre * (254 / 10000) = 72) by (unfold metre; field).
  destruct (page_size t o rows cols s dot A Hr Hc) as [W H]. unfold on_page. rewrite W, H. clear W H A.
  assert (MD : 0 <= metre * dot) by (apply Rmult_le_pos; lra). assert (MS : 0 <= metre * s) by (apply Rmult_le_pos; lra).
  split.
  - intros F. split; [ | split ].
    + destruct (F (V2 (36 + metre * dot + metre * (INR (cols - 1) * s) + metre * dot / 2) (36 + metre * dot))) as [Fx _].
      { right. exists (grid_point rows s (rows - 1) (cols - 1)). split; [ apply (point_in (CG rows cols s)); cbn; lia | ].
        unfold within, placed, grid_point, corner_dot. cbn [px py vx vy]. replace (rows - 1 - (rows - 1))%nat with 0%nat by lia.
        change (INR 0) with 0. apply Req_le. ring. }
      cbn [px] in Fx. apply metre_inch. replace (metre * (508 / 10000)) with 144 by (unfold metre; field). lra.
    + destruct (F (V2 (36 + metre * dot + metre * dot) (36 + metre * dot))) as [Fx _].
      { left. unfold within, corner_dot. cbn [px py]. apply Req_le. ring. }
      cbn [px] in Fx. apply metre_inch. rewrite Rmult_plus_distr_l, M1. lra.
    + destruct (F (V2 (36 + metre * dot) (36 + metre * dot + metre * dot))) as [_ Fy].
      { left. unfold within, corner_dot. cbn [px py]. apply Req_le. ring. }
      cbn [py] in Fy. apply metre_inch. rewrite Rmult_plus_distr_l, M1. lra.
  - intros (F1 & F2 & F3) q [Q|(v & Hv & Q)].
    + apply within_box in Q as [Qx Qy]; [ | exact MD ]. unfold corner_dot in Qx, Qy. cbn [px py] in Qx, Qy.
      apply metre_inch in F2. apply metre_inch in F3. rewrite Rmult_plus_distr_l, M1 in F2, F3. lra.
    + apply in_points in Hv as (r & c & Lr & Lc & ->). cbn [cg_rows cg_cols cg_spacing] in *.
      apply within_box in Q as [Qx Qy]; [ | lra ]. unfold corner_dot, placed, grid_point in Qx, Qy. cbn [px py vx vy] in Qx, Qy.
      apply metre_inch in F1. replace (metre * (508 / 10000)) with 144 in F1 by (unfold metre; field).
      assert (Bd : forall a b, (a <= b)%nat -> 0 <= metre * (INR a * s) <= INR b * (metre * s)).
      { intros a b L. apply le_INR in L. pose proof (pos_INR a). replace (metre * (INR a * s)) with (INR a * (metre * s)) by ring. nra. }
      pose proof (Bd c (cols - 1)%nat ltac:(lia)). pose proof (Bd (rows - 1 - r)%nat (rows - 1)%nat ltac:(lia)). lra.
Qed.

Lemma points_placed_apart o s cols rows v w : In v (createPoints (CG rows cols s)) -> In w (createPoints (CG rows cols s)) -> v <> w ->
  px o = py o -> (metre * s) * (metre * s) <= (px (placed o v) - px (placed o w)) * (px (placed o v) - px (placed o w)) +
    (py (placed o v) - py (placed o w)) * (py (placed o v) - py (placed o w)).
Proof.
  intros Hv Hw N E. apply (centres_apart (px o) _ cols rows).
  - apply centres_placed; [ exact E | exists v; auto ].
  - apply centres_placed; [ exact E | exists w; auto ].
  - intros Q. apply N. apply in_points in Hv as (r & c & Lr & Lc & ->). apply in_points in Hw as (r' & c' & Lr' & Lc' & ->).
    unfold placed, grid_point in *. cbn [vx vy cg_rows cg_spacing] in *. pose proof (f_equal px Q) as Qx. pose proof (f_equal py Q) as Qy. cbn [px py] in Qx, Qy.
    pose proof metre_pos. f_equal; nra.
Qed.
Lemma dots_apart_iff rows cols s dot : (1 <= rows)%nat -> (1 <= cols)%nat -> (2 <= rows * cols)%nat -> 0 < s -> 0 <= dot ->
  (dots_apart (corner_dot dot) (createPoints (CG rows cols s)) dot <-> 3 / 2 * dot < s).
Proof.
  intros Hr Hc Two S0 D0. pose proof metre_pos as M. assert (MD : 0 <= metre * dot) by (apply Rmult_le_pos; lra). split.
  - intros A. apply Rnot_le_lt. intros L.
    assert (Z : In vzero (createPoints (CG rows cols s))).
    { replace vzero with (grid_point rows s (rows - 1) 0); [ apply (point_in (CG rows cols s)); cbn; lia | ].
      unfold grid_point, vzero. replace (rows - 1 - (rows - 1))%nat with 0%nat by lia. change (INR 0) with 0. f_equal; ring. }
    assert (Nb : exists a b, (a = s /\ b = 0 \/ a = 0 /\ b = s) /\ In (V3 a b 0) (createPoints (CG rows cols s))).
    { destruct (le_lt_dec 2 cols) as [C2|C2].
      - exists s, 0. split; [ auto | ]. replace (V3 s 0 0) with (grid_point rows s (rows - 1) 1); [ apply (point_in (CG rows cols s)); cbn; lia | ].
        unfold grid_point. replace (rows - 1 - (rows - 1))%nat with 0%nat by lia. change (INR 0) with 0. change (INR 1) with 1. f_equal; ring.
      - assert (cols = 1%nat) by lia. subst cols. exists 0, s. split; [ auto | ].
        replace (V3 0 s 0) with (grid_point rows s (rows - 2) 0); [ apply (point_in (CG rows 1 s)); cbn; lia | ].
        unfold grid_point. replace (rows - 1 - (rows - 2))%nat with 1%nat by lia. change (INR 0) with 0. change (INR 1) with 1. f_equal; ring. }
    destruct Nb as (a & b & Eab & Iw).
    assert (N : V3 a b 0 <> vzero).
    { intros E. pose proof (f_equal vx E) as E1. pose proof (f_equal vy E) as E2. cbn in E1, E2. destruct Eab; lra. }
    assert (Ms : metre * s <= metre * (3 / 2 * dot)) by (apply Rmult_le_compat_l; lra).
    assert (0 < metre * s) by (apply Rmult_lt_0_compat; lra).
    apply (A vzero (V3 a b 0) (metre * dot) (metre * dot / 2) (V2 (36 + metre * dot + metre * (2 / 3 * a)) (36 + metre * dot + metre * (2 / 3 * b)))); auto.
    + left. auto.
    + right. auto.
    + unfold within, placed, corner_dot, vzero. cbn [px py vx vy].
      replace (_ + _) with (4 / 9 * ((metre * s) * (metre * s))) by (destruct Eab as [[-> ->]|[-> ->]]; field). nra.
    + unfold within, placed, corner_dot, vzero. cbn [px py vx vy].
      replace (_ + _) with (1 / 9 * ((metre * s) * (metre * s))) by (destruct Eab as [[-> ->]|[-> ->]]; field). nra.
  - intros L v w rv rw q Hv Hw N Sv Sw Wv Ww.
    pose proof (points_placed_apart (corner_dot dot) s cols rows v w Hv Hw N eq_refl) as Q.
    assert (Rv : 0 <= rv) by (destruct Sv as [[_ ->]|[_ ->]]; lra). assert (Rw : 0 <= rw) by (destruct Sw as [[_ ->]|[_ ->]]; lra).
    pose proof (within_apart _ _ _ _ _ Rv Rw Wv Ww) as Q'.
    assert (rv + rw <= 3 / 2 * (metre * dot)).
    { destruct Sv as [[Ev ->]|[_ ->]], Sw as [[Ew ->]|[_ ->]]; try lra. congruence. }
    assert (metre * (3 / 2 * dot) < metre * s) by (apply Rmult_lt_compat_l; lra). nra.
Qed.

(** A target with dots of 60 mm, 100 mm apart *)
Definition large_dots : options := Options Dot 2 2 100 60 300 false "calibrationTarget.pdf" None.
Lemma large_dots_asked : asks_dots large_dots 2 2 (1 / 10) (6 / 100).
Proof. unfold asks_dots. cbn. repeat split; lra. Qed.
Definition usual_dots : options := Options Dot 7 5 25 10 300 true "calibrationTarget.pdf" None.
Lemma usual_dots_asked : asks_dots usual_dots 5 7 (25 / 1000) (1 / 100).
Proof. unfold asks_dots. cbn. repeat split; lra. Qed.
Lemma cut_off : exists o rows cols s dot, asks_dots o rows cols s dot /\ dots_apart (corner_dot dot) (createPoints (CG rows cols s)) dot /\
  exists q, in_dot (corner_dot dot) (createPoints (CG rows cols s)) dot q /\ forall t, ~ on_page (target_of t o) q.
Proof.
  exists large_dots, 2%nat, 2%nat, (1 / 10), (6 / 100). split; [ exact large_dots_asked | ]. split; [ apply dots_apart_iff; cbn; lia || lra | ].
  exists (V2 (36 + metre * (6 / 100) + metre * (1 / 10) + metre * (6 / 100) / 2) (36 + metre * (6 / 100))). split.
  - right. exists (grid_point 2 (1 / 10) 1 1). split; [ apply (point_in (CG 2 2 (1 / 10))); cbn; lia | ].
    unfold within, placed, grid_point, corner_dot. cbn [px py vx vy]. change (INR 1) with 1. change (INR (2 - 1 - 1)) with 0. apply Req_le. field.
  - intros t [[_ X] _]. destruct (page_size t large_dots 2 2 _ _ large_dots_asked) as [W _]; [ lia | lia | ]. rewrite W in X. cbn [px] in X.
    change (INR (2 - 1)) with 1 in X. unfold metre in X. lra.
Qed.
