(** What the printed targets show. *)
From Coq Require Import Reals ZArith Bool Ascii String List Lra Lia Psatz.
From Verif.Base Require Import Geom.
From Verif.Model Require Import Targets TargetScript.
From Verif.Spec Require Import TargetSpec SheetSpec.
From Verif.Proofs Require Import LineTargetProofs.
Import ListNotations.
Local Open Scope R_scope.

Lemma covers_dec s q : {covers s q} + {~ covers s q}.
Proof.
  destruct s as [x y w h f|cx cy r f|x y t f]; cbn.
  - destruct (Rle_dec x (px q)), (Rle_dec (px q) (x + w)), (Rle_dec y (py q)), (Rle_dec (py q) (y + h)); try (left; lra); right; lra.
  - unfold within. apply Rle_dec.
  - right. tauto.
Qed.
Lemma shows_snoc l s q c : shows (l ++ [s]) q c <-> (covers s q /\ c = fill s) \/ (~ covers s q /\ shows l q c).
Proof.
  split.
  - intros H. inversion H as [q' E|l' s' q' C E|l' s' q' c' C D E]; subst.
    + symmetry in E. apply app_eq_nil in E as [_ E]. discriminate E.
    + apply app_inj_tail in E as [-> ->]. left. auto.
    + apply app_inj_tail in E as [-> ->]. right. auto.
  - intros [[C ->]|[C D]]; [ apply shows_last; exact C | apply shows_under; assumption ].
Qed.
Lemma shows_nil q c : shows [] q c <-> c = White.
Proof.
  split; [ | intros ->; constructor ].
  intros H. inversion H as [q' E|l' s' q' C E|l' s' q' c' C D E]; subst; [ reflexivity | | ];
    apply app_eq_nil in E as [_ E]; discriminate E.
Qed.
Lemma shows_det l q c c' : shows l q c -> shows l q c' -> c = c'.
Proof.
  revert c c'. induction l as [|s l IH] using rev_ind; intros c c'.
  - rewrite !shows_nil. congruence.
  - rewrite !shows_snoc. intros [[A ->]|[A B]] [[C ->]|[C D]]; try contradiction; auto.
Qed.
Lemma shows_total l q : exists c, shows l q c.
Proof.
  induction l as [|s l [c IH]] using rev_ind.
  - exists White. constructor.
  - destruct (covers_dec s q) as [C|C].
    + exists (fill s). apply shows_last, C.
    + exists c. apply shows_under; assumption.
Qed.
Lemma shows_text l x y t f q c : shows (l ++ [Text x y t f]) q c <-> shows l q c.
Proof. rewrite shows_snoc. cbn. tauto. Qed.

(** Marked dots in order: [ps] are the centres. *)
Definition marked (R r : R) (fg bg : colour) (ps : list vec2) : list shape :=
  flat_map (fun p => [Circle (px p) (py p) R fg; Circle (px p) (py p) r bg]) ps.
Lemma eta2 p : V2 (px p) (py p) = p. Proof. destruct p; reflexivity. Qed.
Lemma marked_shows R r fg bg base q cb ps : shows base q cb ->
  (forall p p', In p ps -> In p' ps -> p <> p' -> within r p q -> within R p' q -> False) ->
  ((exists p, In p ps /\ within r p q) -> shows (base ++ marked R r fg bg ps) q bg) /\
  (~ (exists p, In p ps /\ within r p q) -> (exists p, In p ps /\ within R p q) -> shows (base ++ marked R r fg bg ps) q fg) /\
  (~ (exists p, In p ps /\ within r p q) -> ~ (exists p, In p ps /\ within R p q) -> shows (base ++ marked R r fg bg ps) q cb).
Proof.
  intros B. induction ps as [|p ps IH] using rev_ind; intros Sep.
  - cbn. rewrite app_nil_r. split; [ intros (p & [] & _) | split; [ intros _ (p & [] & _) | auto ] ].
  - destruct IH as (I1 & I2 & I3).
    { intros a b Ha Hb. apply Sep; apply in_or_app; left; assumption. }
    assert (E : base ++ marked R r fg bg (ps ++ [p]) =
      ((base ++ marked R r fg bg ps) ++ [Circle (px p) (py p) R fg]) ++ [Circle (px p) (py p) r bg]).
    { unfold marked. rewrite flat_map_app. cbn [flat_map app]. rewrite !app_assoc_reverse. reflexivity. }
    rewrite E.
    assert (Hp : In p (ps ++ [p])) by (apply in_or_app; right; left; reflexivity).
    assert (Old : forall a, In a ps -> In a (ps ++ [p])) by (intros a Ha; apply in_or_app; left; exact Ha).
    assert (New : forall P : vec2 -> Prop, (exists a, In a (ps ++ [p]) /\ P a) <-> P p \/ exists a, In a ps /\ P a).
    { intros P. split.
      - intros (a & Ha & H). apply in_app_iff in Ha as [Ha|[<-|[]]]; [ right; exists a; auto | left; exact H ].
      - intros [H|(a & Ha & H)]; [ exists p | exists a ]; auto. }
    rewrite !(New (fun a => within r a q)), !(New (fun a => within R a q)).
    pose proof (covers_dec (Circle (px p) (py p) r bg) q) as Dr. cbn in Dr. rewrite eta2 in Dr.
    pose proof (covers_dec (Circle (px p) (py p) R fg) q) as DR. cbn in DR. rewrite eta2 in DR.
    rewrite !shows_snoc. cbn [covers fill]. rewrite !eta2.
    split; [ | split ].
    + intros [H|H]; [ left; auto | ].
      destruct Dr as [D|D]; [ left; auto | right; split; [ exact D | ] ].
      destruct DR as [D'|D']; [ exfalso | right; auto ].
      destruct H as (a & Ha & H). destruct (Classical_Prop.classic (a = p)) as [->|N]; [ exact (D H) | ].
      exact (Sep a p (Old _ Ha) Hp N H D').
    + intros N [H|H].
      * right. split; [ tauto | ]. left. auto.
      * right. split; [ tauto | ]. destruct DR as [D'|D']; [ left; auto | right; split; [ exact D' | apply I2; [ tauto | exact H ] ] ].
    + intros N M. right. split; [ tauto | ]. right. split; [ tauto | ]. apply I3; tauto.
Qed.

Lemma metre_pos : 0 < metre. Proof. unfold metre. lra. Qed.
Lemma mm_metre x : 1000 * x * mm = metre * x. Proof. unfold mm, inch, metre. field. Qed.
Lemma margin_36 : margin = 36. Proof. unfold margin, inch. lra. Qed.

(** The dots of a dot target, in the order in which they are drawn. *)
Definition centres (off s : R) (cols rows : nat) : list vec2 :=
  flat_map (fun c => map (fun r => V2 (off + INR c * s) (off + INR r * s)) (seq 0 rows)) (seq 0 cols).
Lemma flat_map_flat_map {A B C} (f : A -> list B) (g : B -> list C) l : flat_map g (flat_map f l) = flat_map (fun a => flat_map g (f a)) l.
Proof. induction l as [|a l IH]; [ reflexivity | ]. cbn. rewrite flat_map_app, IH. reflexivity. Qed.
Lemma flat_map_map {A B C} (f : A -> B) (g : B -> list C) l : flat_map g (map f l) = flat_map (fun a => g (f a)) l.
Proof. induction l as [|a l IH]; [ reflexivity | ]. cbn. rewrite IH. reflexivity. Qed.
Lemma dot_shapes cols rows s dot i : shapes (dotTarget (Z.of_nat cols) (Z.of_nat rows) (Some (1000 * s)) i (1000 * dot)) =
  [Rect 0 0 (IZR (Z.of_nat cols - 1) * (metre * s) + metre * dot + 36 * 3) (IZR (Z.of_nat rows - 1) * (metre * s) + metre * dot + 36 * 3) (background i);
   Circle (36 + metre * dot) (36 + metre * dot) (metre * dot) (foreground i)]
  ++ marked (metre * dot / 2) (3 / 100 * (metre * dot)) (foreground i) (background i) (centres (36 + metre * dot) (metre * s) cols rows).
Proof.
  unfold dotTarget, grid_spacing. cbn [shapes]. rewrite !mm_metre, margin_36. cbn [app]. do 2 f_equal.
  unfold marked, centres, range. rewrite !Nat2Z.id, flat_map_flat_map. apply flat_map_ext. intros c. rewrite flat_map_map. reflexivity.
Qed.
Lemma in_centres off s cols rows p : In p (centres off s cols rows) <->
  exists c r, (c < cols)%nat /\ (r < rows)%nat /\ p = V2 (off + INR c * s) (off + INR r * s).
Proof.
  unfold centres. rewrite in_flat_map. split.
  - intros (c & Hc & H). apply in_map_iff in H as (r & <- & Hr). apply in_seq in Hc. apply in_seq in Hr.
    exists c, r. repeat split; lia.
  - intros (c & r & Hc & Hr & ->). exists c. split; [ apply in_seq; lia | ]. apply in_map_iff. exists r. split; [ reflexivity | apply in_seq; lia ].
Qed.
Lemma centres_placed o s cols rows p : px o = py o -> In p (centres (px o) (metre * s) cols rows) <->
  exists v, In v (createPoints (CG rows cols s)) /\ p = placed o v.
Proof.
  intros E. rewrite in_centres. split.
  - intros (c & r & Hc & Hr & ->). exists (grid_point rows s (rows - 1 - r) c). split.
    + apply (point_in (CG rows cols s)); cbn; lia.
    + unfold placed, grid_point. cbn [vx vy]. replace (rows - 1 - (rows - 1 - r))%nat with r by lia. rewrite <- E. f_equal; ring.
  - intros (v & Hv & ->). apply in_points in Hv as (r & c & Hr & Hc & ->). cbn [cg_rows cg_cols cg_spacing] in *.
    exists c, (rows - 1 - r)%nat. split; [ lia | split; [ lia | ] ].
    unfold placed, grid_point. cbn [vx vy]. rewrite <- E. f_equal; ring.
Qed.
Lemma off_origin dot : V2 (36 + metre * dot) (36 + metre * dot) = corner_dot dot. Proof. reflexivity. Qed.

(** Two different grid points are at least a spacing apart. *)
Lemma INR_apart a b : a <> b -> 1 <= (INR a - INR b) * (INR a - INR b).
Proof.
  intros N. rewrite !INR_IZR_INZ, <- minus_IZR, <- mult_IZR. apply (IZR_le 1). nia.
Qed.
Lemma within_apart r R p p' q : 0 <= r -> 0 <= R -> within r p q -> within R p' q ->
  (px p - px p') * (px p - px p') + (py p - py p') * (py p - py p') <= (r + R) * (r + R).
Proof.
  unfold within. intros Hr HR H1 H2.
  set (a := px q - px p) in *. set (b := py q - py p) in *. set (c := px q - px p') in *. set (d := py q - py p') in *.
  replace (px p - px p') with (c - a) by (unfold a, c; ring). replace (py p - py p') with (d - b) by (unfold b, d; ring).
  assert (CS : (a * c + b * d) * (a * c + b * d) <= (r * R) * (r * R)).
  { apply Rle_trans with ((a * a + b * b) * (c * c + d * d)).
    - pose proof (Rle_0_sqr (a * d - b * c)) as Q. unfold Rsqr in Q. lra.
    - replace (r * R * (r * R)) with (r * r * (R * R)) by ring. apply Rmult_le_compat; nra. }
  assert (- (r * R) <= a * c + b * d).
  { pose proof (Rmult_le_pos _ _ Hr HR). nra. }
  nra.
Qed.
Lemma centres_apart off s cols rows p p' : In p (centres off s cols rows) -> In p' (centres off s cols rows) -> p <> p' ->
  s * s <= (px p - px p') * (px p - px p') + (py p - py p') * (py p - py p').
Proof.
  intros H H' N. apply in_centres in H as (c & r & _ & _ & ->). apply in_centres in H' as (c' & r' & _ & _ & ->). cbn [px py].
  replace (off + INR c * s - (off + INR c' * s)) with ((INR c - INR c') * s) by ring.
  replace (off + INR r * s - (off + INR r' * s)) with ((INR r - INR r') * s) by ring.
  replace ((INR c - INR c') * s * ((INR c - INR c') * s)) with ((INR c - INR c') * (INR c - INR c') * (s * s)) by ring.
  replace ((INR r - INR r') * s * ((INR r - INR r') * s)) with ((INR r - INR r') * (INR r - INR r') * (s * s)) by ring.
  pose proof (Rle_0_sqr s) as S0. unfold Rsqr in S0.
  pose proof (Rle_0_sqr (INR c - INR c')) as C0. pose proof (Rle_0_sqr (INR r - INR r')) as R0. unfold Rsqr in C0, R0.
  destruct (Nat.eq_dec c c') as [Ec|Nc].
  - destruct (Nat.eq_dec r r') as [Er|Nr]; [ subst; congruence | ]. pose proof (INR_apart _ _ Nr). nra.
  - pose proof (INR_apart _ _ Nc). nra.
Qed.

Lemma fg_bg i : foreground i <> background i. Proof. destruct i; discriminate. Qed.

Lemma footer_shows t d q c : shows (shapes (addTextFooter t d)) q c <-> shows (shapes d) q c.
Proof. unfold addTextFooter. cbn [shapes]. apply shows_text. Qed.
Lemma target_dots t o rows cols s dot : asks_dots o rows cols s dot ->
  let d := dotTarget (Z.of_nat cols) (Z.of_nat rows) (Some (1000 * s)) (invert_of o) (1000 * dot) in
  (forall q c, shows (shapes (target_of t o)) q c <-> shows (shapes d) q c) /\ (forall q, on_page (target_of t o) q <-> on_page d q).
Proof.
  intros (T & X & Y & P & D). unfold target_of. rewrite T, X, Y, P, D. destruct (o_footer o).
  - split; [ intros; apply footer_shows | intros; reflexivity ].
  - split; reflexivity.
Qed.

Lemma dots_and_marks o s cols rows r q : px o = py o ->
  (exists p, In p (centres (px o) (metre * s) cols rows) /\ within r p q) <->
  exists v, In v (createPoints (CG rows cols s)) /\ within r (placed o v) q.
Proof.
  intros E. split.
  - intros (p & Hp & H). apply (centres_placed o s cols rows p E) in Hp as (v & Hv & ->). exists v. auto.
  - intros (v & Hv & H). exists (placed o v). split; [ apply centres_placed; [ exact E | exists v; auto ] | exact H ].
Qed.
Lemma dot_target_shows t o rows cols s dot : asks_dots o rows cols s dot -> 0 <= dot -> 53 / 100 * dot < s ->
  forall q, on_page (target_of t o) q ->
  (shows (shapes (target_of t o)) q (foreground (invert_of o)) <->
     in_dot (corner_dot dot) (createPoints (CG rows cols s)) dot q /\ ~ in_mark (corner_dot dot) (createPoints (CG rows cols s)) dot q) /\
  (shows (shapes (target_of t o)) q (background (invert_of o)) <->
     ~ (in_dot (corner_dot dot) (createPoints (CG rows cols s)) dot q /\ ~ in_mark (corner_dot dot) (createPoints (CG rows cols s)) dot q)).
Proof.
  intros A D0 Sp q. destruct (target_dots t o rows cols s dot A) as [Sh Pg]. rewrite !Sh, Pg. clear Sh Pg A.
  set (i := invert_of o). clearbody i. clear o. rewrite dot_shapes. intros On.
  pose proof metre_pos as M.
  assert (Hd : 0 <= metre * dot) by (apply Rmult_le_pos; lra).
  set (base := [_; _]).
  assert (Base : shows base q (if covers_dec (Circle (36 + metre * dot) (36 + metre * dot) (metre * dot) (foreground i)) q then foreground i else background i)).
  { unfold base. change [?a; ?b] with (([] ++ [a]) ++ [b]). destruct (covers_dec _ q) as [C|C].
    - apply (shows_last _ _ _ C).
    - apply shows_under; [ exact C | ]. set (b := Rect 0 0 _ _ _). change (background i) with (fill b). apply shows_last.
      cbn [covers b]. destruct On as [O1 O2]. unfold dotTarget, grid_spacing in O1, O2. cbn [page_width page_height] in O1, O2.
      rewrite !mm_metre, margin_36 in *. lra. }
  destruct (marked_shows (metre * dot / 2) (3 / 100 * (metre * dot)) (foreground i) (background i) base q _
    (centres (36 + metre * dot) (metre * s) cols rows) Base) as (K1 & K2 & K3).
  { intros p p' Hp Hp' N W W'. pose proof (centres_apart _ _ _ _ _ _ Hp Hp' N) as Q.
    assert (Q' := fun A B => within_apart _ _ _ _ _ A B W W'). specialize (Q' ltac:(lra) ltac:(lra)).
    assert (metre * (53 / 100 * dot) < metre * s) by (apply Rmult_lt_compat_l; assumption).
    assert (0 <= metre * (53 / 100 * dot)) by (replace (metre * (53 / 100 * dot)) with (53 / 100 * (metre * dot)) by ring; lra).
    replace (3 / 100 * (metre * dot) + metre * dot / 2) with (metre * (53 / 100 * dot)) in Q' by field. nra. }
  change (36 + metre * dot) with (px (corner_dot dot)) in K1, K2, K3 at 1.
  change (centres (36 + metre * dot)) with (centres (px (corner_dot dot))) in *.
  rewrite (dots_and_marks (corner_dot dot) s cols rows _ q eq_refl) in K1.
  rewrite !(dots_and_marks (corner_dot dot) s cols rows _ q eq_refl) in K2, K3.
  fold (in_mark (corner_dot dot) (createPoints (CG rows cols s)) dot q) in K1, K2, K3.
  set (L := base ++ _) in *.
  assert (Key : shows L q (foreground i) /\ (in_dot (corner_dot dot) (createPoints (CG rows cols s)) dot q /\ ~ in_mark (corner_dot dot) (createPoints (CG rows cols s)) dot q)
    \/ shows L q (background i) /\ ~ (in_dot (corner_dot dot) (createPoints (CG rows cols s)) dot q /\ ~ in_mark (corner_dot dot) (createPoints (CG rows cols s)) dot q)).
  { destruct (Classical_Prop.classic (in_mark (corner_dot dot) (createPoints (CG rows cols s)) dot q)) as [Im|Im].
    - right. split; [ auto | tauto ].
    - destruct (Classical_Prop.classic (exists v, In v (createPoints (CG rows cols s)) /\ within (metre * dot / 2) (placed (corner_dot dot) v) q)) as [Id|Id].
      + left. split; [ auto | ]. split; [ right; exact Id | exact Im ].
      + specialize (K3 Im Id). destruct (covers_dec _ q) as [C|C].
        * left. split; [ exact K3 | ]. split; [ left; exact C | exact Im ].
        * right. split; [ exact K3 | ]. intros [[H|H] _]; [ exact (C H) | exact (Id H) ]. }
  destruct Key as [[K P]|[K P]].
  - split; split; auto. intros B. exfalso. exact (fg_bg i (shows_det _ _ _ _ K B)). tauto.
  - split; split; auto; [ | tauto ]. intros B. exfalso. exact (fg_bg i (shows_det _ _ _ _ B K)).
Qed.
