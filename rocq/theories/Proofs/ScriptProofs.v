(** The options of the script that prints targets. *)
From Coq Require Import Reals ZArith Bool Ascii String List Lra Lia.
From Verif.Base Require Import Geom.
From Verif.Model Require Import Targets TargetScript.
From Verif.Spec Require Import TargetSpec SheetSpec.
From Verif.Proofs Require Import LineTargetProofs SheetProofs SheetFitProofs.
Import ListNotations.
Local Open Scope string_scope.

Lemma chars_app a b : list_ascii_of_string (a ++ b) = (list_ascii_of_string a ++ list_ascii_of_string b)%list.
Proof. induction a as [|c a IH]; [ reflexivity | ]. cbn. rewrite IH. reflexivity. Qed.
Lemma last_none c s : after_last c s = None <-> lacks c s.
Proof.
  unfold lacks. induction s as [|a s IH]; cbn; [ tauto | ]. destruct (after_last c s) as [t|].
  - split; [ discriminate | ]. intros N. exfalso. apply N. right. apply Classical_Prop.NNPP. intros M. apply IH in M. discriminate M.
  - destruct (Ascii.eqb a c) eqn:E.
    + split; [ discriminate | ]. apply Ascii.eqb_eq in E. intros N. exfalso. apply N. left. exact E.
    + apply Ascii.eqb_neq in E. split; [ | reflexivity ]. intros _ [X|X]; [ exact (E X) | exact (proj1 IH eq_refl X) ].
Qed.
Lemma last_some c s t : after_last c s = Some t -> s = before_last c s ++ String c t /\ lacks c t.
Proof.
  revert t. induction s as [|a s IH]; cbn; intros t; [ discriminate | ]. destruct (after_last c s) as [t'|] eqn:E.
  - intros [= ->]. destruct (IH t eq_refl) as [I L]. split; [ cbn; congruence | exact L ].
  - destruct (Ascii.eqb a c) eqn:A; [ | discriminate ]. apply Ascii.eqb_eq in A. intros [= ->]. subst a. split; [ reflexivity | apply last_none, E ].
Qed.
Lemma last_join c b t : lacks c t -> after_last c (b ++ String c t) = Some t /\ before_last c (b ++ String c t) = b.
Proof.
  intros L. apply last_none in L. induction b as [|a b [I1 I2]]; cbn.
  - rewrite L, Ascii.eqb_refl. auto.
  - rewrite I1, I2. auto.
Qed.
Lemma dots_only s : only_dots s = false <-> exists a, In a (list_ascii_of_string s) /\ a <> "."%char.
Proof.
  induction s as [|c s IH]; cbn.
  - split; [ discriminate | intros (a & [] & _) ].
  - destruct (Ascii.eqb c "."%char) eqn:E; cbn.
    + apply Ascii.eqb_eq in E. rewrite IH. split; intros (a & H & N); exists a; [ auto | ]. destruct H as [H|H]; [ congruence | auto ].
    + apply Ascii.eqb_neq in E. split; [ intros _; exists c; auto | reflexivity ].
Qed.
Lemma lacks_app c a b : lacks c (a ++ b) <-> lacks c a /\ lacks c b.
Proof. unfold lacks. rewrite chars_app, in_app_iff. tauto. Qed.

Lemma extension_named f e : e <> EmptyString -> (extension f = e <-> named f e).
Proof.
  intros Ne. unfold extension. split.
  - set (name := match after_last "/" f with Some n => n | None => f end).
    assert (Nm : lacks "/" name /\ (f = name \/ exists dir, f = dir ++ String "/" name)).
    { unfold name. destruct (after_last "/" f) as [n|] eqn:E.
      - apply last_some in E as [E L]. split; [ exact L | right; eauto ].
      - split; [ apply last_none, E | auto ]. }
    destruct Nm as [L Ef]. destruct (after_last "." name) as [x|] eqn:E; [ | congruence ].
    destruct (only_dots (before_last "." name)) eqn:D; [ congruence | ]. intros ->.
    apply last_some in E as [E Le]. exists (before_last "." name).
    rewrite E in L. apply lacks_app in L as [Lb Lx]. change (String "." e) with ("." ++ e) in Lx. apply lacks_app in Lx as [_ Lx].
    split; [ | split; [ exact Lb | split; [ exact Lx | split; [ exact Le | apply dots_only, D ] ] ] ].
    destruct Ef as [Ef|[dir Ef]].
    + left. rewrite Ef at 1. exact E.
    + right. exists dir. rewrite Ef. cbn. do 2 f_equal. exact E.
  - intros (base & Ef & Lb & Le & Ld & Dots).
    assert (Ln : lacks "/" (base ++ "." ++ e)).
    { apply lacks_app. split; [ exact Lb | ]. apply lacks_app. split; [ | exact Le ]. intros [X|[]]. discriminate X. }
    assert (Nm : match after_last "/" f with Some n => n | None => f end = base ++ "." ++ e).
    { destruct Ef as [->|[dir ->]].
      - apply last_none in Ln. rewrite Ln. reflexivity.
      - destruct (last_join "/" dir (base ++ "." ++ e) Ln) as [J _]. cbn in J |- *. rewrite J. reflexivity. }
    rewrite Nm. destruct (last_join "." base e Ld) as [J1 J2]. cbn [append]. rewrite J1, J2.
    apply dots_only in Dots. rewrite Dots. reflexivity.
Qed.

Lemma written_files t o :
  (named (o_filename o) "pdf" <-> target_script t o = Pdf (target_of t o)) /\
  (forall e, (e = "png" \/ e = "jpg") -> (named (o_filename o) e <-> target_script t o = Picture e (IZR (o_dpi o) / 72) (o_dpi o) (target_of t o))) /\
  (target_script t o = NotImplemented <-> ~ named (o_filename o) "pdf" /\ ~ named (o_filename o) "png" /\ ~ named (o_filename o) "jpg").
Proof.
  rewrite <- !extension_named by discriminate. unfold target_script, save.
  destruct (String.eqb_spec (extension (o_filename o)) "pdf") as [E|E].
  - split; [ tauto | split; [ | split; [ discriminate | tauto ] ] ].
    intros e H. rewrite <- extension_named by (destruct H; subst; discriminate). rewrite E. split; [ destruct H; subst; discriminate | discriminate ].
  - split.
    { split; [ tauto | ]. destruct (_ || _); discriminate. }
    destruct (String.eqb_spec (extension (o_filename o)) "png") as [E1|E1]; cbn [orb].
    + split; [ | split; [ discriminate | tauto ] ]. intros e H. rewrite <- extension_named by (destruct H; subst; discriminate). rewrite E1.
      split; [ intros <-; reflexivity | congruence ].
    + destruct (String.eqb_spec (extension (o_filename o)) "jpg") as [E2|E2].
      * split; [ | split; [ discriminate | tauto ] ]. intros e H. rewrite <- extension_named by (destruct H; subst; discriminate). rewrite E2.
        split; [ intros <-; reflexivity | congruence ].
      * split; [ | tauto ]. intros e H. rewrite <- extension_named by (destruct H; subst; discriminate).
        split; [ intros <-; destruct H; contradiction | discriminate ].
Qed.

Lemma named_example : named "targets/a.b/dots.pdf" "pdf" /\ ~ named "dots.PDF" "pdf" /\ ~ named ".pdf" "pdf".
Proof.
  rewrite <- !extension_named by discriminate. split; [ reflexivity | split; discriminate ].
Qed.

Lemma inverted_by o : invert_of o = true <-> exists t, o_invert o = Some t /\ t <> EmptyString.
Proof.
  unfold invert_of. destruct (o_invert o) as [t|].
  - destruct (String.eqb_spec t EmptyString) as [->|N]; cbn.
    + split; [ discriminate | intros (u & [= <-] & N); contradiction ].
    + split; [ intros _; eauto | reflexivity ].
  - split; [ discriminate | intros (u & X & _); discriminate X ].
Qed.
Lemma colours_of o : (foreground (invert_of o) = White /\ background (invert_of o) = Black <-> exists t, o_invert o = Some t /\ t <> EmptyString) /\
  (foreground (invert_of o) = Black /\ background (invert_of o) = White <-> o_invert o = None \/ o_invert o = Some EmptyString).
Proof.
  rewrite <- inverted_by. split.
  - destruct (invert_of o); cbn; split; try discriminate; auto; intros [X _]; discriminate X.
  - unfold invert_of. destruct (o_invert o) as [[|a t]|]; cbn.
    + split; [ auto | intros _; auto ].
    + split; [ intros [X _]; discriminate X | intros [X|X]; discriminate X ].
    + split; auto.
Qed.

Local Open Scope R_scope.
(** Dots of 10 mm every 25 mm with --invert False *)
Definition invert_false : options := Options Dot 7 5 25 10 300 false "calibrationTarget.pdf" (Some "False"%string).
Lemma invert_false_asked : asks_dots invert_false 5 7 (25 / 1000) (1 / 100).
Proof. unfold asks_dots. cbn. repeat split; lra. Qed.
Lemma invert_false_inverts : exists o q q', o_invert o = Some "False"%string /\ asks_dots o 5 7 (25 / 1000) (1 / 100) /\
  forall t, on_page (target_of t o) q /\ in_dot (corner_dot (1 / 100)) (createPoints (CG 5 7 (25 / 1000))) (1 / 100) q /\
    shows (shapes (target_of t o)) q White /\
    on_page (target_of t o) q' /\ ~ in_dot (corner_dot (1 / 100)) (createPoints (CG 5 7 (25 / 1000))) (1 / 100) q' /\
    shows (shapes (target_of t o)) q' Black.
Proof.
  exists invert_false, (V2 (36 + metre * (1 / 100) + metre * (5 / 1000)) (36 + metre * (1 / 100))), (V2 0 0).
  split; [ reflexivity | split; [ exact invert_false_asked | ] ]. intros t.
  destruct (page_size t invert_false 5 7 _ _ invert_false_asked) as [W H]; [ lia | lia | ].
  change (INR (7 - 1)) with (INR 6) in W. change (INR (5 - 1)) with (INR 4) in H. cbn [INR] in W, H.
  assert (M : metre = 360000 / 127) by (unfold metre; field).
  assert (Fit : forall q, in_dot (corner_dot (1 / 100)) (createPoints (CG 5 7 (25 / 1000))) (1 / 100) q -> 36 <= px q).
  { intros q [Q|(v & Hv & Q)].
    - apply within_box in Q; [ | rewrite M; lra ]. unfold corner_dot in Q. cbn [px] in Q. lra.
    - apply within_box in Q; [ | rewrite M; lra ]. apply in_points in Hv as (r & c & _ & _ & ->). unfold corner_dot, placed, grid_point in Q. cbn [px vx cg_spacing] in Q.
      pose proof (pos_INR c). rewrite M in Q. lra. }
  assert (P1 : on_page (target_of t invert_false) (V2 (36 + metre * (1 / 100) + metre * (5 / 1000)) (36 + metre * (1 / 100)))).
  { unfold on_page. rewrite W, H. cbn [px py]. rewrite M. lra. }
  assert (P2 : on_page (target_of t invert_false) (V2 0 0)).
  { unfold on_page. rewrite W, H. cbn [px py]. rewrite M. lra. }
  assert (N : ~ in_dot (corner_dot (1 / 100)) (createPoints (CG 5 7 (25 / 1000))) (1 / 100) (V2 0 0)).
  { intros Q. apply Fit in Q. cbn in Q. lra. }
  assert (Y : in_dot (corner_dot (1 / 100)) (createPoints (CG 5 7 (25 / 1000))) (1 / 100) (V2 (36 + metre * (1 / 100) + metre * (5 / 1000)) (36 + metre * (1 / 100)))).
  { left. unfold within, corner_dot. cbn [px py]. rewrite M. lra. }
  split; [ exact P1 | split; [ exact Y | split; [ | split; [ exact P2 | split; [ exact N | ] ] ] ] ].
  - apply (dot_target_shows t invert_false 5 7 _ _ invert_false_asked ltac:(lra) ltac:(lra) _ P1). split; [ exact Y | ].
    intros (v & Hv & Q). apply within_box in Q as [Q _]; [ | rewrite M; lra ].
    apply in_points in Hv as (r & c & _ & _ & ->). unfold corner_dot, placed, grid_point in Q. cbn [px vx cg_spacing] in Q.
    destruct c as [|c]; [ change (INR 0) with 0 in Q | rewrite S_INR in Q; pose proof (pos_INR c) ]; rewrite M in Q; lra.
  - apply (dot_target_shows t invert_false 5 7 _ _ invert_false_asked ltac:(lra) ltac:(lra) _ P2). tauto.
Qed.
Lemma board_never_inverts o o' t q c : o_type o = Checker -> o_type o' = Checker -> o_grid_x o = o_grid_x o' -> o_grid_y o = o_grid_y o' ->
  o_spacing o = o_spacing o' -> (shows (shapes (target_of t o)) q c <-> shows (shapes (target_of t o')) q c).
Proof.
  intros T T' X Y S. unfold target_of. rewrite T, T', X, Y, S.
  destruct (o_footer o), (o_footer o'); rewrite ?footer_shows; reflexivity.
Qed.
Lemma inverted_target t o rows cols s dot : asks_dots o rows cols s dot -> 0 <= dot -> 53 / 100 * dot < s ->
  forall q, on_page (target_of t o) q ->
  let printed := in_dot (corner_dot dot) (createPoints (CG rows cols s)) dot q /\ ~ in_mark (corner_dot dot) (createPoints (CG rows cols s)) dot q in
  ((exists txt, o_invert o = Some txt /\ txt <> EmptyString) ->
     (shows (shapes (target_of t o)) q White <-> printed) /\ (shows (shapes (target_of t o)) q Black <-> ~ printed)) /\
  (o_invert o = None \/ o_invert o = Some EmptyString ->
     (shows (shapes (target_of t o)) q Black <-> printed) /\ (shows (shapes (target_of t o)) q White <-> ~ printed)).
Proof.
  intros A D S q P printed. destruct (dot_target_shows t o rows cols s dot A D S q P) as [F B]. split.
  - intros I. apply colours_of in I as [Ef Eb]. rewrite Ef in F. rewrite Eb in B. auto.
  - intros I. apply colours_of in I as [Ef Eb]. rewrite Ef in F. rewrite Eb in B. auto.
Qed.
