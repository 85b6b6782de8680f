(** The blocks of the texts that the tools write. *)
From Coq Require Import Reals ZArith Arith Lia Lra Ascii String List Sorted.
From Verif.Base Require Import Geom Outcome.
From Verif.Model Require Import Pose Covariance HandEye Pnp MultiCamera Intrinsic DataSet ExampleTools CameraTools NumberText DataSetText CovReport ParamText Print PrintText ToolText.
From Verif.Spec Require Import CovarianceSpec TextSpec ParamTextSpec YamlSpec PrintSpec ToolSpec PrintTextSpec ToolTextSpec.
From Verif.Proofs Require Import GeomLemmas CovarianceProofs TextProofs ParamTextProofs PrintTextProofs PrintTextCopies.
Import ListNotations.
Local Open Scope string_scope.

(** ** Pages *)
Lemma whole_app a b la lb : whole_lines a la -> whole_lines b lb -> whole_lines (a ++ b) (app la lb).
Proof. intros A B. unfold whole_lines. rewrite (lines_whole _ _ _ A), B, app_assoc. reflexivity. Qed.
Lemma consists_app p q la lb : consists p la -> consists q lb -> consists (app p q) (app la lb).
Proof. intros (x & A & ->) (y & B & ->). exists (app x y). split; [ apply Forall2_app; assumption | symmetry; apply concat_app ]. Qed.
Lemma page_nil : page_of "" [].
Proof. exists []. split; [ reflexivity | ]. exists []. split; [ constructor | reflexivity ]. Qed.
Lemma page_app a b p q : page_of a p -> page_of b q -> page_of (a ++ b) (app p q).
Proof. intros (la & A & C) (lb & B & D). exists (app la lb). split; [ apply whole_app; assumption | apply consists_app; assumption ]. Qed.
Lemma page_one a ls (b : block) : whole_lines a ls -> b ls -> page_of a [b].
Proof. intros A B. exists ls. split; [ exact A | ]. exists [ls]. split; [ constructor; [ exact B | constructor ] | cbn; symmetry; apply app_nil_r ]. Qed.
Lemma tokens_page t u p q : page_of (tokens_text t) p -> page_of (tokens_text u) q -> page_of (tokens_text (app t u)) (app p q).
Proof. rewrite tokens_app. apply page_app. Qed.
Lemma tokens_flat {A} (f : A -> list token) (g : A -> list block) l : (forall x, In x l -> page_of (tokens_text (f x)) (g x)) ->
  page_of (tokens_text (flat_map f l)) (flat_map g l).
Proof.
  induction l as [|x l IH]; intros H; [ exact page_nil | ]. cbn [flat_map]. apply tokens_page; [ apply H; left; reflexivity | apply IH; intros; apply H; right; assumption ].
Qed.
Lemma newline_page : page_of (tokens_text printNewLine) [blank_line].
Proof. apply (page_one _ [""]); reflexivity. Qed.
Lemma text_page s p : page_of s p -> page_of (tokens_text [Text s]) p.
Proof. unfold tokens_text. cbn. auto. Qed.

(** ** Blocks *)
Lemma transform_page T parent child text : ordinary_pose T -> one_line parent -> one_line child -> one_line text ->
  page_of (tokens_text (printTransform T parent child text)) [transform_block text parent child T].
Proof.
  intros H Hp Hc Ht. destruct (transform_text T parent child text H Hp Hc Ht) as (l1 & l2 & l3 & l4 & xyz & rpy & q & ro & pi & ya & qq & L & F).
  eapply page_one; [ unfold whole_lines; rewrite L; match goal with |- ?x = _ => change x with (app [nth 0 x ""; nth 1 x ""; nth 2 x ""; nth 3 x ""; nth 4 x ""; nth 5 x ""; nth 6 x ""; nth 7 x ""; nth 8 x ""; nth 9 x ""] [""]) end; reflexivity | ].
  cbn [nth]. exists l1, l2, l3, l4, xyz, rpy, q, ro, pi, ya, qq. split; [ reflexivity | exact F ].
Qed.
Lemma difference_page T1 T2 parent child text : ordinary_pose T1 -> ordinary_pose T2 -> one_line parent -> one_line child -> one_line text ->
  page_of (tokens_text (printTransformDiff T1 T2 parent child text)) [difference_block text parent child T1 T2].
Proof.
  intros H1 H2 Hp Hc Ht. destruct (diff_text T1 T2 parent child text H1 H2 Hp Hc Ht) as (D & angle & ro & pi & ya & l1 & l2 & l3 & l4 & s & a & x1 & x2 & rpy & E1 & E2 & E3 & L & F).
  eapply page_one; [ unfold whole_lines; rewrite L; match goal with |- ?x = _ => change x with (app [nth 0 x ""; nth 1 x ""; nth 2 x ""; nth 3 x ""; nth 4 x ""; nth 5 x ""; nth 6 x ""; nth 7 x ""; nth 8 x ""; nth 9 x ""; nth 10 x ""; nth 11 x ""; nth 12 x ""] [""]) end; reflexivity | ].
  cbn [nth]. exists D, angle, ro, pi, ya, l1, l2, l3, l4, s, a, x1, x2, rpy. split; [ exact E1 | split; [ exact E2 | split; [ exact E3 | split; [ reflexivity | exact F ] ] ] ].
Qed.
Lemma results_page converged a b : ordinary_cost a -> ordinary_cost b -> page_of (tokens_text (printOptResults converged a b)) [results_block converged a b].
Proof.
  intros Ha Hb. destruct (results_shown converged a b Ha Hb) as (x & y & c & d & L & F).
  apply (page_one _ ["Did converge?: " ++ (if converged then "1" else "0"); "Initial cost?: " ++ x ++ " (pixels per dot)"; "Final cost?: " ++ y ++ " (pixels per dot)"]).
  - exact L.
  - exists x, y, c, d. split; [ reflexivity | exact F ].
Qed.
Lemma stars_only_stars n : stars_only (stars n).
Proof. induction n; cbn; auto. Qed.
Lemma stars_length n : String.length (stars n) = n.
Proof. induction n; cbn; auto. Qed.
Lemma stars_line n : one_line (stars n).
Proof. induction n; cbn; [ exact I | ]. split; [ discriminate | split; [ discriminate | assumption ] ]. Qed.
Lemma title_page t : one_line t -> page_of (tokens_text (printTitle80 t)) [title_block t].
Proof.
  intros Ht. unfold printTitle80, printTitle. set (n := Z.of_nat (String.length t)). cbv zeta.
  set (len := (if Z.ltb (n + 8) 80 then 80 else n + 8)%Z). assert (Len : (n + 8 <= len)%Z) by (unfold len; destruct (Z.ltb_spec (n + 8) 80); lia).
  pose proof (Zdiv.Z_div_mod_eq_full (len - n) 2) as D. pose proof (Z.mod_pos_bound (len - n) 2 ltac:(lia)) as B.
  set (delta := ((len - n) / 2)%Z) in *.
  assert (G : exists full mid, (if (delta + delta + n =? len)%Z then (stars (Z.to_nat len), stars (Z.to_nat (delta - 1))) else (stars (Z.to_nat (len + 1)), stars (Z.to_nat delta))) = (stars full, stars mid)
              /\ mid <> 0%nat /\ full = (mid + (1 + (String.length t + (1 + mid))))%nat).
  { destruct (Z.eqb_spec (delta + delta + n) len) as [E|E]; do 2 eexists; (split; [ reflexivity | ]); split; lia. }
  destruct G as (full & mid & -> & Nm & E). cbn [flat_map app].
  change (page_of (tokens_text (app [Text (stars full)] (Endl :: app [Text (stars mid ++ " " ++ t ++ " " ++ stars mid)] (Endl :: app [Text (stars full)] (Endl :: []))))) [title_block t]).
  assert (Lm : one_line (stars mid ++ " " ++ t ++ " " ++ stars mid)).
  { repeat (apply one_line_app; [ first [ apply stars_line | exact Ht | cbn; repeat split; discriminate ] | ]). apply stars_line. }
  apply (page_one _ [stars full; stars mid ++ " " ++ t ++ " " ++ stars mid; stars full]).
  - unfold whole_lines. rewrite !lines_tokens by (constructor; [ first [ apply stars_line | exact Lm ] | constructor ]).
    unfold tokens_text. cbn [map String.concat token_text lines_of]. reflexivity.
  - exists (stars full), (stars mid). split; [ reflexivity | ]. split; [ apply stars_only_stars | split; [ apply stars_only_stars | split ] ].
    + intros H. apply (f_equal String.length) in H. rewrite stars_length in H. cbn in H. lia.
    + rewrite !length_append, !stars_length. cbn [String.length]. exact E.
Qed.
Lemma tab_text : tab = String tab_char "". Proof. reflexivity. Qed.
Lemma errors_page nan e : one_line nan -> ordinary_errors e -> page_of (tokens_text (errors_tokens nan e)) [errors_block nan e].
Proof.
  intros Hn (A & B & C & D). set (s := token_text (number_or_nan nan (err_stdev e))).
  assert (Ls : line_token (number_or_nan nan (err_stdev e))) by (unfold number_or_nan; destruct (err_stdev e); [ exact I | exact Hn ]).
  apply (page_one _ ["3D reprojection error statistics:"; String tab_char ("Mean +/- Std. Dev. (m): " ++ stream6 (err_mean e) ++ " +/- " ++ s);
          String tab_char ("Min (m): " ++ stream6 (err_min e)); String tab_char ("Max (m): " ++ stream6 (err_max e))]).
  - unfold whole_lines. change (errors_tokens nan e) with
      (app [Text "3D reprojection error statistics:"] (Endl :: app [Text tab; Text "Mean +/- Std. Dev. (m): "; Number (err_mean e); Text " +/- "; number_or_nan nan (err_stdev e)]
       (Endl :: app [Text tab; Text "Min (m): "; Number (err_min e)] (Endl :: app [Text tab; Text "Max (m): "; Number (err_max e)] (Endl :: []))))).
    rewrite !lines_tokens by (repeat constructor; try discriminate; exact Ls).
    rewrite !tokens_cons. fold s. cbn [token_text tokens_text map String.concat lines_of]. rewrite !append_nil. reflexivity.
  - exists (stream6 (err_mean e)), s, (stream6 (err_min e)), (stream6 (err_max e)). split; [ reflexivity | ].
    split; [ apply stream_shows, A | ]. split; [ | split; [ apply stream_shows, C | apply stream_shows, D ] ].
    unfold s, number_or_nan. destruct (err_stdev e); [ apply stream_shows, B | reflexivity ].
Qed.
Lemma differences_page d : ordinary_differences d -> page_of (tokens_text (differences_tokens d)) [differences_block d].
Proof.
  intros (A & B & C & D).
  apply (page_one _ ["Difference in camera to target transform between extrinsic calibration and PnP optimization"; "Position:";
          String tab_char ("Mean (m): " ++ stream6 (pos_mean d)); String tab_char ("Std. Dev. (m): " ++ stream6 (pos_stdev d)); "Orientation:";
          String tab_char ("Mean (deg): " ++ stream6 (ori_mean_deg d)); String tab_char ("Std. Dev. (deg): " ++ stream6 (ori_stdev_deg d))]).
  - unfold whole_lines. change (differences_tokens d) with
      (app [Text "Difference in camera to target transform between extrinsic calibration and PnP optimization"] (Endl :: app [Text "Position:"] (Endl ::
       app [Text tab; Text "Mean (m): "; Number (pos_mean d)] (Endl :: app [Text tab; Text "Std. Dev. (m): "; Number (pos_stdev d)] (Endl ::
       app [Text "Orientation:"] (Endl :: app [Text tab; Text "Mean (deg): "; Number (ori_mean_deg d)] (Endl ::
       app [Text tab; Text "Std. Dev. (deg): "; Number (ori_stdev_deg d)] (Endl :: [])))))))).
    rewrite !lines_tokens by (repeat constructor; try discriminate).
    rewrite !tokens_cons. cbn [token_text tokens_text map String.concat lines_of]. rewrite !append_nil. reflexivity.
  - exists (stream6 (pos_mean d)), (stream6 (pos_stdev d)), (stream6 (ori_mean_deg d)), (stream6 (ori_stdev_deg d)). split; [ reflexivity | ].
    split; [ apply stream_shows, A | split; [ apply stream_shows, B | split; [ apply stream_shows, C | apply stream_shows, D ] ] ].
Qed.
Lemma correlations_page ts std_sort r : (forall x, one_line (ts x)) -> sort_contract std_sort -> Forall plain_names (correlation_coeffs r) ->
  page_of (tokens_text (correlation_tokens ts std_sort r)) [correlations_block (ts (5 / 10)%R) r].
Proof.
  intros Ht Hs Hp. destruct (warning_text stream6 ts std_sort (streamed_line 6) Ht r (5 / 10)%R Hs Hp) as (sel & A & _ & S & W).
  assert (E : forall l, tokens_text [Text l; Endl] = l ++ newline) by (intros; rewrite !tokens_cons; reflexivity).
  unfold correlation_tokens. rewrite E.
  apply (page_one _ (app (warning_lines stream6 ts (5 / 10)%R sel) [""])); [ apply whole_app; [ exact W | reflexivity ] | ].
  exists sel. split; [ intros c; rewrite (A c); replace (5 / 10)%R with (1 / 2)%R by lra; reflexivity | split; [ exact S | ] ].
  destruct sel as [|c0 sel]; [ reflexivity | ]. exists (map (fun c => stream6 (np_value c)) (c0 :: sel)). split; [ | split; [ apply map_length | ] ].
  - unfold warning_lines. rewrite <- app_assoc. do 2 f_equal. clear. generalize (c0 :: sel). intros l. induction l as [|c l IH]; [ reflexivity | ].
    cbn [map combine]. f_equal. exact IH.
  - intros c t Hc B. assert (t = stream6 (np_value c)) as ->; [ | apply stream_shows, B ]. clear -Hc. revert Hc. generalize (c0 :: sel). intros l.
    induction l as [|x l IH]; [ intros [] | ]. intros [E|H]; [ injection E as <- <-; reflexivity | exact (IH H) ].
Qed.

Lemma field_line n r : one_line n -> one_line (n ++ stream6 r).
Proof. intros H. apply one_line_app; [ exact H | apply streamed_line ]. Qed.
Lemma field_split n r s : lacks tab_char n -> split tab_char (n ++ stream6 r ++ tab ++ s) = (n ++ stream6 r) :: split tab_char s.
Proof. intros Hn. change (tab ++ s) with (String tab_char s). rewrite <- append_assoc. apply split_app, lacks_app; [ exact Hn | apply tab_lacks ]. Qed.
Lemma field_last n r : lacks tab_char n -> split tab_char (n ++ stream6 r) = [n ++ stream6 r].
Proof. intros Hn. apply split_lacks, lacks_app; [ exact Hn | apply tab_lacks ]. Qed.
Ltac plain := cbn; repeat split; discriminate.
Lemma camera_page k title : one_line title -> Forall ordinary_number [fx k; fy k; cx k; cy k] -> page_of (printCameraIntrinsics stream6 k title) [camera_block title k].
Proof.
  intros Ht F. inversion_clear F as [|? ? F1 F']. inversion_clear F' as [|? ? F2 F'']. inversion_clear F'' as [|? ? F3 F3']. inversion_clear F3' as [|? ? F4 _].
  apply (page_one _ [title ++ ":"; "Intr:"; "fx = " ++ stream6 (fx k) ++ tab ++ "fy = " ++ stream6 (fy k); "cx = " ++ stream6 (cx k) ++ tab ++ "cy = " ++ stream6 (cy k)]).
  - unfold whole_lines, printCameraIntrinsics, getStringIntrinsics.
    transitivity (lines_of ((title ++ ":") ++ newline ++ "Intr:" ++ newline ++ ("fx = " ++ stream6 (fx k) ++ tab ++ "fy = " ++ stream6 (fy k)) ++ newline ++
        ("cx = " ++ stream6 (cx k) ++ tab ++ "cy = " ++ stream6 (cy k)) ++ newline ++ "")).
    { f_equal. rewrite !append_assoc. reflexivity. }
    rewrite lines_line by (apply one_line_app; [ exact Ht | plain ]). rewrite lines_line by plain.
    rewrite !lines_line by (repeat (apply one_line_app; [ first [ plain | apply streamed_line ] | ]); apply streamed_line). reflexivity.
  - do 2 eexists. exists (stream6 (fx k)), (stream6 (fy k)), (stream6 (cx k)), (stream6 (cy k)). split; [ reflexivity | ].
    split; [ rewrite !field_split by plain; rewrite !field_last by plain; reflexivity | ].
    split; [ apply stream_shows, F1 | split; [ apply stream_shows, F2 | split; [ apply stream_shows, F3 | apply stream_shows, F4 ] ] ].
Qed.
Lemma lens_page k1 k2 p1 p2 k3 title : one_line title -> Forall ordinary_number [k1; k2; p1; p2; k3] -> page_of (printCameraDistortion stream6 k1 k2 p1 p2 k3 title) [lens_block title k1 k2 p1 p2 k3].
Proof.
  intros Ht F. inversion_clear F as [|? ? F1 F']. inversion_clear F' as [|? ? F2 F'']. inversion_clear F'' as [|? ? F3 F3']. inversion_clear F3' as [|? ? F4 F4']. inversion_clear F4' as [|? ? F5 _].
  set (l := "k1 = " ++ stream6 k1 ++ tab ++ "k2 = " ++ stream6 k2 ++ tab ++ "p1 = " ++ stream6 p1 ++ tab ++ "p2 = " ++ stream6 p2 ++ tab ++ "k3 = " ++ stream6 k3).
  apply (page_one _ [title ++ ":"; "Distortions:"; l]).
  - unfold whole_lines, printCameraDistortion, getStringDistortion.
    transitivity (lines_of ((title ++ ":") ++ newline ++ "Distortions:" ++ newline ++ l ++ newline ++ "")).
    { f_equal. unfold l. rewrite !append_assoc. reflexivity. }
    rewrite lines_line by (apply one_line_app; [ exact Ht | plain ]). rewrite lines_line by plain.
    rewrite lines_line by (unfold l; repeat (apply one_line_app; [ first [ plain | apply streamed_line ] | ]); apply streamed_line). reflexivity.
  - exists l, (stream6 k1), (stream6 k2), (stream6 p1), (stream6 p2), (stream6 k3). split; [ reflexivity | ].
    split; [ unfold l; rewrite !field_split by plain; rewrite field_last by plain; reflexivity | ].
    split; [ apply stream_shows, F1 | split; [ apply stream_shows, F2 | split; [ apply stream_shows, F3 | split; [ apply stream_shows, F4 | apply stream_shows, F5 ] ] ] ].
Qed.

(** ** Numbers in names *)
Lemma uint_line d : one_line (DecimalString.NilEmpty.string_of_uint d).
Proof. induction d; cbn; try exact I; (split; [ discriminate | split; [ discriminate | assumption ] ]). Qed.
Lemma to_string_line n : one_line (to_string n).
Proof. apply uint_line. Qed.
Lemma camera_name_line n : one_line (camera_name n).
Proof. apply one_line_app; [ plain | apply to_string_line ]. Qed.
