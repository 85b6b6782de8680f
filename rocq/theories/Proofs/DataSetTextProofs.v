(** Saving data sets, character by character. *)
From Coq Require Import Reals ZArith Lra Lia String Ascii List Bool DecimalString.
From Flocq Require Import Core BinarySingleNaN.
From Verif.Base Require Import Float Geom Outcome.
From Verif.Model Require Import Yaml Serialization Loaders DataSet NumberText PoseText DataSetText.
From Verif.Spec Require Import YamlSpec DataSetSpec PoseTextSpec DataSetTextSpec.
From Verif.Proofs Require Import RotLemmas YamlProofs LoaderProofs DataSetProofs InterruptProofs FloatLemmas NumberTextProofs PoseTextProofs.
Import ListNotations.
Local Open Scope string_scope.

(** ** Numbers *)
Lemma to_double_ok r : (Rabs r <= bpow radix2 1000)%R -> dfin (to_double r) = true /\ dval (to_double r) = rnd r.
Proof.
  intros B. unfold to_double, dnum, dfin, dval.
  pose proof (@binary_normalize_correct 53 1024 prec64 emax64 mode_NE (ZnearestE (scaled_mantissa radix2 (FLT_exp (-1074) 53) r))
    (cexp radix2 (FLT_exp (-1074) 53) r) false) as H. cbv zeta in H.
  change (F2R _) with (rnd r) in H.
  assert (G : rnd (rnd r) = rnd r).
  { apply round_generic; [ typeclasses eauto | ]. apply generic_format_round; typeclasses eauto. }
  assert (S : Rlt_bool (Rabs (rnd (rnd r))) (bpow radix2 1024) = true).
  { apply (rnd_small _ 1000); [ lia | ]. apply rnd_abs; [ lia | exact B ]. }
  unfold rnd at 1 in S. change ZnearestE with (round_mode mode_NE) in S. rewrite S in H. destruct H as (H1 & H2 & _).
  split; [ exact H2 | ]. etransitivity; [ exact H1 | exact G ].
Qed.
Lemma unit_parts q : qnorm2 q = 1%R -> (Rabs (qw q) <= 1 /\ Rabs (qx q) <= 1 /\ Rabs (qy q) <= 1 /\ Rabs (qz q) <= 1)%R.
Proof.
  destruct q as [w x y z]. unfold qnorm2. cbn. intros H.
  assert (A : forall a, (a * a <= 1 -> Rabs a <= 1)%R) by (intros a Ha; apply Rabs_le; nra).
  repeat split; apply A; nra.
Qed.
Lemma two_1000 : (2 ^ 1000 = bpow radix2 1000)%R.
Proof. rewrite bpow_powerRZ. change (IZR radix2) with 2%R. rewrite pow_powerRZ. f_equal. Qed.
Lemma one_1000 a : (Rabs a <= 1 -> Rabs a <= bpow radix2 1000)%R.
Proof. intros H. eapply Rle_trans; [ exact H | ]. change 1%R with (bpow radix2 0). apply bpow_le. lia. Qed.
Lemma numbers_finite T : moderate_pose T -> finite_numbers (numbers_of T).
Proof.
  intros (H & H1 & H2 & H3). rewrite two_1000 in *. destruct (unit_parts _ (quat_of_mat_unit _ H)) as (U1 & U2 & U3 & U4).
  unfold finite_numbers, numbers_of. cbn [n_x n_y n_z n_qw n_qx n_qy n_qz].
  repeat split; apply to_double_ok; try assumption; apply one_1000; assumption.
Qed.

(** ** Pose files *)
Lemma scalar_text_ok p r t : number_text p (to_double r) = Some t -> scalar p (YReal r) = t.
Proof. intros H. unfold scalar. rewrite H. reflexivity. Qed.
Lemma pose_emitted p T t : pose_text p (numbers_of T) = Some t -> emit_text p (encode_iso T) = t.
Proof.
  intros H. destruct (pose_texts _ _ _ H) as (t1 & t2 & t3 & t4 & t5 & t6 & t7 & E1 & E2 & E3 & E4 & E5 & E6 & E7 & ->).
  unfold emit_text, encode_iso, map_entries. cbn [map fst snd]. unfold numbers_of in *. cbn [n_x n_y n_z n_qw n_qx n_qy n_qz] in *.
  rewrite (scalar_text_ok _ _ _ E1), (scalar_text_ok _ _ _ E2), (scalar_text_ok _ _ _ E3), (scalar_text_ok _ _ _ E4),
    (scalar_text_ok _ _ _ E5), (scalar_text_ok _ _ _ E6), (scalar_text_ok _ _ _ E7). reflexivity.
Qed.
(** A pose file, or what is left of it, is no list. *)
Lemma pose_document p c t left missing : pose_text p c = Some t -> t = (left ++ missing)%string -> load_document left = load_flat left.
Proof.
  intros H E. destruct (pose_texts _ _ _ H) as (t1 & t2 & t3 & t4 & t5 & t6 & t7 & _ & _ & _ & _ & _ & _ & _ & ->).
  destruct left as [|ch left]; [ reflexivity | ]. cbn in E. injection E as <- _. reflexivity.
Qed.

(** ** The index *)
Definition item_of (e : string * string) : list (string * string) := [("pose", fst e); ("image", snd e)].
Definition good_names (e : string * string) : Prop := one_line (fst e) /\ one_line (snd e).
Definition dash_line (e : string * string) : string := "- " ++ entry_line ("pose", fst e).
Definition image_line (e : string * string) : string := "  " ++ entry_line ("image", snd e).
Lemma item_lines e : item_text (item_of e) = dash_line e ++ String newline (image_line e).
Proof.
  unfold item_text, item_of, dash_line, image_line. cbn [more_lines]. rewrite sapp_nil, sapp_assoc. reflexivity.
Qed.
Lemma pose_entry_good e : good_names e -> good_entry ("pose", fst e).
Proof. intros [H _]. split; [ cbn; repeat split | split; [ cbn; repeat split | split; [ exact H | discriminate ] ] ]. Qed.
Lemma image_entry_good e : good_names e -> good_entry ("image", snd e).
Proof. intros [_ H]. split; [ cbn; repeat split | split; [ cbn; repeat split | split; [ exact H | discriminate ] ] ]. Qed.
Lemma dash_one_line e : good_names e -> one_line (dash_line e).
Proof. intros G. unfold dash_line. apply one_line_app. split; [ cbn; repeat split | apply entry_one_line, pose_entry_good, G ]. Qed.
Lemma image_one_line e : good_names e -> one_line (image_line e).
Proof. intros G. unfold image_line. apply one_line_app. split; [ cbn; repeat split | apply entry_one_line, image_entry_good, G ]. Qed.
Lemma list_dash e r : good_names e -> list_lines (dash_line e :: r) =
  match list_lines r with Some (open, closed) => Some ([], (("pose", fst e) :: open) :: closed) | None => None end.
Proof.
  intros G. cbn [list_lines]. destruct (list_lines r) as [[open closed]|]; [ | reflexivity ].
  unfold dash_line. change ("- " ++ entry_line ("pose", fst e)) with (String "-" (String " " (entry_line ("pose", fst e)))).
  change (blank (String "-" _)) with false. cbv iota. change (("-" =? "-")%char) with true. cbv iota.
  change (blank (String " " (entry_line ("pose", fst e)))) with false. cbv iota. change ((" " =? " ")%char) with true. cbv iota.
  rewrite (entry_value _ (pose_entry_good e G)). reflexivity.
Qed.
Lemma list_image e r : good_names e -> list_lines (image_line e :: r) =
  match list_lines r with Some (open, closed) => Some (("image", snd e) :: open, closed) | None => None end.
Proof.
  intros G. cbn [list_lines]. destruct (list_lines r) as [[open closed]|]; [ | reflexivity ].
  unfold image_line. change ("  " ++ entry_line ("image", snd e)) with (String " " (String " " (entry_line ("image", snd e)))).
  change (blank (String " " (String " " (entry_line ("image", snd e))))) with false. cbv iota. change ((" " =? "-")%char) with false. cbv iota.
  change ((" " =? " ")%char) with true. cbv iota. rewrite (entry_value _ (image_entry_good e G)). reflexivity.
Qed.
(** An item and what follows *)
Lemma item_then e t : good_names e -> list_lines (lines (item_text (item_of e) ++ String newline t)) =
  match list_lines (lines t) with Some (open, closed) => Some ([], (item_of e ++ open)%list :: closed) | None => None end.
Proof.
  intros G. rewrite item_lines, sapp_assoc.
  change (String newline (image_line e) ++ String newline t) with (String newline (image_line e ++ String newline t)).
  rewrite lines_more by (apply dash_one_line, G). rewrite lines_more by (apply image_one_line, G).
  rewrite list_dash by exact G. rewrite list_image by exact G. destruct (list_lines (lines t)) as [[open closed]|]; reflexivity.
Qed.
(** What can be left of an item *)
Definition unfinished (it : list (string * string)) (e : string * string) : Prop :=
  it = [] \/ (exists v, it = [("pose", v)]) \/ exists v y, it = [("pose", fst e); ("image", v)] /\ snd e = (v ++ y)%string /\ y <> "".
Lemma blank_pose l x : entry_line ("pose", x) = l -> forall s y, l = (s ++ y)%string -> s <> "" -> exists s', s = String "p" s'.
Proof. intros <- s y E N. destruct s as [|c s]; [ congruence | ]. cbn in E. injection E as <- _. eauto. Qed.
Lemma cut_item e t r : good_names e -> item_text (item_of e) = (t ++ r)%string ->
  list_lines (lines t) = None \/ list_lines (lines t) = Some ([], []) \/ list_lines (lines t) = Some ([], [item_of e]) \/
  exists it, list_lines (lines t) = Some ([], [it]) /\ unfinished it e.
Proof.
  intros G E. rewrite item_lines in E. symmetry in E.
  assert (W : list_lines (lines (dash_line e)) = Some ([], [[("pose", fst e)]])).
  { rewrite lines_one by (apply dash_one_line, G). rewrite list_dash by exact G. reflexivity. }
  destruct (cut_split _ _ _ _ E) as [(x & Ex & Er)|(x & Ex & Er)].
  - (* within the first line *)
    assert (O : one_line t) by (pose proof (dash_one_line e G) as H; rewrite Ex in H; apply one_line_app in H; apply H).
    rewrite lines_one by exact O. unfold dash_line in Ex.
    destruct t as [|c1 t]; [ right; left; reflexivity | ]. cbn in Ex. injection Ex as <- Ex.
    destruct t as [|c2 t]; [ right; right; right; exists []; split; [ reflexivity | left; reflexivity ] | ]. cbn in Ex. injection Ex as <- Ex.
    assert (Ol : one_line t) by (destruct O as (_ & _ & O); exact O).
    destruct (cut_line ("pose", fst e) t x (pose_entry_good e G) Ex) as [->|[(N & _ & Kv)|(N & _ & v & y & Ev & Kv & _)]].
    + right. right. right. exists []. split; [ reflexivity | left; reflexivity ].
    + left. destruct (blank_pose _ (fst e) Ex t x eq_refl N) as [s' ->].
      change (list_lines [String "-" (String " " (String "p" s'))]) with
        (match key_value (String "p" s') with Some e => Some ([] : list (string * string), [[e]]) | None => None end). rewrite Kv. reflexivity.
    + right. right. right. exists [("pose", v)]. split; [ | right; left; exists v; reflexivity ].
      destruct (blank_pose _ (fst e) Ex t x eq_refl N) as [s' ->].
      change (list_lines [String "-" (String " " (String "p" s'))]) with
        (match key_value (String "p" s') with Some e => Some ([] : list (string * string), [[e]]) | None => None end). rewrite Kv. reflexivity.
  - destruct x as [|c x].
    + rewrite sapp_nil in Ex. subst t. rewrite W. right. right. right. exists [("pose", fst e)]. split; [ reflexivity | right; left; eexists; reflexivity ].
    + assert (Ec : c = newline) by (cbn in Er; injection Er as H _; symmetry; exact H).
      assert (Er' : image_line e = (x ++ r)%string) by (cbn in Er; injection Er as _ H; exact H). subst c t. clear Er.
      rewrite lines_more by (apply dash_one_line, G). rewrite list_dash by exact G.
      assert (O : one_line x) by (pose proof (image_one_line e G) as H; rewrite Er' in H; apply one_line_app in H; apply H).
      rewrite lines_one by exact O.
      assert (B : list_lines [x] = Some ([], []) -> exists it, match list_lines [x] with
         | Some (open, closed) => Some ([] : list (string * string), (("pose", fst e) :: open) :: closed) | None => None end = Some ([], [it]) /\ unfinished it e).
      { intros ->. exists [("pose", fst e)]. split; [ reflexivity | right; left; eexists; reflexivity ]. }
      unfold image_line in Er'.
      destruct x as [|c1 x]; [ right; right; right; apply B; reflexivity | ]. cbn in Er'. injection Er' as <- Er'.
      destruct x as [|c2 x]; [ right; right; right; apply B; reflexivity | ]. cbn in Er'. injection Er' as <- Er'.
      destruct (cut_line ("image", snd e) x r (image_entry_good e G) Er') as [->|[(N & _ & Kv)|(N & _ & v & y & Ev & Kv & _)]].
      * right. right. right. apply B. reflexivity.
      * left. destruct x as [|c x]; [ congruence | ]. assert (c = "i"%char) by (cbn in Er'; injection Er' as <- _; reflexivity). subst c.
        change (list_lines [String " " (String " " (String "i" x))]) with
          (match key_value (String "i" x) with Some e => Some ([e], [] : list (list (string * string))) | None => None end). rewrite Kv. reflexivity.
      * destruct x as [|c x]; [ congruence | ]. assert (c = "i"%char) by (cbn in Er'; injection Er' as <- _; reflexivity). subst c.
        change (list_lines [String " " (String " " (String "i" x))]) with
          (match key_value (String "i" x) with Some e => Some ([e], [] : list (list (string * string))) | None => None end). rewrite Kv.
        cbn [fst snd] in *. destruct y as [|cy y].
        -- right. right. left. rewrite sapp_nil in Ev. subst v. reflexivity.
        -- right. right. right. exists [("pose", fst e); ("image", v)]. split; [ reflexivity | ]. right. right. exists v, (String cy y).
           split; [ reflexivity | split; [ exact Ev | discriminate ] ].
Qed.
Lemma cut_items es : Forall good_names es -> forall t r, items_text (map item_of es) = (t ++ r)%string ->
  list_lines (lines t) = None \/
  (exists k, (k <= List.length es)%nat /\ list_lines (lines t) = Some ([], map item_of (firstn k es))) \/
  exists k e it, nth_error es k = Some e /\ list_lines (lines t) = Some ([], map item_of (firstn k es) ++ [it])%list /\ unfinished it e.
Proof.
  intros F. induction F as [|e es G F IH]; intros t r E.
  - right. left. exists 0%nat. split; [ cbn; lia | ]. destruct t; [ reflexivity | discriminate ].
  - assert (C : forall x, item_text (item_of e) = (t ++ x)%string ->
      list_lines (lines t) = None \/
      (exists k, (k <= List.length (e :: es))%nat /\ list_lines (lines t) = Some ([], map item_of (firstn k (e :: es)))) \/
      exists k e0 it, nth_error (e :: es) k = Some e0 /\ list_lines (lines t) = Some ([], map item_of (firstn k (e :: es)) ++ [it])%list /\ unfinished it e0).
    { intros x Ex. destruct (cut_item e t x G Ex) as [H|[H|[H|(it & H & U)]]].
      - left. exact H.
      - right. left. exists 0%nat. split; [ lia | exact H ].
      - right. left. exists 1%nat. split; [ cbn; lia | exact H ].
      - right. right. exists 0%nat, e, it. split; [ reflexivity | split; [ exact H | exact U ] ]. }
    destruct es as [|e2 es].
    + cbn [map items_text] in E. apply (C r E).
    + change (items_text (map item_of (e :: e2 :: es))) with (item_text (item_of e) ++ String newline (items_text (map item_of (e2 :: es)))) in E.
      symmetry in E. destruct (cut_split _ _ _ _ E) as [(x & Ex & Er)|(x & Ex & Er)]; [ apply (C x Ex) | ].
      destruct x as [|c x]; [ apply (C ""); rewrite Ex, !sapp_nil; reflexivity | ].
      assert (Ec : c = newline) by (cbn in Er; injection Er as H _; symmetry; exact H).
      assert (Er' : items_text (map item_of (e2 :: es)) = (x ++ r)%string) by (cbn in Er; injection Er as _ H; exact H). subst c t. clear Er C.
      rewrite item_then by exact G. destruct (IH x r Er') as [H|[(k & Hk & H)|(k & e0 & it & Hk & H & U)]]; rewrite H.
      * left. reflexivity.
      * right. left. exists (S k). split; [ cbn in *; lia | reflexivity ].
      * right. right. exists (S k), e0, it. split; [ exact Hk | split; [ reflexivity | exact U ] ].
Qed.

(** Names in the index *)
Lemma to_string_digits n : forall c, In c (list_ascii_of_string (to_string n)) -> (c =? newline)%char = false /\ (c =? ".")%char = false.
Proof.
  unfold to_string. generalize (Nat.to_uint n). intros d. induction d; cbn [NilEmpty.string_of_uint list_ascii_of_string]; intros c H;
    [ destruct H | destruct H as [<-|H]; [ split; reflexivity | apply (IHd c H) ].. ].
Qed.
Lemma one_line_chars t : (forall c, In c (list_ascii_of_string t) -> (c =? newline)%char = false) -> one_line t.
Proof.
  induction t as [|c t IH]; intros H; [ exact I | ]. split; [ apply H; left; reflexivity | apply IH; intros d Hd; apply H; right; exact Hd ].
Qed.
Lemma to_string_one_line n : one_line (to_string n).
Proof. apply one_line_chars. intros c H. apply (to_string_digits n c H). Qed.
Lemma names_good n : good_names (pose_name n, image_name n).
Proof.
  unfold good_names, pose_name, image_name. cbn [fst snd]. split; (apply one_line_app; split; [ cbn; repeat split | ]);
    (apply one_line_app; split; [ apply to_string_one_line | cbn; repeat split ]).
Qed.
(** A cut name is no name. *)
Fixpoint no_dot (s : string) : Prop := match s with EmptyString => True | String c r => (c =? ".")%char = false /\ no_dot r end.
Lemma no_dot_chars t : (forall c, In c (list_ascii_of_string t) -> (c =? ".")%char = false) -> no_dot t.
Proof.
  induction t as [|c t IH]; intros H; [ exact I | ]. split; [ apply H; left; reflexivity | apply IH; intros d Hd; apply H; right; exact Hd ].
Qed.
Lemma to_string_no_dot n : no_dot (to_string n).
Proof. apply no_dot_chars. intros c H. apply (to_string_digits n c H). Qed.
Lemma same_before_dot a : forall b x y, no_dot a -> no_dot b -> (a ++ String "." x = b ++ String "." y)%string -> x = y.
Proof.
  induction a as [|c a IH]; intros [|d b] x y Na Nb E; cbn in E.
  - injection E as E. exact E.
  - injection E as <- _. destruct Nb as [Nb _]. discriminate.
  - injection E as -> _. destruct Na as [Na _]. discriminate.
  - injection E as -> E. apply (IH b x y); [ apply Na | apply Nb | exact E ].
Qed.
Lemma cut_name_other n m name : cut_of name (image_name n) -> name <> image_name m.
Proof.
  intros (rest & E & N) ->. unfold image_name in E. rewrite !sapp_assoc in E. apply app_cancel_l in E.
  apply same_before_dot in E; [ | apply to_string_no_dot | apply to_string_no_dot ]. cbn in E. injection E as E. destruct rest; [ congruence | discriminate ].
Qed.
Lemma cut_name_pose n m name : cut_of name (image_name n) -> name <> pose_name m.
Proof. intros (rest & E & N) ->. discriminate. Qed.
Lemma cut_name_index dir n name : cut_of name (image_name n) -> dir ++ "/" ++ name <> dir ++ "/data.yaml".
Proof. intros (rest & E & N) H. apply app_cancel_l in H. cbn in H. injection H as ->. discriminate. Qed.
Lemma value_pose n : value_node (pose_name n) = YStr (pose_name n).
Proof. reflexivity. Qed.
Lemma value_image c n : value_node (String "i" c) = YStr (String "i" c) /\ value_node (image_name n) = YStr (image_name n).
Proof. split; reflexivity. Qed.
Definition entry_names (i : nat) : string * string := (pose_name i, image_name i).
Lemma item_node i : flat_node (item_of (entry_names i)) = numbered i.
Proof. reflexivity. Qed.
Lemma item_nodes l : map flat_node (map item_of (map entry_names l)) = map numbered l.
Proof. rewrite !map_map. apply map_ext. intros i. apply item_node. Qed.
Lemma index_emitted p n : emit_text p (YSeq (map numbered (seq 0 n))) = items_text (map item_of (map entry_names (seq 0 n))).
Proof. unfold emit_text. f_equal. rewrite !map_map. apply map_ext. intros i. reflexivity. Qed.
Lemma whole_items es : Forall good_names es -> list_lines (lines (items_text (map item_of es))) = Some ([], map item_of es).
Proof.
  intros F. induction F as [|e es G F IH]; [ reflexivity | ]. destruct es as [|e2 es].
  - cbn [map items_text]. rewrite item_lines, lines_more by (apply dash_one_line, G). rewrite list_dash by exact G.
    rewrite lines_one by (apply image_one_line, G). rewrite list_image by exact G. reflexivity.
  - change (items_text (map item_of (e :: e2 :: es))) with (item_text (item_of e) ++ String newline (items_text (map item_of (e2 :: es)))).
    rewrite item_then by exact G. rewrite IH. reflexivity.
Qed.
Lemma items_first a b : exists r, items_text (a ++ b)%list = items_text a ++ r.
Proof.
  induction a as [|i a [r IH]]; [ exists (items_text b); reflexivity | ]. destruct a as [|i2 a].
  - destruct b as [|i2 b]; [ exists ""; symmetry; apply sapp_nil | eexists; reflexivity ].
  - exists r. change (items_text ((i :: i2 :: a) ++ b)%list) with (item_text i ++ String newline (items_text ((i2 :: a) ++ b)%list)). rewrite IH.
    change (items_text (i :: i2 :: a)) with (item_text i ++ String newline (items_text (i2 :: a))). rewrite sapp_assoc. reflexivity.
Qed.
(** The index or what is left of it is a list. *)
Lemma index_document n t r : items_text (map item_of (map entry_names (seq 0 n))) = (t ++ r)%string -> load_document t = load_list t.
Proof.
  intros E. destruct t as [|c t]; [ reflexivity | ]. destruct n as [|n]; [ discriminate | ]. cbn [seq map] in E.
  assert (c = "-"%char); [ | subst c; reflexivity ].
  destruct (map item_of (map entry_names (seq 1 n))) as [|e2 es]; cbn in E; injection E as <- _; reflexivity.
Qed.
Lemma cut_index n t r : items_text (map item_of (map entry_names (seq 0 n))) = (t ++ r)%string ->
  load_document t = None \/
  (exists k root, (k <= n)%nat /\ load_document t = Some root /\ index root (map numbered (seq 0 k))) \/
  exists k it, (k < n)%nat /\ load_document t = Some (YSeq (map numbered (seq 0 k) ++ [flat_node it])%list) /\ unfinished it (entry_names k).
Proof.
  intros E. rewrite (index_document n t r E). unfold load_list.
  assert (F : Forall good_names (map entry_names (seq 0 n))) by (apply Forall_forall; intros e H; apply in_map_iff in H; destruct H as (i & <- & _); apply names_good).
  assert (Fs : forall k, (k <= n)%nat -> firstn k (map entry_names (seq 0 n)) = map entry_names (seq 0 k)).
  { intros k Hk. rewrite firstn_map. f_equal. replace n with (k + (n - k))%nat by lia. rewrite seq_app. rewrite firstn_app, seq_length, Nat.sub_diag.
    rewrite firstn_O, app_nil_r. rewrite <- (seq_length k 0) at 1. apply firstn_all. }
  destruct (cut_items _ F _ _ E) as [H|[(k & Hk & H)|(k & e & it & Hk & H & U)]]; rewrite H.
  - left. reflexivity.
  - rewrite map_length, seq_length in Hk. right. left. rewrite (Fs k Hk). exists k. destruct k as [|k].
    + exists YNull. split; [ exact Hk | split; [ reflexivity | ] ]. right. split; [ reflexivity | split; discriminate ].
    + exists (YSeq (map numbered (seq 0 (S k)))). split; [ exact Hk | split; [ | left; reflexivity ] ]. rewrite <- item_nodes. reflexivity.
  - assert (Lk : (k < n)%nat). { rewrite <- (seq_length n 0), <- (map_length entry_names). apply nth_error_Some. congruence. }
    right. right. exists k, it. split; [ exact Lk | ]. rewrite (Fs k) by lia. split.
    + change [flat_node it] with (map flat_node [it]). rewrite <- item_nodes, <- map_app.
      destruct (map item_of (map entry_names (seq 0 k)) ++ [it])%list eqn:X; [ exfalso; apply app_eq_nil in X; destruct X as [_ X]; discriminate | reflexivity ].
    + rewrite nth_error_map in Hk. assert (Y : nth_error (seq 0 n) k = Some k).
      { rewrite (nth_error_nth' _ 0%nat) by (rewrite seq_length; exact Lk). rewrite seq_nth by exact Lk. reflexivity. }
      rewrite Y in Hk. injection Hk as <-. exact U.
Qed.

Section Codec.
  Context {image : Type} (p : nat) (empty : image -> bool) (none : image) (png : image -> string) (imread : string -> image) (storable : image -> Prop).
  Let lib := text_codec p empty none png imread.
  Hypothesis Hp : (17 <= p)%nat.
  Hypothesis K : keeps_pictures lib storable.
  Let Sane : sane lib := proj1 K.

  Lemma same_load disk path left : disk path = Some left -> load_document left = load_flat left ->
    loadPose_file (load lib disk) path = loadPose_file (load_text disk) path.
  Proof. intros D E. unfold loadPose_file, LoadFile, load, load_text. rewrite D. cbn [lib text_codec parse_yaml]. rewrite E. reflexivity. Qed.
  Lemma pose_there disk path T : moderate_pose T -> disk path = Some (emit lib (encode_iso T)) -> holds_pose lib disk path (stored_pose T).
  Proof.
    intros M D. apply pose_iff. destruct (whole_pose p (numbers_of T) Hp (numbers_finite T M)) as (t & Et & Hl).
    cbn [lib text_codec emit] in D. rewrite (pose_emitted _ _ _ Et) in D.
    rewrite (same_load disk path t D); [ apply (Hl _ _ D) | ]. apply (pose_document p _ t t "" Et). symmetry. apply sapp_nil.
  Qed.
  (** A pose file that is being written *)
  Lemma pose_cut disk path T left missing : moderate_pose T -> emit lib (encode_iso T) = (left ++ missing)%string -> disk path = Some left ->
    holds_pose lib disk path (stored_pose T) \/ (~ exists U, holds_pose lib disk path U) \/
    exists q, holds_pose lib disk path (pose_of (with_qz (numbers_of T) q)).
  Proof.
    intros M E D. destruct (whole_pose p (numbers_of T) Hp (numbers_finite T M)) as (t & Et & Hl).
    assert (Em : emit lib (encode_iso T) = t) by (cbn [lib text_codec emit]; apply pose_emitted, Et).
    destruct missing as [|ch missing].
    - left. apply pose_there; [ exact M | ]. rewrite E, sapp_nil. exact D.
    - right. rewrite Em in E. pose proof (same_load disk path left D (pose_document _ _ _ _ _ Et E)) as Sl.
      destruct (cut_pose p (numbers_of T) t left disk path Hp (numbers_finite T M) Et) as [H|(s & s' & q & _ & _ & _ & H)].
      + exists (String ch missing). split; [ exact E | discriminate ].
      + exact D.
      + left. intros [U HU]. apply pose_iff in HU. congruence.
      + right. exists q. apply pose_iff. congruence.
  Qed.
  Lemma image_there disk path i : storable i -> disk path = Some (png i) -> holds_image lib disk path i.
  Proof. intros S D. destruct (proj1 (proj2 K) i S) as [E R]. exists (png i). auto. Qed.
  Lemma image_cut disk path i left missing : storable i -> png i = (left ++ missing)%string -> disk path = Some left ->
    holds_image lib disk path i \/ ~ exists j, holds_image lib disk path j.
  Proof.
    intros S E D. destruct missing as [|ch missing].
    - left. apply image_there; [ exact S | ]. rewrite E, sapp_nil. exact D.
    - right. intros (j & f & F & R & N). rewrite D in F. injection F as <-. pose proof (proj2 (proj2 K)) as Kc.
      rewrite <- R, (Kc i left S) in N; [ discriminate | ]. exists (String ch missing). split; [ exact E | discriminate ].
  Qed.

  (** ** Reading what is there *)
  Lemma pairs_app disk dir l1 ps1 l2 ps2 : pairs_of lib disk dir l1 ps1 -> pairs_of lib disk dir l2 ps2 -> pairs_of lib disk dir (l1 ++ l2)%list (ps1 ++ ps2)%list.
  Proof.
    intros H1 H2. induction H1 as [|entry entries ps img pose i T N I P H IH|entry entries ps img pose N Nn H IH]; cbn [app]; [ exact H2 | | ].
    - eapply pair_loaded; eassumption.
    - eapply pair_skipped; eassumption.
  Qed.
  Lemma first_pairs disk dir ps k : (k <= List.length ps)%nat ->
    (forall i img T, nth_error ps i = Some (img, T) -> pair_at lib disk dir i (Some (img, T))) ->
    pairs_of lib disk dir (map numbered (seq 0 k)) (firstn k ps).
  Proof.
    intros Hk H. rewrite <- (somes_all (firstn k ps)).
    replace k with (List.length (map Some (firstn k ps))) at 1 by (rewrite map_length, firstn_length; lia).
    apply (pairs_numbered lib disk dir 0). intros i o Ho. apply nth_map_some in Ho. destruct Ho as ([img T] & -> & Ho). apply nth_firstn in Ho. apply H, Ho.
  Qed.
  (** An index of which a first part is there *)
  Lemma read_cut_index disk dir ps n t r u : n = List.length ps ->
    disk (dir ++ "/data.yaml") = Some t -> items_text (map item_of (map entry_names (seq 0 n))) = (t ++ r)%string ->
    (forall i img T, nth_error ps i = Some (img, T) -> pair_at lib disk dir i (Some (img, T))) ->
    (forall k name, cut_of name (image_name k) -> disk (dir ++ "/" ++ name) = None) ->
    parseFromFile lib disk u (dir ++ "/data.yaml") = Ok None \/
    exists k, (k <= List.length ps)%nat /\ parseFromFile lib disk u (dir ++ "/data.yaml") = Ok (Some (of_pairs (firstn k ps))).
  Proof.
    intros -> D E P C.
    assert (Rd : forall l root qs, load_document t = Some root -> index root l -> pairs_of lib disk dir l qs ->
      parseFromFile lib disk u (dir ++ "/data.yaml") = Ok (Some (of_pairs qs))).
    { intros l root qs Lr I Q. apply (from_file_iff lib Sane disk u dir "data.yaml" _ data_yaml_no_slash). exists l, qs.
      split; [ exists t, root; auto | split; [ exact Q | reflexivity ] ]. }
    assert (Fl : forall l bad, load_document t = Some (YSeq (l ++ [bad])%list) -> (forall ip pp, ~ names lib bad ip pp) ->
      parseFromFile lib disk u (dir ++ "/data.yaml") = Ok None).
    { intros l bad Lr B. apply (from_file_fails lib Sane disk u dir "data.yaml" data_yaml_no_slash). intros (l' & (f & root & F & Pr & I) & H).
      change (dir ++ "/" ++ "data.yaml") with (dir ++ "/data.yaml") in F. rewrite D in F. injection F as <-.
      cbn [lib text_codec parse_yaml] in Pr. rewrite Lr in Pr. injection Pr as <-.
      destruct I as [I|(_ & I & _)]; [ | exfalso; exact (I _ eq_refl) ]. injection I as <-.
      destruct (H bad) as (ip & pp & Hn); [ apply in_app_iff; right; left; reflexivity | ]. exact (B ip pp Hn). }
    destruct (cut_index _ _ _ E) as [H|[(k & root & Hk & H & I)|(k & it & Hk & H & U)]].
    - left. apply (from_file_fails lib Sane disk u dir "data.yaml" data_yaml_no_slash). intros (l & (f & root & F & Pr & _) & _).
      change (dir ++ "/" ++ "data.yaml") with (dir ++ "/data.yaml") in F. rewrite D in F. injection F as <-. cbn [lib text_codec parse_yaml] in Pr. congruence.
    - right. exists k. split; [ exact Hk | ]. apply (Rd _ _ _ H I). apply first_pairs; assumption.
    - destruct U as [->|[(v & ->)|(v & y & -> & Ey & Ny)]].
      + left. apply (Fl _ _ H). intros ip pp [(w & W & _) _]. apply field_ok in W. discriminate.
      + left. apply (Fl _ _ H). intros ip pp [(w & W & _) _]. apply field_ok in W. discriminate.
      + destruct v as [|c v].
        * left. apply (Fl _ _ H). intros ip pp [(w & W & Tw) _]. apply field_ok in W. cbn in W. injection W as <-.
          destruct Tw as [Tw|[_ [[z Tw]|[[z Tw]|[z Tw]]]]]; discriminate.
        * right. exists k. split; [ lia | ]. cbn [fst snd entry_names] in *.
          assert (Ci : cut_of (String c v) (image_name k)) by (exists y; split; assumption).
          assert (c = "i"%char) by (cbn in Ey; injection Ey as <- _; reflexivity). subst c.
          apply (Rd (map numbered (seq 0 k) ++ [flat_node [("pose", pose_name k); ("image", String "i" v)]])%list _ _ H); [ left; reflexivity | ].
          rewrite <- (app_nil_r (firstn k ps)). apply pairs_app; [ apply first_pairs; [ lia | exact P ] | ].
          apply (pair_skipped lib disk dir _ _ _ (String "i" v) (pose_name k)).
          -- apply names_iff. split; [ exists (YStr (String "i" v)) | exists (YStr (pose_name k)) ]; split; reflexivity.
          -- intros [(i & f & F & _) _]. rewrite (C k _ Ci) in F. discriminate.
          -- constructor.
  Qed.

  (** ** Saving *)
  Lemma writable_no_raise dir ps : writable_pairs storable ps -> no_raise (save_effects lib dir (of_pairs ps)).
  Proof.
    intros W e H. apply in_effects in H. destruct H as [(j & img & N & H)|[(j & U & _ & H)|H]]; [ | discriminate | discriminate ].
    cbn in N. rewrite nth_error_map in N. destruct (nth_error ps j) as [[i T]|] eqn:Ej; [ | discriminate ]. cbn in N. injection N as ->.
    destruct (W img T (nth_error_In _ _ Ej)) as [Si _]. unfold imwrite in H. rewrite (proj1 (proj1 (proj2 K) img Si)) in H. discriminate.
  Qed.
  Lemma index_text (ps : list (image * iso)) : ps <> [] -> emit lib (directory (of_pairs ps)) = items_text (map item_of (map entry_names (seq 0 (List.length ps)))).
  Proof.
    intros N. cbn [lib text_codec emit]. rewrite <- (index_emitted p). f_equal. unfold directory, of_pairs. cbn [ds_images]. rewrite map_length.
    destruct ps as [|q ps]; [ congruence | ]. reflexivity.
  Qed.
  (** The file that was being written *)
  Lemma stopped_file dir ps path content done rest : save_effects lib dir (of_pairs ps) = (done ++ Write path content :: rest)%list ->
    (path = dir ++ "/data.yaml" /\ content = emit lib (directory (of_pairs ps)) /\ rest = []) \/
    exists j i T, nth_error ps j = Some (i, T) /\
      ((path = dir ++ "/" ++ image_name j /\ content = png i) \/ (path = dir ++ "/" ++ pose_name j /\ content = emit lib (encode_iso T))).
  Proof.
    intros E. assert (W : In (Write path content) (save_effects lib dir (of_pairs ps))) by (rewrite E; apply in_app_iff; right; left; reflexivity).
    apply in_effects in W. destruct W as [(j & img & N & W)|[(j & T & N & W)|W]].
    - right. cbn in N. rewrite nth_error_map in N. destruct (nth_error ps j) as [[i T]|] eqn:Ej; [ | discriminate ]. cbn in N. injection N as ->.
      exists j, img, T. split; [ exact Ej | left ]. unfold imwrite in W. destruct (empty_image lib img); [ discriminate | ]. injection W as -> ->. split; reflexivity.
    - right. cbn in N. rewrite nth_error_map in N. destruct (nth_error ps j) as [[i T']|] eqn:Ej; [ | discriminate ]. cbn in N. injection N as ->.
      exists j, i, T. split; [ exact Ej | right ]. injection W as -> ->. split; reflexivity.
    - left. injection W as -> ->. split; [ reflexivity | split; [ reflexivity | ] ].
      destruct (index_last lib dir (of_pairs ps)) as (front & F & _ & G). rewrite F in E.
      destruct (split_last _ _ _ _ E ltac:(discriminate)) as (rest' & E1 & E2). destruct rest' as [|w rest']; [ cbn in E1; injection E1 as ->; reflexivity | ].
      exfalso. cbn in E1. injection E1 as <- _. apply (G (emit lib (directory (of_pairs ps)))). rewrite E2. apply in_app_iff. right. left. reflexivity.
  Qed.
  Lemma pair_written disk dir ps done content i img T : writable_pairs storable ps ->
    save_effects lib dir (of_pairs ps) = (done ++ [Write (dir ++ "/data.yaml") content])%list -> nth_error ps i = Some (img, T) ->
    forall o, pair_at lib (update (fst (run always disk done)) (dir ++ "/data.yaml") o) dir i (Some (img, stored_pose T)).
  Proof.
    intros W E H o. destruct (W img T (nth_error_In _ _ H)) as [Si Mi].
    assert (NR : no_raise done) by (intros e He; apply (writable_no_raise dir ps W e); rewrite E; apply in_app_iff; left; exact He).
    split.
    - apply image_there; [ exact Si | ].
      rewrite update_other by (apply image_not_index). assert (N : nth_error (ds_images (of_pairs ps)) i = Some img) by (cbn; rewrite nth_error_map, H; reflexivity).
      apply run_writes; [ exact NR | reflexivity | | intros c Hc; apply (write_image lib dir (of_pairs ps) i c img N); rewrite E; apply in_app_iff; left; exact Hc ].
      assert (J : In (Write (dir ++ "/" ++ image_name i) (png img)) (save_effects lib dir (of_pairs ps))).
      { apply in_effects. left. exists i, img. split; [ exact N | ]. unfold imwrite. rewrite (proj1 (proj1 (proj2 K) img Si)). reflexivity. }
      rewrite E in J. apply in_app_iff in J. destruct J as [J|[J|[]]]; [ exact J | ]. injection J as J _. exfalso. exact (image_not_index _ _ (eq_sym J)).
    - apply pose_there; [ exact Mi | ].
      rewrite update_other by (apply pose_not_index). assert (N : nth_error (ds_tool_poses (of_pairs ps)) i = Some T) by (cbn; rewrite nth_error_map, H; reflexivity).
      apply run_writes; [ exact NR | reflexivity | | intros c Hc; apply (write_pose lib dir (of_pairs ps) i c T N); rewrite E; apply in_app_iff; left; exact Hc ].
      assert (J : In (Write (dir ++ "/" ++ pose_name i) (emit lib (encode_iso T))) (save_effects lib dir (of_pairs ps))) by (apply in_effects; right; left; eauto).
      rewrite E in J. apply in_app_iff in J. destruct J as [J|[J|[]]]; [ exact J | ]. injection J as J _. exfalso. exact (pose_not_index _ _ (eq_sym J)).
  Qed.
  Lemma cut_names_kept disk dir ps done content left : no_cut_names disk dir ->
    save_effects lib dir (of_pairs ps) = (done ++ [Write (dir ++ "/data.yaml") content])%list ->
    forall k name, cut_of name (image_name k) -> update (fst (run always disk done)) (dir ++ "/data.yaml") left (dir ++ "/" ++ name) = None.
  Proof.
    intros C E k name Cn. rewrite update_other by (apply (cut_name_index dir k name Cn)). rewrite run_other; [ apply (C k name Cn) | ].
    intros c Hc. assert (J : In (Write (dir ++ "/" ++ name) c) (save_effects lib dir (of_pairs ps))) by (rewrite E; apply in_app_iff; left; exact Hc).
    apply in_effects in J. destruct J as [(j & img & _ & J)|[(j & U & _ & J)|J]].
    - unfold imwrite in J. destruct (empty_image lib img); [ discriminate | ]. injection J as J _. apply app_cancel_l in J; injection J as J.
      exact (cut_name_other k j name Cn J).
    - injection J as J _. apply app_cancel_l in J; injection J as J. exact (cut_name_pose k j name Cn J).
    - injection J as J _. exact (cut_name_index dir k name Cn J).
  Qed.
  Lemma stopped_in_index disk dir ps disk' u : writable_pairs storable ps -> no_cut_names disk dir ->
    stopped_at lib disk dir (of_pairs ps) (dir ++ "/data.yaml") disk' ->
    parseFromFile lib disk' u (dir ++ "/data.yaml") = Ok None \/
    exists k, (k <= List.length ps)%nat /\ parseFromFile lib disk' u (dir ++ "/data.yaml") = Ok (Some (of_pairs (firstn k (map stored_pair ps)))).
  Proof.
    intros W C [done content rest left missing E Ec].
    destruct (stopped_file _ _ _ _ _ _ E) as [(_ & Econ & ->)|(j & i & T & _ & [[X _]|[X _]])];
      [ | exfalso; exact (image_not_index _ _ (eq_sym X)) | exfalso; exact (pose_not_index _ _ (eq_sym X)) ].
    rewrite Econ in Ec. destruct ps as [|q ps].
    - right. exists 0%nat. split; [ cbn; lia | ]. cbn in Ec.
      assert (Ld : load_document left = Some YNull). { destruct left as [|c left]; [ reflexivity | ]. cbn in Ec. injection Ec as <- Ec. destruct left; [ reflexivity | discriminate ]. }
      apply (from_file_iff lib Sane _ u dir "data.yaml" _ data_yaml_no_slash). exists [], []. split; [ | split; [ constructor | reflexivity ] ].
      exists left, YNull. split; [ apply update_same | split; [ exact Ld | ] ]. right. split; [ reflexivity | split; discriminate ].
    - rewrite index_text in Ec by discriminate. rewrite <- (map_length stored_pair (q :: ps)) in Ec |- *.
      refine (read_cut_index _ dir (map stored_pair (q :: ps)) _ left missing u eq_refl (update_same _ _ _) Ec _ _).
      + intros i img T H. rewrite nth_error_map in H. destruct (nth_error (q :: ps) i) as [[img' T']|] eqn:Ei; [ | discriminate ].
        cbn in H. injection H as -> <-. apply (pair_written disk dir (q :: ps) done content i img T' W E Ei).
      + apply (cut_names_kept disk dir (q :: ps) done content); assumption.
  Qed.
  (** The index is written last. *)
  Lemma index_not_yet disk dir ps path disk' : stopped_at lib disk dir (of_pairs ps) path disk' -> path <> dir ++ "/data.yaml" ->
    disk' (dir ++ "/data.yaml") = disk (dir ++ "/data.yaml").
  Proof.
    intros [done content rest left missing E Ec] N. rewrite update_other by (intros X; apply N; symmetry; exact X).
    apply run_other. apply (not_yet lib dir (of_pairs ps) done _ E). discriminate.
  Qed.
  Lemma stopped_first disk dir ps path disk' u : disk (dir ++ "/data.yaml") = None -> stopped_at lib disk dir (of_pairs ps) path disk' -> path <> dir ++ "/data.yaml" ->
    parseFromFile lib disk' u (dir ++ "/data.yaml") = Ok None.
  Proof.
    intros D St N. apply (from_file_fails lib Sane disk' u dir "data.yaml" data_yaml_no_slash). intros (l & (f & root & F & _) & _).
    change (dir ++ "/" ++ "data.yaml") with (dir ++ "/data.yaml") in F. rewrite (index_not_yet disk dir ps path disk' St N), D in F. discriminate.
  Qed.

  (** ** A complete data set on the disk *)
  Lemma index_loads ps : parse_yaml lib (emit lib (directory (image := image) (of_pairs ps))) = Some (directory (of_pairs ps)).
  Proof.
    destruct ps as [|q ps]; [ reflexivity | ]. rewrite index_text by discriminate. cbn [lib text_codec parse_yaml].
    rewrite (index_document (List.length (q :: ps)) _ "") by (symmetry; apply sapp_nil). unfold load_list.
    rewrite whole_items by (apply Forall_forall; intros e H; apply in_map_iff in H; destruct H as (i & <- & _); apply names_good).
    unfold directory, of_pairs. cbn [ds_images]. rewrite map_length. cbn [List.length seq map]. rewrite item_nodes. reflexivity.
  Qed.
  Lemma slots_read disk dir (ps : list (image * iso)) u os : disk (dir ++ "/data.yaml") = Some (emit lib (directory (of_pairs ps))) -> List.length os = List.length ps ->
    (forall i o, nth_error os i = Some o -> pair_at lib disk dir i o) ->
    parseFromFile lib disk u (dir ++ "/data.yaml") = Ok (Some (of_pairs (somes os))).
  Proof.
    intros D Ho H. refine (index_read lib Sane disk dir _ _ _ u D (index_loads ps) (directory_index _) os _ H). cbn. rewrite map_length. exact Ho.
  Qed.
  Lemma stored_slot disk dir ps i img T : writable_pairs storable ps -> stored lib disk dir ps -> nth_error ps i = Some (img, T) ->
    pair_at lib disk dir i (Some (img, stored_pose T)).
  Proof.
    intros W (_ & H) E. destruct (H i img T E) as [A B]. destruct (W img T (nth_error_In _ _ E)). split; [ apply image_there; assumption | apply pose_there; assumption ].
  Qed.
  Lemma stored_text disk dir ps u : writable_pairs storable ps -> stored lib disk dir ps ->
    parseFromFile lib disk u (dir ++ "/data.yaml") = Ok (Some (of_pairs (map stored_pair ps))).
  Proof.
    intros W St. rewrite <- (somes_all (map stored_pair ps)). apply (slots_read disk dir ps u _ (proj1 St)); [ rewrite !map_length; reflexivity | ].
    intros i o H. apply nth_map_some in H. destruct H as ([img T'] & -> & H). rewrite nth_error_map in H.
    destruct (nth_error ps i) as [[img0 T]|] eqn:E; [ | discriminate ]. cbn in H. injection H as -> <-. apply (stored_slot disk dir ps i img T W St E).
  Qed.
  Lemma nth_skip {A} n (l : list A) m : nth_error (skipn n l) m = nth_error l (n + m).
  Proof. revert l. induction n as [|n IH]; intros l; [ reflexivity | ]. destruct l as [|a l]; [ destruct m; reflexivity | apply IH ]. Qed.
  (** Another file at one place *)
  Lemma one_slot disk dir ps j path left u o : writable_pairs storable ps -> stored lib disk dir ps ->
    path = dir ++ "/" ++ image_name j \/ path = dir ++ "/" ++ pose_name j ->
    ((j < List.length ps)%nat -> pair_at lib (update disk path left) dir j o) ->
    parseFromFile lib (update disk path left) u (dir ++ "/data.yaml") =
      Ok (Some (of_pairs (if (j <? List.length ps)%nat then firstn j (map stored_pair ps) ++ somes [o] ++ skipn (S j) (map stored_pair ps) else map stored_pair ps)%list)).
  Proof.
    intros W St P Hj. destruct St as (D & H).
    assert (NI : dir ++ "/data.yaml" <> path) by (destruct P as [-> | ->]; intros E; [ exact (image_not_index _ _ (eq_sym E)) | exact (pose_not_index _ _ (eq_sym E)) ]).
    assert (D' : update disk path left (dir ++ "/data.yaml") = Some (emit lib (directory (of_pairs ps)))) by (rewrite update_other by exact NI; exact D).
    assert (G : forall i img T, i <> j -> nth_error (map stored_pair ps) i = Some (img, T) -> pair_at lib (update disk path left) dir i (Some (img, T))).
    { intros i img T' N Hi. rewrite nth_error_map in Hi. destruct (nth_error ps i) as [[img0 T]|] eqn:Ei; [ | discriminate ]. cbn in Hi. injection Hi as -> <-.
      destruct (H i img T Ei) as [A B]. destruct (W img T (nth_error_In _ _ Ei)). split; [ apply image_there; [ assumption | ] | apply pose_there; [ assumption | ] ]; (rewrite update_other; [ assumption | ]);
        intros E; destruct P as [-> | ->]; try (apply N; first [ apply (image_name_inj _ _ _ E) | apply (pose_name_inj _ _ _ E) ]); first [ exact (image_not_pose _ _ _ E) | exact (image_not_pose _ _ _ (eq_sym E)) ]. }
    rewrite <- (map_length stored_pair ps) in Hj |- *.
    set (qs := map stored_pair ps) in *. assert (Lq : List.length qs = List.length ps) by apply map_length. clearbody qs.
    destruct (Nat.ltb_spec j (List.length qs)) as [Lt|Ge].
    - specialize (Hj Lt).
      replace (firstn j qs ++ somes [o] ++ skipn (S j) qs)%list with (somes (map Some (firstn j qs) ++ o :: map Some (skipn (S j) qs))%list)
        by (rewrite somes_app; destruct o; cbn; rewrite !somes_all; reflexivity).
      apply (slots_read _ dir ps u _ D').
      + rewrite <- Lq. rewrite <- (firstn_skipn j qs) at 3. rewrite !app_length. cbn [List.length]. rewrite !map_length, !skipn_length, firstn_length. lia.
      + intros i o' Hi. destruct (Nat.lt_trichotomy i j) as [C | [-> | C]].
        * rewrite nth_error_app1 in Hi by (rewrite map_length, firstn_length; lia). apply nth_map_some in Hi. destruct Hi as ([img' T'] & -> & Hi). apply nth_firstn in Hi. apply G; [ lia | apply Hi ].
        * rewrite nth_error_app2 in Hi by (rewrite map_length, firstn_length; lia). rewrite map_length, firstn_length, Nat.min_l, Nat.sub_diag in Hi by lia. injection Hi as <-. exact Hj.
        * rewrite nth_error_app2 in Hi by (rewrite map_length, firstn_length; lia). rewrite map_length, firstn_length, Nat.min_l in Hi by lia. destruct (i - j)%nat as [ | m] eqn:Em; [ lia | ]. change (nth_error (map Some (skipn (S j) qs)) m = Some o') in Hi.
          apply nth_map_some in Hi. destruct Hi as ([img' T'] & -> & Hi). apply G; [ lia | ]. rewrite nth_skip in Hi. replace i with (S j + m)%nat by lia. exact Hi.
    - rewrite <- (somes_all qs) at 1. apply (slots_read _ dir ps u _ D'); [ rewrite map_length; exact Lq | ].
      intros i o' Hi. apply nth_map_some in Hi. destruct Hi as ([img' T'] & -> & Hi). apply G; [ intros ->; assert (X : nth_error qs j <> None) by congruence; apply nth_error_Some in X; lia | exact Hi ].
  Qed.
  Lemma nth_split_at {A} (l : list A) j a : nth_error l j = Some a -> l = (firstn j l ++ a :: skipn (S j) l)%list.
  Proof. revert j. induction l as [|b l IH]; intros [|j] E; cbn in E; try discriminate; [ injection E as ->; reflexivity | ]. cbn. f_equal. apply IH, E. Qed.
  Lemma stopped_longer disk dir old more path disk' u : writable_pairs storable (old ++ more)%list -> stored lib disk dir old ->
    stopped_at lib disk dir (of_pairs (old ++ more)%list) path disk' -> path <> dir ++ "/data.yaml" ->
    exists qs, parseFromFile lib disk' u (dir ++ "/data.yaml") = Ok (Some (of_pairs qs)) /\
      (qs = map stored_pair old \/ without_one (map stored_pair old) qs \/ one_number_changed old qs).
  Proof.
    intros W St [done content rest left missing E Ec] N.
    assert (Wo : writable_pairs storable old) by (intros i T H; apply W, in_app_iff; left; exact H).
    assert (St' : stored lib (fst (run always disk done)) dir old) by (apply (stored_during lib disk dir old more done _ St E); discriminate).
    clear St. set (disk1 := fst (run always disk done)) in *. clearbody disk1.
    destruct (stopped_file _ _ _ _ _ _ E) as [(X & _)|(j & i & T & Hj & P)]; [ contradiction | ].
    assert (P' : path = dir ++ "/" ++ image_name j \/ path = dir ++ "/" ++ pose_name j) by (destruct P as [[-> _]|[-> _]]; [ left | right ]; reflexivity).
    assert (Q : forall o, ((j < List.length old)%nat -> pair_at lib (update disk1 path (Some left)) dir j o) -> parseFromFile lib (update disk1 path (Some left)) u (dir ++ "/data.yaml") =
      Ok (Some (of_pairs (if (j <? List.length old)%nat then firstn j (map stored_pair old) ++ somes [o] ++ skipn (S j) (map stored_pair old) else map stored_pair old)%list)))
      by (intros o; apply one_slot; assumption).
    destruct (Nat.ltb_spec j (List.length old)) as [Lt|Ge]; cycle 1.
    { exists (map stored_pair old). split; [ apply (Q None); lia | left; reflexivity ]. }
    rewrite nth_error_app1 in Hj by exact Lt. destruct (Wo i T (nth_error_In _ _ Hj)) as [Si Mi]. pose proof (proj2 St' j i T Hj) as [A B].
    pose proof (nth_split_at _ _ _ Hj) as Xs. assert (Xm : map stored_pair old = (firstn j (map stored_pair old) ++ stored_pair (i, T) :: skipn (S j) (map stored_pair old))%list)
      by (apply nth_split_at; rewrite nth_error_map, Hj; reflexivity).
    assert (Whole : pair_at lib (update disk1 path (Some left)) dir j (Some (i, stored_pose T)) -> exists qs,
      parseFromFile lib (update disk1 path (Some left)) u (dir ++ "/data.yaml") = Ok (Some (of_pairs qs)) /\
      (qs = map stored_pair old \/ without_one (map stored_pair old) qs \/ one_number_changed old qs)).
    { intros G. eexists. split; [ apply (Q _ (fun _ => G)) | left; symmetry; exact Xm ]. }
    assert (Lost : pair_at lib (update disk1 path (Some left)) dir j None -> exists qs,
      parseFromFile lib (update disk1 path (Some left)) u (dir ++ "/data.yaml") = Ok (Some (of_pairs qs)) /\
      (qs = map stored_pair old \/ without_one (map stored_pair old) qs \/ one_number_changed old qs)).
    { intros G. eexists. split; [ apply (Q _ (fun _ => G)) | right; left ]. eexists _, _, _. split; [ exact Xm | reflexivity ]. }
    destruct P as [[-> ->]|[-> ->]].
    - destruct (image_cut (update disk1 (dir ++ "/" ++ image_name j) (Some left)) (dir ++ "/" ++ image_name j) i left missing Si Ec (update_same _ _ _)) as [H|H].
      + apply Whole. split; [ exact H | ]. apply pose_there; [ exact Mi | ]. rewrite update_other by (intros X; exact (image_not_pose _ _ _ (eq_sym X))). exact B.
      + apply Lost. intros [H' _]. exact (H H').
    - assert (Im : holds_image lib (update disk1 (dir ++ "/" ++ pose_name j) (Some left)) (dir ++ "/" ++ image_name j) i)
        by (apply image_there; [ exact Si | ]; rewrite update_other by apply image_not_pose; exact A).
      destruct (pose_cut (update disk1 (dir ++ "/" ++ pose_name j) (Some left)) (dir ++ "/" ++ pose_name j) T left missing Mi Ec (update_same _ _ _)) as [H|[H|[q H]]].
      + apply Whole. split; assumption.
      + apply Lost. intros [_ H']. exact (H H').
      + eexists. split; [ apply (Q (Some (i, pose_of (with_qz (numbers_of T) q)))); intros _; split; assumption | right; right ].
        exists (firstn j old), i, T, (skipn (S j) old), q. split; [ exact Xs | ]. rewrite <- firstn_map, <- skipn_map. reflexivity.
  Qed.
  (** ** A complete save *)
  Lemma save_text can disk dir ps u : writable_pairs storable ps -> (forall path, can path = true) ->
    exists disk', saveToDirectory lib can disk dir (of_pairs ps) = (disk', Ok true) /\ stored lib disk' dir ps /\
      parseFromFile lib disk' u (dir ++ "/data.yaml") = Ok (Some (of_pairs (map stored_pair ps))).
  Proof.
    intros W C. pose proof (writable_no_raise dir ps W) as NR.
    assert (S : exists disk', saveToDirectory lib can disk dir (of_pairs ps) = (disk', Ok true) /\ stored lib disk' dir ps).
    { exists (fst (run can disk (save_effects lib dir (of_pairs ps)))). split.
      - unfold saveToDirectory. pose proof (run_done can _ disk NR) as R. destruct (run can disk _) as [d o]. cbn in R |- *. subst o. reflexivity.
      - split.
        + apply run_writes; [ exact NR | apply C | apply in_effects; right; right; reflexivity | intros c Hc; apply (write_index lib dir (of_pairs ps) c Hc) ].
        + intros n i T Hn. destruct (W i T (nth_error_In _ _ Hn)) as [Si _].
          assert (N1 : nth_error (ds_images (of_pairs ps)) n = Some i) by (cbn; rewrite nth_error_map, Hn; reflexivity).
          assert (N2 : nth_error (ds_tool_poses (of_pairs ps)) n = Some T) by (cbn; rewrite nth_error_map, Hn; reflexivity). split.
          * apply run_writes; [ exact NR | apply C | | intros c Hc; apply (write_image lib dir (of_pairs ps) n c i N1 Hc) ].
            apply in_effects. left. exists n, i. split; [ exact N1 | ]. unfold imwrite. rewrite (proj1 (proj1 (proj2 K) i Si)). reflexivity.
          * apply run_writes; [ exact NR | apply C | apply in_effects; right; left; eauto | intros c Hc; apply (write_pose lib dir (of_pairs ps) n c T N2 Hc) ]. }
    destruct S as (disk' & S1 & S2). exists disk'. split; [ exact S1 | split; [ exact S2 | apply stored_text; assumption ] ].
  Qed.
  (** Stopping between two items of the index *)
  Lemma stopped_between disk dir ps k u : writable_pairs storable ps -> (k <= List.length ps)%nat -> exists disk',
    stopped_at lib disk dir (of_pairs ps) (dir ++ "/data.yaml") disk' /\
    parseFromFile lib disk' u (dir ++ "/data.yaml") = Ok (Some (of_pairs (firstn k (map stored_pair ps)))).
  Proof.
    intros W Hk. destruct (index_last lib dir (of_pairs ps)) as (front & F & _ & _).
    assert (X : exists left missing root, emit lib (directory (of_pairs ps)) = (left ++ missing)%string /\ parse_yaml lib left = Some root /\ index root (map numbered (seq 0 k))).
    { destruct ps as [|q ps].
      - exists "~", "", YNull. cbn in Hk. replace k with 0%nat by lia. split; [ reflexivity | split; [ reflexivity | ] ]. right. split; [ reflexivity | split; discriminate ].
      - rewrite index_text by discriminate. set (n := List.length (q :: ps)) in *. clearbody n.
        destruct (items_first (map item_of (map entry_names (seq 0 k))) (map item_of (map entry_names (seq k (n - k))))) as [r Er].
        assert (En : items_text (map item_of (map entry_names (seq 0 n))) = items_text (map item_of (map entry_names (seq 0 k))) ++ r).
        { rewrite <- Er. rewrite <- !map_app. do 3 f_equal. replace n with (k + (n - k))%nat at 1 by lia. apply seq_app. }
        exists (items_text (map item_of (map entry_names (seq 0 k)))), r, (match map numbered (seq 0 k) with [] => YNull | l => YSeq l end).
        split; [ exact En | ]. split.
        + cbn [lib text_codec parse_yaml]. rewrite (index_document n _ r En). unfold load_list.
          rewrite whole_items by (apply Forall_forall; intros e H; apply in_map_iff in H; destruct H as (i & <- & _); apply names_good).
          destruct k as [|k]; [ reflexivity | ]. cbn [seq map]. rewrite item_nodes. reflexivity.
        + destruct k as [|k]; [ right; split; [ reflexivity | split; discriminate ] | left; reflexivity ]. }
    destruct X as (left & missing & root & Ec & Ld & Ix). eexists. split; [ apply (stopped lib disk dir (of_pairs ps) _ front _ [] left missing F Ec) | ].
    rewrite <- (somes_all (firstn k (map stored_pair ps))).
    refine (index_read lib Sane _ dir k left root u (update_same _ _ _) Ld Ix (map Some (firstn k (map stored_pair ps))) _ _).
    - rewrite map_length, firstn_length, map_length. lia.
    - intros i o H. apply nth_map_some in H. destruct H as ([img T'] & -> & H). apply nth_firstn in H. destruct H as [_ H]. rewrite nth_error_map in H.
      destruct (nth_error ps i) as [[img0 T]|] eqn:Ei; [ | discriminate ]. cbn in H. injection H as -> <-.
      apply (pair_written disk dir ps front _ i img T W F Ei).
  Qed.
End Codec.

(** ** How near the stored pose is *)
Lemma two_to (n : nat) : (2 ^ n = bpow radix2 (Z.of_nat n))%R.
Proof. rewrite bpow_powerRZ. change (IZR radix2) with 2%R. apply pow_powerRZ. Qed.
Lemma inv_two_to (n : nat) : (/ 2 ^ n = bpow radix2 (- Z.of_nat n))%R.
Proof. rewrite bpow_opp, two_to. reflexivity. Qed.
Lemma near_rnd r : rounded r (rnd r).
Proof.
  destruct (rnd_err r) as (d & e & Hd & He & E). unfold rounded. rewrite E. replace (r * (1 + d) + e - r)%R with (d * r + e)%R by ring.
  eapply Rle_trans; [ apply Rabs_triang | ]. rewrite Rabs_mult. rewrite !inv_two_to. apply Rplus_le_compat.
  - apply Rmult_le_compat_r; [ apply Rabs_pos | ]. eapply Rle_trans; [ exact Hd | ]. unfold u64. apply bpow_le. lia.
  - eapply Rle_trans; [ exact He | ]. unfold eta64. apply bpow_le. lia.
Qed.
Lemma stored_values T : moderate_pose T -> let q := quat_of_mat (lin T) in
  stored_pose T = Iso (q_matrix (Q (rnd (qw q)) (rnd (qx q)) (rnd (qy q)) (rnd (qz q)))) (V3 (rnd (vx (tr T))) (rnd (vy (tr T))) (rnd (vz (tr T)))).
Proof.
  intros (H & H1 & H2 & H3). rewrite two_1000 in *. destruct (unit_parts _ (quat_of_mat_unit _ H)) as (U1 & U2 & U3 & U4). cbv zeta.
  unfold stored_pose, pose_of, numbers_of. cbn [n_x n_y n_z n_qw n_qx n_qy n_qz].
  pose proof (fun r B => proj2 (to_double_ok r B)) as D. unfold dval in D.
  rewrite !D; [ reflexivity | first [ assumption | apply one_1000; assumption ].. ].
Qed.
Lemma product_near a b da db e : (0 <= e <= 1 -> Rabs a <= 1 -> Rabs b <= 1 -> Rabs da <= e -> Rabs db <= e ->
  - (3 * e) <= (a + da) * (b + db) - a * b <= 3 * e)%R.
Proof. intros He Ha Hb Hda Hdb. apply Rabs_le_inv in Ha, Hb, Hda, Hdb. split; nra. Qed.
Lemma matrix_near e w x y z w' x' y' z' : (0 <= e <= 1)%R -> (Rabs w <= 1 -> Rabs x <= 1 -> Rabs y <= 1 -> Rabs z <= 1 ->
  Rabs (w' - w) <= e -> Rabs (x' - x) <= e -> Rabs (y' - y) <= e -> Rabs (z' - z) <= e -> near_matrix (12 * e) (q_matrix (Q w x y z)) (q_matrix (Q w' x' y' z')))%R.
Proof.
  intros He Hw Hx Hy Hz Dw Dx Dy Dz.
  assert (P : forall a b a' b', (Rabs a <= 1 -> Rabs b <= 1 -> Rabs (a' - a) <= e -> Rabs (b' - b) <= e -> - (3 * e) <= a' * b' - a * b <= 3 * e)%R).
  { intros a b a' b' H1 H2 H3 H4. replace (a' * b')%R with ((a + (a' - a)) * (b + (b' - b)))%R by ring. apply product_near; assumption. }
  pose proof (P w x w' x' Hw Hx Dw Dx). pose proof (P w y w' y' Hw Hy Dw Dy). pose proof (P w z w' z' Hw Hz Dw Dz).
  pose proof (P x x x' x' Hx Hx Dx Dx). pose proof (P x y x' y' Hx Hy Dx Dy). pose proof (P x z x' z' Hx Hz Dx Dz).
  pose proof (P y y y' y' Hy Hy Dy Dy). pose proof (P y z y' z' Hy Hz Dy Dz). pose proof (P z z z' z' Hz Hz Dz Dz).
  clear P Hw Hx Hy Hz Dw Dx Dy Dz.
  intros entry H8. unfold q_matrix. cbn [qw qx qy qz].
  repeat (destruct H8 as [<-|H8]; [ cbn [m00 m01 m02 m10 m11 m12 m20 m21 m22]; apply Rabs_le; lra | ]). destruct H8.
Qed.
Lemma unit_rounded a : (Rabs a <= 1 -> Rabs (rnd a - a) <= / 2 ^ 53 + / 2 ^ 1074)%R.
Proof.
  intros H. eapply Rle_trans; [ apply near_rnd | ]. apply Rplus_le_compat_r. rewrite <- (Rmult_1_r (/ 2 ^ 53)) at 2.
  apply Rmult_le_compat_l; [ | exact H ]. rewrite inv_two_to. apply bpow_ge_0.
Qed.
Lemma stored_near T : moderate_pose T -> near_matrix (/ 2 ^ 49) (lin T) (lin (stored_pose T)) /\
  rounded (vx (tr T)) (vx (tr (stored_pose T))) /\ rounded (vy (tr T)) (vy (tr (stored_pose T))) /\ rounded (vz (tr T)) (vz (tr (stored_pose T))).
Proof.
  intros M. rewrite (stored_values T M). cbn [lin tr vx vy vz]. split; [ | split; [ | split ]; apply near_rnd ].
  destruct M as (H & _). destruct (unit_parts _ (quat_of_mat_unit _ H)) as (U1 & U2 & U3 & U4).
  pose proof (q_matrix_quat_of_mat _ H) as E. destruct (quat_of_mat (lin T)) as [w x y z]. cbn [qw qx qy qz] in *. rewrite <- E.
  assert (He : (12 * (/ 2 ^ 53 + / 2 ^ 1074) <= / 2 ^ 49)%R).
  { rewrite !inv_two_to. change (- Z.of_nat 49)%Z with (- Z.of_nat 53 + 4)%Z. rewrite bpow_plus.
    assert (B : (bpow radix2 (- Z.of_nat 1074) <= bpow radix2 (- Z.of_nat 53 + -2))%R) by (apply bpow_le; lia). rewrite bpow_plus in B.
    change (bpow radix2 4) with 16%R. change (bpow radix2 (-2)) with (/ 4)%R in B. pose proof (bpow_gt_0 radix2 (- Z.of_nat 53)). lra. }
  assert (P : (0 <= / 2 ^ 53 + / 2 ^ 1074 <= 1)%R).
  { rewrite !inv_two_to in *. pose proof (bpow_ge_0 radix2 (- Z.of_nat 53)). pose proof (bpow_ge_0 radix2 (- Z.of_nat 1074)).
    assert (bpow radix2 (- Z.of_nat 49) <= bpow radix2 0)%R by (apply bpow_le; lia). change (bpow radix2 0) with 1%R in *. lra. }
  intros entry Hi. eapply Rle_trans; [ | exact He ].
  apply (matrix_near (/ 2 ^ 53 + / 2 ^ 1074) w x y z); try assumption; apply unit_rounded; assumption.
Qed.

(** ** Example: pictures of some number of dots, with a mark at the end of the file *)
Fixpoint dots (n : nat) : string := match n with O => "!" | S n => String "." (dots n) end.
Fixpoint read_dots (s : string) : nat :=
  match s with
  | EmptyString => 0
  | String c r => if (c =? "!")%char then 1 else match read_dots r with O => 0 | n => S n end
  end.
(** A picture with n + 1 dots *)
Definition dots_codec : codec nat string := text_codec 17 (fun n => Nat.eqb n 0) 0%nat (fun n => dots (Nat.pred n)) read_dots.
Lemma dots_back n : read_dots (dots n) = S n.
Proof. induction n as [|n IH]; [ reflexivity | ]. cbn [dots read_dots]. cbn. rewrite IH. reflexivity. Qed.
Lemma dots_cut n : forall left, cut_of left (dots n) -> read_dots left = 0%nat.
Proof.
  induction n as [|n IH]; intros left (r & E & N).
  - destruct left as [|c left]; [ reflexivity | ]. cbn in E. injection E as <- E. destruct left; [ cbn in E; congruence | discriminate ].
  - destruct left as [|c left]; [ reflexivity | ]. cbn in E. injection E as <- E. cbn. rewrite (IH left); [ reflexivity | ]. exists r. split; assumption.
Qed.
Lemma dots_keep : keeps_pictures dots_codec (fun n => n <> 0%nat).
Proof.
  split; [ reflexivity | split ].
  - intros i H. split; [ apply Nat.eqb_neq, H | ]. change (read_dots (dots (Nat.pred i)) = i). rewrite dots_back. lia.
  - intros i left H C. change (Nat.eqb (read_dots left) 0 = true). rewrite (dots_cut _ _ C). reflexivity.
Qed.
Definition no_files : fs string := fun _ => None.
Definition two_pictures : list (nat * iso) := [(1%nat, still); (2%nat, moved)].
Lemma two_writable : writable_pairs (fun n : nat => n <> 0%nat) two_pictures.
Proof.
  assert (L : forall a, (Rabs a <= 4 -> Rabs a <= 2 ^ 1000)%R).
  { intros a H. eapply Rle_trans; [ exact H | ]. rewrite two_1000. change 4%R with (bpow radix2 2). apply bpow_le. lia. }
  intros i T [[= <- <-]|[[= <- <-]|[]]]; (split; [ discriminate | ]); (split; [ apply rigid_I3 | ]); cbn [tr still moved vzero vx vy vz];
    (split; [ | split ]); apply L; apply Rabs_le; lra.
Qed.
Lemma none_cut dir : no_cut_names no_files dir.
Proof. intros n name _. reflexivity. Qed.

(** A number that is a double already *)
Lemma strict_value (x : f64) : (B2R x <> 0)%R -> is_finite_strict x = true.
Proof. destruct x; cbn; intros H; try reflexivity; exfalso; apply H; reflexivity. Qed.
Lemma double_back (x : f64) r : B2R x = r -> (Rabs r <= bpow radix2 1000)%R -> (r <> 0)%R -> to_double r = x.
Proof.
  intros E B N. destruct (to_double_ok r B) as [_ V]. rewrite <- E in V at 2. fold (dval x) in V. rewrite rnd_val in V. unfold dval in V.
  apply B2R_inj; [ apply strict_value; rewrite V, E; exact N | apply strict_value; rewrite E; exact N | exact V ].
Qed.
Definition third_pose : iso := Iso (M3 0 0 1 1 0 0 0 1 0) (V3 1 2 3).
Lemma third_quat : quat_of_mat (lin third_pose) = Q (/ 2) (/ 2) (/ 2) (/ 2).
Proof.
  unfold quat_of_mat, third_pose, trace. cbn [lin m00 m01 m02 m10 m11 m12 m20 m21 m22].
  destruct (Rlt_dec 0 (0 + 0 + 0)); [ exfalso; lra | ]. destruct (Rlt_dec 0 0); [ exfalso; lra | ].
  replace (0 - 0 - 0 + 1)%R with 1%R by lra. rewrite sqrt_1. f_equal; lra.
Qed.
Lemma small_1000 a : (Rabs a <= 4 -> Rabs a <= bpow radix2 1000)%R.
Proof. intros H. eapply Rle_trans; [ exact H | ]. change 4%R with (bpow radix2 2). apply bpow_le. lia. Qed.
Lemma third_numbers : numbers_of third_pose = third_turn.
Proof.
  assert (H : to_double (/ 2) = PoseTextProofs.half) by (apply double_back; [ exact half_value | apply small_1000, Rabs_le; lra | lra ]).
  assert (I : forall m, (0 < m <= 4)%Z -> to_double (IZR m) = dint m).
  { intros m Hm. apply double_back; [ apply (dint_val m); lia | | ].
    - apply small_1000. rewrite <- abs_IZR. apply IZR_le. lia.
    - apply not_0_IZR. lia. }
  unfold numbers_of. rewrite third_quat. cbn [qw qx qy qz third_pose tr vx vy vz]. rewrite H, !I by lia. reflexivity.
Qed.
Lemma third_moderate : moderate_pose third_pose.
Proof.
  split; [ | rewrite two_1000; cbn [third_pose tr vx vy vz]; split; [ | split ]; apply small_1000, Rabs_le; lra ].
  unfold rigid. cbn [lin third_pose]. replace (M3 0 0 1 1 0 0 0 1 0) with (lin (pose_of third_turn)); [ exact third_rigid | ].
  unfold pose_of, third_turn. cbn [lin n_qw n_qx n_qy n_qz]. rewrite half_value. unfold q_matrix. cbn [qw qx qy qz]. f_equal; lra.
Qed.
(** Saving the same pair again stops within the last number of its pose. *)
Definition saved_third : fs string := fst (saveToDirectory dots_codec always no_files "d" (of_pairs [(1%nat, third_pose)])).
Definition changed_third : fs string :=
  update (fst (run always saved_third [Write "d/images/0.png" (dots 0)])) "d/poses/0.yaml" (Some third_cut).
Lemma third_emitted : emit dots_codec (encode_iso third_pose) = third_text.
Proof. apply (pose_emitted 17). rewrite third_numbers. exact third_written. Qed.
Lemma third_stored : stored dots_codec saved_third "d" [(1%nat, third_pose)].
Proof. split; [ reflexivity | ]. intros [|n] i T H; [ injection H as <- <-; split; reflexivity | destruct n; discriminate ]. Qed.
Lemma third_stopped : stopped_at dots_codec saved_third "d" (of_pairs [(1%nat, third_pose)]) "d/poses/0.yaml" changed_third.
Proof.
  unfold changed_third. apply (stopped dots_codec saved_third "d" (of_pairs [(1%nat, third_pose)]) _ _ (emit dots_codec (encode_iso third_pose))
    [Write "d/data.yaml" (emit dots_codec (directory (of_pairs [(1%nat, third_pose)])))] third_cut ".5").
  - reflexivity.
  - rewrite third_emitted. vm_compute. reflexivity.
Qed.
Lemma third_changed u : exists T, parseFromFile dots_codec changed_third u "d/data.yaml" = Ok (Some (of_pairs [(1%nat, T)])) /\ ~ rigid T.
Proof.
  exists (pose_of (with_qz third_turn (B754_zero false))). split; [ | exact third_not_rigid ].
  refine (slots_read 17 (fun n => Nat.eqb n 0) 0%nat (fun n => dots (Nat.pred n)) read_dots (fun n => n <> 0%nat) dots_keep changed_third "d" [(1%nat, third_pose)] u
    [Some (1%nat, _)] _ eq_refl _); [ reflexivity | ].
  intros [|i] o H; [ injection H as <- | destruct i; discriminate ]. split; [ exists "!"; split; [ reflexivity | split; reflexivity ] | ].
  apply pose_iff. rewrite (same_load 17 (fun n => Nat.eqb n 0) 0%nat (fun n => dots (Nat.pred n)) read_dots changed_third _ third_cut); [ | reflexivity | reflexivity ].
  apply third_loaded. reflexivity.
Qed.
Lemma pose_changed : exists (lib : codec nat string) storable disk dir old disk' path i, keeps_pictures lib storable /\ writable_pairs storable old /\ stored lib disk dir old /\
  path <> dir ++ "/data.yaml" /\ stopped_at lib disk dir (of_pairs old) path disk' /\
  forall u, exists T, parseFromFile lib disk' u (dir ++ "/data.yaml") = Ok (Some (of_pairs [(i, T)])) /\ ~ rigid T.
Proof.
  exists dots_codec, (fun n => n <> 0%nat), saved_third, "d", [(1%nat, third_pose)], changed_third, "d/poses/0.yaml", 1%nat.
  split; [ exact dots_keep | ]. split; [ intros i T [[= <- <-]|[]]; split; [ discriminate | exact third_moderate ] | ].
  split; [ exact third_stored | split; [ discriminate | split; [ exact third_stopped | exact third_changed ] ] ].
Qed.
