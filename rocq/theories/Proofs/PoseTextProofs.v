(** Pose files, complete and cut. *)
From Coq Require Import Reals ZArith Lra Lia String Ascii List Bool.
From Flocq Require Import Core BinarySingleNaN.
From Verif.Base Require Import Float Geom Outcome.
From Verif.Model Require Import Yaml Serialization Loaders NumberText PoseText.
From Verif.Spec Require Import PoseTextSpec.
From Verif.Proofs Require Import RotLemmas NumberTextProofs.
Import ListNotations.
Local Open Scope string_scope.

(** ** Texts on one line *)
Fixpoint one_line (s : string) : Prop := match s with EmptyString => True | String c r => (c =? newline)%char = false /\ one_line r end.
Lemma one_line_app a b : one_line (a ++ b) <-> one_line a /\ one_line b.
Proof. induction a as [|x a IH]; cbn; [ tauto | rewrite IH; tauto ]. Qed.
Lemma digits_one_line s : all_digits s -> one_line s.
Proof.
  induction s as [|c s IH]; cbn [one_line all_digits]; [ tauto | ]. intros [H1 H2]. split; [ | apply IH, H2 ].
  destruct (Ascii.eqb_spec c newline) as [->|]; [ exfalso; apply H1; reflexivity | reflexivity ].
Qed.
Lemma strip_one_line s : one_line s -> one_line (strip s).
Proof. intros H. destruct (strip_zeros s) as [j E]. rewrite E in H. apply one_line_app in H. apply H. Qed.
Lemma substr_one_line s : one_line s -> forall a b, one_line (substr a b s).
Proof.
  unfold substr. induction s as [|c s IH]; intros H a b; cbn [String.substring].
  - destruct a, b; exact I.
  - destruct H as [H1 H2]. destruct a as [|a]; [ | apply IH, H2 ].
    destruct b as [|b]; [ exact I | ]. cbn [one_line]. split; [ exact H1 | apply (IH H2 0%nat b) ].
Qed.
Lemma with_point_one_line w q : one_line w -> one_line q -> one_line (with_point w q).
Proof.
  intros Hw Hq. unfold with_point. pose proof (strip_one_line q Hq) as Hs. destruct (strip q) as [|c t]; [ exact Hw | ].
  apply one_line_app. split; [ exact Hw | ]. cbn [one_line] in *. split; [ reflexivity | exact Hs ].
Qed.
Lemma number_one_line p x t : number_text p x = Some t -> one_line t.
Proof.
  assert (D : forall n k, one_line (digits n k)) by (intros; apply digits_one_line, digits_all).
  destruct x as [s|s| |s m e Hb]; cbn [number_text]; try discriminate.
  - intros E. injection E as <-. destruct s; cbn; repeat split.
  - destruct (fraction m e) as [n d]. destruct (decimal (Z.of_nat p) n d) as [k e10]. intros E. injection E as <-.
    apply one_line_app. split; [ destruct s; cbn; repeat split | ]. unfold decimal_text.
    destruct ((-4 <=? e10)%Z && (e10 <? Z.of_nat p)%Z)%bool.
    + destruct (0 <=? e10)%Z.
      * apply with_point_one_line; apply substr_one_line, D.
      * apply with_point_one_line; [ cbn; repeat split | ]. apply one_line_app. split; [ apply digits_one_line, zeros_all | apply D ].
    + apply one_line_app. split; [ apply with_point_one_line; apply substr_one_line, D | ].
      unfold exponent_text. cbn [one_line]. split; [ reflexivity | split; [ destruct (e10 <? 0)%Z; reflexivity | apply D ] ].
Qed.

(** ** Lines *)
Lemma lines_one s : one_line s -> lines s = [s].
Proof. induction s as [|c s IH]; cbn [lines one_line]; [ reflexivity | ]. intros [H1 H2]. rewrite H1, (IH H2). reflexivity. Qed.
Lemma lines_more s r : one_line s -> lines (s ++ String newline r) = s :: lines r.
Proof.
  induction s as [|c s IH]; cbn [lines one_line String.append]; [ intros _; rewrite Ascii.eqb_refl; reflexivity | ]. intros [H1 H2]. rewrite H1, (IH H2). reflexivity.
Qed.

(** Keys without a colon *)
Fixpoint no_colon (s : string) : Prop := match s with EmptyString => True | String c r => (c =? ":")%char = false /\ no_colon r end.
Lemma key_value_ok k v : no_colon k -> key_value (k ++ ": " ++ v) = Some (k, v).
Proof.
  induction k as [|c k IH]; [ reflexivity | ]. intros [H1 H2]. change (String c k ++ ": " ++ v) with (String c (k ++ ": " ++ v)).
  cbn [key_value]. rewrite H1, (IH H2). reflexivity.
Qed.
Lemma key_value_bare k : no_colon k -> key_value k = None.
Proof. induction k as [|c k IH]; cbn [key_value no_colon]; [ reflexivity | ]. intros [H1 H2]. rewrite H1, (IH H2). reflexivity. Qed.
Lemma key_value_null k : no_colon k -> key_value (k ++ ":") = Some (k, "").
Proof. induction k as [|c k IH]; cbn [String.append key_value no_colon]; [ reflexivity | ]. intros [H1 H2]. rewrite H1, (IH H2). reflexivity. Qed.
Lemma no_colon_app a b : no_colon (a ++ b) <-> no_colon a /\ no_colon b.
Proof. induction a as [|x a IH]; cbn; [ tauto | rewrite IH; tauto ]. Qed.

(** Where a text of two parts was cut *)
Lemma cut_split a : forall b c r, (c ++ r = a ++ b)%string ->
  (exists x, a = c ++ x /\ r = x ++ b)%string \/ (exists x, c = a ++ x /\ b = x ++ r)%string.
Proof.
  induction a as [|y a IH]; intros b c r E.
  - right. exists c. split; [ reflexivity | ]. symmetry. exact E.
  - destruct c as [|z c].
    + left. exists (String y a). split; [ reflexivity | exact E ].
    + cbn in E. injection E as -> E. destruct (IH _ _ _ E) as [(x & -> & ->)|(x & -> & ->)].
      * left. exists x. split; reflexivity.
      * right. exists x. split; reflexivity.
Qed.

(** ** Entries of a text and of a cut one *)
Definition good_entry (e : string * string) : Prop := no_colon (fst e) /\ one_line (fst e) /\ one_line (snd e) /\ fst e <> "".
Lemma entry_one_line e : good_entry e -> one_line (entry_line e).
Proof. intros (H1 & H2 & H3 & H4). unfold entry_line. apply one_line_app. split; [ exact H2 | ]. apply one_line_app. split; [ cbn; repeat split | exact H3 ]. Qed.
Lemma entries_cons l ls : l <> "" -> entries (l :: ls) = match key_value l, entries ls with Some e, Some es => Some (e :: es) | _, _ => None end.
Proof. destruct l as [|c l]; [ congruence | reflexivity ]. Qed.
Lemma entry_not_empty e : good_entry e -> entry_line e <> "".
Proof. intros (_ & _ & _ & H). unfold entry_line. destruct (fst e); [ congruence | discriminate ]. Qed.
Lemma entry_value e : good_entry e -> key_value (entry_line e) = Some e.
Proof. intros (H & _). unfold entry_line. rewrite key_value_ok by exact H. destruct e; reflexivity. Qed.
Lemma flat_entries es : Forall good_entry es -> entries (lines (flat_text es)) = Some es.
Proof.
  intros F. induction F as [|e es He F IH]; [ reflexivity | ]. destruct es as [|e2 es].
  - cbn [flat_text]. rewrite lines_one by (apply entry_one_line, He). rewrite entries_cons by (apply entry_not_empty, He).
    rewrite (entry_value e He). reflexivity.
  - change (flat_text (e :: e2 :: es)) with (entry_line e ++ String newline (flat_text (e2 :: es))).
    rewrite lines_more by (apply entry_one_line, He). rewrite entries_cons by (apply entry_not_empty, He).
    rewrite (entry_value e He), IH. reflexivity.
Qed.
(** A line cut short: nothing, no entry, or an entry with a shortened value *)
Lemma cut_line e l x : good_entry e -> entry_line e = (l ++ x)%string ->
  l = "" \/ (l <> "" /\ one_line l /\ key_value l = None) \/
  (l <> "" /\ one_line l /\ exists v y, snd e = (v ++ y)%string /\ key_value l = Some (fst e, v) /\ (v <> "" -> x = y)).
Proof.
  intros G E. assert (O : one_line l) by (pose proof (entry_one_line e G) as H; rewrite E in H; apply one_line_app in H; apply H).
  destruct G as (H1 & H2 & H3 & H4). unfold entry_line in E. symmetry in E.
  destruct (string_dec l "") as [->|N]; [ left; reflexivity | right ].
  destruct (cut_split _ _ _ _ E) as [(z & Ez & Er)|(z & Ez & Er)].
  - left. split; [ exact N | split; [ exact O | ] ]. apply key_value_bare. rewrite Ez in H1. apply no_colon_app in H1. apply H1.
  - destruct z as [|c1 z].
    + left. split; [ exact N | split; [ exact O | ] ]. rewrite Ez, sapp_nil. apply key_value_bare, H1.
    + cbn in Er. injection Er as <- Er. destruct z as [|c2 z].
      * right. split; [ exact N | split; [ exact O | ] ]. exists "", (snd e). split; [ reflexivity | ].
        split; [ rewrite Ez; apply key_value_null, H1 | congruence ].
      * cbn in Er. injection Er as <- Er. right. split; [ exact N | split; [ exact O | ] ]. exists z, x. split; [ exact Er | ].
        split; [ rewrite Ez; apply (key_value_ok (fst e) z), H1 | reflexivity ].
Qed.
Lemma cut_entries es : Forall good_entry es -> forall t r, flat_text es = (t ++ r)%string ->
  entries (lines t) = None \/
  (exists n, entries (lines t) = Some (firstn n es) /\ (n < List.length es)%nat /\ r <> "") \/
  (exists n e v y, nth_error es n = Some e /\ snd e = (v ++ y)%string /\ entries (lines t) = Some (firstn n es ++ [(fst e, v)])%list /\
     (S n = List.length es -> v <> "" -> r = y)) \/ es = [].
Proof.
  intros F. induction F as [|e es He F IH]; intros t r E; [ right; right; right; reflexivity | ].
  assert (L : forall l x, entry_line e = (l ++ x)%string -> t = l -> (l <> entry_line e \/ es = []) ->
    (es = [] -> x = r) -> (t = "" -> r <> "") ->
    entries (lines t) = None \/
    (exists n, entries (lines t) = Some (firstn n (e :: es)) /\ (n < List.length (e :: es))%nat /\ r <> "") \/
    (exists n e0 v y, nth_error (e :: es) n = Some e0 /\ snd e0 = (v ++ y)%string /\
       entries (lines t) = Some (firstn n (e :: es) ++ [(fst e0, v)])%list /\ (S n = List.length (e :: es) -> v <> "" -> r = y)) \/ e :: es = []).
  { intros l x El -> C Cx Cr. destruct (cut_line e l x He El) as [->|[(N & O & K)|(N & O & v & y & Ev & K & Ky)]].
    - right. left. exists 0%nat. cbn. split; [ reflexivity | split; [ lia | apply Cr; reflexivity ] ].
    - left. rewrite lines_one by exact O. rewrite entries_cons by exact N. rewrite K. reflexivity.
    - right. right. left. exists 0%nat, e, v, y. split; [ reflexivity | split; [ exact Ev | split ] ].
      + rewrite lines_one by exact O. rewrite entries_cons by exact N. rewrite K. reflexivity.
      + cbn. intros Hs Hv. destruct es; [ | discriminate ]. rewrite <- (Cx eq_refl). apply Ky, Hv. }
  destruct es as [|e2 es].
  - cbn [flat_text] in E. apply (L t r E eq_refl); [ right; reflexivity | reflexivity | ].
    intros -> ->. apply (entry_not_empty e He). exact E.
  - change (flat_text (e :: e2 :: es)) with (entry_line e ++ String newline (flat_text (e2 :: es)))%string in E.
    symmetry in E. destruct (cut_split _ _ _ _ E) as [(x & Ex & Er)|(x & Ex & Er)].
    + destruct (string_dec t (entry_line e)) as [->|N].
      * right. right. left. exists 0%nat, e, (snd e), "". split; [ reflexivity | split; [ symmetry; apply sapp_nil | split ] ].
        -- rewrite lines_one by (apply entry_one_line, He). rewrite entries_cons by (apply entry_not_empty, He).
           rewrite (entry_value e He). destruct e; reflexivity.
        -- cbn. lia.
      * apply (L t x Ex eq_refl); [ left; exact N | discriminate | ]. intros _ ->. destruct x; discriminate.
    + destruct x as [|c x].
      * rewrite sapp_nil in Ex. subst t.
        right. right. left. exists 0%nat, e, (snd e), "". split; [ reflexivity | split; [ symmetry; apply sapp_nil | split ] ].
        -- rewrite lines_one by (apply entry_one_line, He). rewrite entries_cons by (apply entry_not_empty, He).
           rewrite (entry_value e He). destruct e; reflexivity.
        -- cbn. lia.
      * assert (Ec : c = newline) by (cbn in Er; injection Er as H _; symmetry; exact H).
        assert (Er' : flat_text (e2 :: es) = (x ++ r)%string) by (cbn in Er; injection Er as _ H; exact H).
        clear Er. rename Er' into Er. subst c t.
        assert (X : entries (lines (entry_line e ++ String newline x)) =
                    match entries (lines x) with Some es' => Some (e :: es') | None => None end).
        { rewrite lines_more by (apply entry_one_line, He). rewrite entries_cons by (apply entry_not_empty, He).
          rewrite (entry_value e He). reflexivity. }
        rewrite X. destruct (IH x r Er) as [H|[(n & H & Hn & Hr)|[(n & e0 & v & y & Hn & Hv & H & Hy)|H]]].
        -- left. rewrite H. reflexivity.
        -- right. left. exists (S n). rewrite H. split; [ reflexivity | split; [ cbn in *; lia | exact Hr ] ].
        -- right. right. left. exists (S n), e0, v, y. rewrite H. split; [ exact Hn | split; [ exact Hv | split; [ reflexivity | ] ] ].
           intros Hs. apply Hy. cbn in *. lia.
        -- discriminate.
Qed.

(** ** Poses *)
Lemma texts_some p l : Forall (fun e => is_finite (snd e) = true) l -> exists ts, all_texts p l = Some ts.
Proof.
  intros F. induction F as [|[k x] l H F [ts IH]]; [ exists []; reflexivity | ]. cbn in H.
  destruct x as [s|s| |s m e Hb]; try discriminate; cbn [all_texts number_text].
  - rewrite IH. eexists. reflexivity.
  - destruct (fraction m e) as [n d]. destruct (decimal (Z.of_nat p) n d) as [q e10]. rewrite IH. eexists. reflexivity.
Qed.
Lemma texts_cons p k x l ts : all_texts p ((k, x) :: l) = Some ts ->
  exists t ts', number_text p x = Some t /\ all_texts p l = Some ts' /\ ts = (k, t) :: ts'.
Proof.
  cbn [all_texts]. destruct (number_text p x) as [t|]; [ | discriminate ]. destruct (all_texts p l) as [ts'|]; [ | discriminate ].
  intros E. injection E as <-. exists t, ts'. repeat split.
Qed.
Lemma value_read t x : read_number t = Some x -> value_node t = YReal (B2R x).
Proof. intros H. unfold value_node. destruct t as [|c t]; [ discriminate | ]. rewrite H. reflexivity. Qed.
Lemma same_read p x t : (17 <= p)%nat -> is_finite x = true -> number_text p x = Some t -> value_node t = YReal (B2R x).
Proof.
  intros Hp Fx Ht. destruct (same_number p x Hp Fx) as (t' & E & R). rewrite Ht in E. injection E as <-. apply value_read, R.
Qed.
(** The seven texts of a pose *)
Lemma pose_texts p c t : pose_text p c = Some t -> exists t1 t2 t3 t4 t5 t6 t7,
  number_text p (n_x c) = Some t1 /\ number_text p (n_y c) = Some t2 /\ number_text p (n_z c) = Some t3 /\
  number_text p (n_qw c) = Some t4 /\ number_text p (n_qx c) = Some t5 /\ number_text p (n_qy c) = Some t6 /\ number_text p (n_qz c) = Some t7 /\
  t = flat_text [("x", t1); ("y", t2); ("z", t3); ("qw", t4); ("qx", t5); ("qy", t6); ("qz", t7)].
Proof.
  unfold pose_text, pose_entries. destruct (all_texts p _) as [ts|] eqn:E; [ | discriminate ]. intros H. cbn [option_map] in H. injection H as <-.
  apply texts_cons in E as (t1 & ts1 & E1 & E & ->). apply texts_cons in E as (t2 & ts2 & E2 & E & ->).
  apply texts_cons in E as (t3 & ts3 & E3 & E & ->). apply texts_cons in E as (t4 & ts4 & E4 & E & ->).
  apply texts_cons in E as (t5 & ts5 & E5 & E & ->). apply texts_cons in E as (t6 & ts6 & E6 & E & ->).
  apply texts_cons in E as (t7 & ts7 & E7 & E & ->). cbn in E. injection E as <-.
  exists t1, t2, t3, t4, t5, t6, t7. repeat (split; [ assumption | ]). reflexivity.
Qed.
Lemma pose_good p c t1 t2 t3 t4 t5 t6 t7 :
  number_text p (n_x c) = Some t1 -> number_text p (n_y c) = Some t2 -> number_text p (n_z c) = Some t3 ->
  number_text p (n_qw c) = Some t4 -> number_text p (n_qx c) = Some t5 -> number_text p (n_qy c) = Some t6 -> number_text p (n_qz c) = Some t7 ->
  Forall good_entry [("x", t1); ("y", t2); ("z", t3); ("qw", t4); ("qx", t5); ("qy", t6); ("qz", t7)].
Proof.
  intros. repeat (constructor; [ split; [ cbn; repeat split | split; [ cbn; repeat split | split; [ eapply number_one_line; eassumption | discriminate ] ] ] | ]).
  constructor.
Qed.
Lemma load_pose disk path text es : disk path = Some text -> entries (lines text) = Some es ->
  loadPose_file (load_text disk) path = bad_file (as_ decode_iso (flat_node es)).
Proof. intros D E. unfold loadPose_file, LoadFile, load_text. rewrite D. unfold load_flat. rewrite E. reflexivity. Qed.
Lemma load_pose_none disk path text : disk path = Some text -> entries (lines text) = None -> loadPose_file (load_text disk) path = Throw BadFile.
Proof. intros D E. unfold loadPose_file, LoadFile, load_text. rewrite D. unfold load_flat. rewrite E. reflexivity. Qed.
Lemma whole_pose p c : (17 <= p)%nat -> finite_numbers c -> exists t, pose_text p c = Some t /\
  forall disk path, disk path = Some t -> loadPose_file (load_text disk) path = Ok (pose_of c).
Proof.
  intros Hp (F1 & F2 & F3 & F4 & F5 & F6 & F7). destruct (texts_some p (pose_entries c)) as [ts E].
  { unfold pose_entries. repeat (constructor; [ assumption | ]). constructor. }
  exists (flat_text ts). assert (Et : pose_text p c = Some (flat_text ts)) by (unfold pose_text; rewrite E; reflexivity).
  split; [ exact Et | ]. intros disk path D. destruct (pose_texts _ _ _ Et) as (t1 & t2 & t3 & t4 & t5 & t6 & t7 & E1 & E2 & E3 & E4 & E5 & E6 & E7 & Eq).
  rewrite Eq in D. rewrite (load_pose _ _ _ _ D (flat_entries _ (pose_good _ _ _ _ _ _ _ _ _ E1 E2 E3 E4 E5 E6 E7))).
  cbn [flat_node map fst snd].
  rewrite (same_read p _ _ Hp F1 E1), (same_read p _ _ Hp F2 E2), (same_read p _ _ Hp F3 E3), (same_read p _ _ Hp F4 E4),
    (same_read p _ _ Hp F5 E5), (same_read p _ _ Hp F6 E6), (same_read p _ _ Hp F7 E7). reflexivity.
Qed.
Lemma field_either k n : (exists v, field k n = Ok v) \/ field k n = Throw YamlException.
Proof. destruct n; cbn; try (right; reflexivity). destruct (find_str k m) as [v|]; [ left; exists v; reflexivity | right; reflexivity ]. Qed.
Lemma double_either n : (exists v, as_double n = Ok v) \/ as_double n = Throw YamlException.
Proof. destruct n; cbn; try (right; reflexivity); left; eexists; reflexivity. Qed.
Lemma field_double_either k n {A} (f : R -> res A) : (forall v, as_ decode_double n = Ok v -> True) ->
  (do x <- field k n; do v <- as_double x; f v) = Throw YamlException \/
  (exists x v, field k n = Ok x /\ as_double x = Ok v /\ (do x <- field k n; do v <- as_double x; f v) = f v).
Proof.
  intros _. destruct (field_either k n) as [[x Ex]|Ex]; rewrite Ex; [ | left; reflexivity ]. cbn [bind].
  destruct (double_either x) as [[v Ev]|Ev]; rewrite Ev; [ | left; reflexivity ]. right. exists x, v. repeat split. exact Ev.
Qed.
(** Without a last number there is no pose. *)
Lemma no_qz n : (field "qz" n = Throw YamlException \/ exists x, field "qz" n = Ok x /\ as_double x = Throw YamlException) ->
  bad_file (as_ decode_iso n) = Throw BadFile.
Proof.
  intros H. assert (E : decode_iso n = Throw YamlException).
  { unfold decode_iso.
    destruct (field_double_either "x" n (fun x => do n0 <- field "y" n; do y <- as_double n0; do n1 <- field "z" n; do z <- as_double n1;
       do n2 <- field "qw" n; do w <- as_double n2; do n3 <- field "qx" n; do i <- as_double n3; do n4 <- field "qy" n; do j <- as_double n4;
       do n5 <- field "qz" n; do k <- as_double n5; Ok (Some (Iso (q_matrix (Q w i j k)) (V3 x y z)))) (fun _ _ => I)) as [ -> |(x & v & _ & _ & ->)]; [ reflexivity | ].
    destruct (field_either "y" n) as [[x2 ->]| ->]; [ | reflexivity ]. cbn [bind]. destruct (double_either x2) as [[v2 ->]| ->]; [ | reflexivity ]. cbn [bind].
    destruct (field_either "z" n) as [[x3 ->]| ->]; [ | reflexivity ]. cbn [bind]. destruct (double_either x3) as [[v3 ->]| ->]; [ | reflexivity ]. cbn [bind].
    destruct (field_either "qw" n) as [[x4 ->]| ->]; [ | reflexivity ]. cbn [bind]. destruct (double_either x4) as [[v4 ->]| ->]; [ | reflexivity ]. cbn [bind].
    destruct (field_either "qx" n) as [[x5 ->]| ->]; [ | reflexivity ]. cbn [bind]. destruct (double_either x5) as [[v5 ->]| ->]; [ | reflexivity ]. cbn [bind].
    destruct (field_either "qy" n) as [[x6 ->]| ->]; [ | reflexivity ]. cbn [bind]. destruct (double_either x6) as [[v6 ->]| ->]; [ | reflexivity ]. cbn [bind].
    destruct H as [ -> |(x7 & -> & E7)]; [ reflexivity | ]. cbn [bind]. rewrite E7. reflexivity. }
  unfold as_. rewrite E. reflexivity.
Qed.
Lemma cut_pose p c t t' disk path : (17 <= p)%nat -> finite_numbers c -> pose_text p c = Some t -> cut_of t' t -> disk path = Some t' ->
  loadPose_file (load_text disk) path = Throw BadFile \/
  exists s s' q, number_text p (n_qz c) = Some s /\ cut_of s' s /\ read_number s' = Some q /\
    loadPose_file (load_text disk) path = Ok (pose_of (with_qz c q)).
Proof.
  intros Hp (F1 & F2 & F3 & F4 & F5 & F6 & F7) Et (r & Er & Nr) D.
  destruct (pose_texts _ _ _ Et) as (t1 & t2 & t3 & t4 & t5 & t6 & t7 & E1 & E2 & E3 & E4 & E5 & E6 & E7 & Eq).
  rewrite Eq in Er. pose proof (pose_good _ _ _ _ _ _ _ _ _ E1 E2 E3 E4 E5 E6 E7) as G.
  destruct (cut_entries _ G _ _ Er) as [H|[(n & H & Hn & _)|[(n & e & v & y & Hn & Hv & H & Hy)|H]]].
  - left. apply (load_pose_none _ _ _ D H).
  - left. rewrite (load_pose _ _ _ _ D H). apply no_qz. left. cbn in Hn.
    do 7 (destruct n as [|n]; [ reflexivity | ]). lia.
  - assert (Ln : (n < 7)%nat) by (apply nth_error_Some with (l := [("x", t1); ("y", t2); ("z", t3); ("qw", t4); ("qx", t5); ("qy", t6); ("qz", t7)]); congruence).
    do 6 (destruct n as [|n]; [ left; rewrite (load_pose _ _ _ _ D H); apply no_qz; left; cbn in Hn; injection Hn as <-; reflexivity | ]).
    destruct n as [|n]; [ | lia ]. cbn in Hn. injection Hn as <-. cbn [fst snd] in *.
    rewrite (load_pose _ _ _ _ D H). cbn [firstn app].
    destruct v as [|ch v]; [ left; apply no_qz; right; exists YNull; split; reflexivity | ].
    destruct (read_number (String ch v)) as [q|] eqn:Eq7.
    + right. exists t7, (String ch v), q. split; [ exact E7 | split; [ | split; [ exact Eq7 | ] ] ].
      * exists y. split; [ exact Hv | ]. rewrite <- (Hy eq_refl ltac:(discriminate)). exact Nr.
      * cbn [flat_node map fst snd]. rewrite (value_read _ _ Eq7).
        rewrite (same_read p _ _ Hp F1 E1), (same_read p _ _ Hp F2 E2), (same_read p _ _ Hp F3 E3), (same_read p _ _ Hp F4 E4),
          (same_read p _ _ Hp F5 E5), (same_read p _ _ Hp F6 E6). reflexivity.
    + left. apply no_qz. right. exists (YStr (String ch v)). split; [ | reflexivity ].
      cbn [flat_node map fst snd field find_str]. cbn. cbn in Eq7. rewrite Eq7. reflexivity.
  - discriminate.
Qed.
(** A file cut before the digits of the last number is refused, for any number of digits. *)
Lemma early_cut p c t s t' r disk path : pose_text p c = Some t -> number_text p (n_qz c) = Some s -> t = (t' ++ r ++ s)%string ->
  disk path = Some t' -> loadPose_file (load_text disk) path = Throw BadFile.
Proof.
  intros Et Es Er D.
  destruct (pose_texts _ _ _ Et) as (t1 & t2 & t3 & t4 & t5 & t6 & t7 & E1 & E2 & E3 & E4 & E5 & E6 & E7 & Eq).
  rewrite Es in E7. injection E7 as <-.
  assert (E7 := Es). rewrite Eq in Er. pose proof (pose_good _ _ _ _ _ _ _ _ _ E1 E2 E3 E4 E5 E6 E7) as G.
  destruct (cut_entries _ G _ _ Er) as [H|[(n & H & Hn & _)|[(n & e & v & y & Hn & Hv & H & Hy)|H]]].
  - apply (load_pose_none _ _ _ D H).
  - rewrite (load_pose _ _ _ _ D H). apply no_qz. left. cbn in Hn. do 7 (destruct n as [|n]; [ reflexivity | ]). lia.
  - assert (Ln : (n < 7)%nat) by (apply nth_error_Some with (l := [("x", t1); ("y", t2); ("z", t3); ("qw", t4); ("qx", t5); ("qy", t6); ("qz", s)]); congruence).
    do 6 (destruct n as [|n]; [ rewrite (load_pose _ _ _ _ D H); apply no_qz; left; cbn in Hn; injection Hn as <-; reflexivity | ]).
    destruct n as [|n]; [ | lia ]. cbn in Hn. injection Hn as <-. cbn [fst snd] in *.
    rewrite (load_pose _ _ _ _ D H). cbn [firstn app].
    destruct v as [|ch v]; [ apply no_qz; right; exists YNull; split; reflexivity | ]. exfalso.
    pose proof (Hy eq_refl ltac:(discriminate)) as Hr. apply (f_equal String.length) in Hr. rewrite slen_app in Hr.
    rewrite Hv in Hr. rewrite slen_app in Hr. cbn in Hr. lia.
  - discriminate.
Qed.
(** ** A cut file that is read as another pose *)
Definition half : f64 := dnum 1 (-1).
(** A third of a turn about the diagonal *)
Definition third_turn : pose64 := P64 (dint 1) (dint 2) (dint 3) half half half half.
Definition third_text : string :=
  String.concat (String newline "") ["x: 1"; "y: 2"; "z: 3"; "qw: 0.5"; "qx: 0.5"; "qy: 0.5"; "qz: 0.5"].
Definition third_cut : string :=
  String.concat (String newline "") ["x: 1"; "y: 2"; "z: 3"; "qw: 0.5"; "qx: 0.5"; "qy: 0.5"; "qz: 0"].
Lemma third_written : pose_text 17 third_turn = Some third_text.
Proof. vm_compute. reflexivity. Qed.
Lemma half_value : B2R half = (/ 2)%R.
Proof.
  rewrite <- SF2R_B2SF. replace (B2SF half) with (SpecFloat.S754_finite false 4503599627370496 (-53)) by (vm_compute; reflexivity).
  cbn [SF2R]. unfold F2R. cbn [Fnum Fexp cond_Zopp]. change (bpow radix2 (-53)) with (/ bpow radix2 53)%R.
  rewrite <- IZR_Zpower by lia. change (radix2 ^ 53)%Z with (2 * 4503599627370496)%Z. rewrite mult_IZR. field.
Qed.
Lemma third_rigid : rigid (pose_of third_turn).
Proof.
  unfold pose_of, third_turn, rigid. cbn [n_qw n_qx n_qy n_qz n_x n_y n_z lin]. rewrite half_value.
  apply q_matrix_rot. unfold qnorm2. cbn. lra.
Qed.
Lemma zero_value : option_map B2SF (read_number "0") = Some (B2SF (B754_zero false : f64)).
Proof. vm_compute. reflexivity. Qed.
Lemma zero_read : read_number "0" = Some (B754_zero false).
Proof.
  pose proof zero_value as H. destruct (read_number "0") as [y|]; [ | discriminate ]. f_equal. apply B2SF_inj. injection H as H. exact H.
Qed.
Lemma third_loaded disk path : disk path = Some third_cut ->
  loadPose_file (load_text disk) path = Ok (pose_of (with_qz third_turn (B754_zero false))).
Proof.
  intros D. assert (E : entries (lines third_cut) = Some [("x", "1"); ("y", "2"); ("z", "3"); ("qw", "0.5"); ("qx", "0.5"); ("qy", "0.5"); ("qz", "0")])
    by (vm_compute; reflexivity).
  rewrite (load_pose _ _ _ _ D E). cbn [flat_node map fst snd].
  assert (T : forall x t, is_finite x = true -> number_text 17 x = Some t -> value_node t = YReal (B2R x)) by (intros; eapply same_read; eauto).
  rewrite (T (dint 1) "1"), (T (dint 2) "2"), (T (dint 3) "3"), (T half "0.5"), (value_read "0" (B754_zero false) zero_read)
    by (vm_compute; reflexivity). reflexivity.
Qed.
Lemma third_not_rigid : ~ rigid (pose_of (with_qz third_turn (B754_zero false))).
Proof.
  unfold pose_of, with_qz, third_turn, rigid. cbn [n_qw n_qx n_qy n_qz n_x n_y n_z lin]. rewrite half_value. cbn [B2R].
  intros [H _]. apply (f_equal m00) in H. revert H. unfold q_matrix, mmul, mT, I3. cbn. lra.
Qed.
Lemma third_is_cut : cut_of third_cut third_text.
Proof. exists ".5". split; [ vm_compute; reflexivity | discriminate ]. Qed.
Lemma third_finite : finite_numbers third_turn.
Proof. repeat split; vm_compute; reflexivity. Qed.
Lemma cut_refuted : ~ (forall p c t t' disk path, (17 <= p)%nat -> finite_numbers c -> rigid (pose_of c) -> pose_text p c = Some t ->
  cut_of t' t -> disk path = Some t' -> loadPose_file (load_text disk) path = Throw BadFile).
Proof.
  intros H. specialize (H 17%nat third_turn third_text third_cut (fun _ => Some third_cut) "p" (le_n _) third_finite third_rigid
    third_written third_is_cut eq_refl). rewrite (third_loaded (fun _ => Some third_cut) "p" eq_refl) in H. discriminate.
Qed.
Lemma cut_not_rigid : exists c t t', finite_numbers c /\ rigid (pose_of c) /\ pose_text 17 c = Some t /\ cut_of t' t /\
  forall disk path, disk path = Some t' -> exists T, loadPose_file (load_text disk) path = Ok T /\ ~ rigid T.
Proof.
  exists third_turn, third_text, third_cut. split; [ exact third_finite | split; [ exact third_rigid | split; [ exact third_written | ] ] ].
  split; [ exact third_is_cut | ]. intros disk path D. eexists. split; [ apply third_loaded, D | exact third_not_rigid ].
Qed.
(** ** Fewer digits *)
Lemma near_written p x : (1 <= p)%nat -> is_finite x = true -> (Rabs (B2R x) < 2 ^ 1023)%R ->
  exists t y, number_text p x = Some t /\ read_number t = Some y /\ is_finite y = true /\ Bsign y = Bsign x /\ near_digits p x y.
Proof.
  intros Hp Fx Bx. destruct (near_number p x Hp Fx) as (t & y & H1 & H2 & H3 & H4 & H5).
  { replace (bpow radix2 1023) with (2 ^ 1023)%R; [ exact Bx | ]. rewrite bpow_powerRZ. change (IZR radix2) with 2%R.
    rewrite pow_powerRZ. f_equal. }
  exists t, y. split; [ exact H1 | split; [ exact H2 | split; [ exact H3 | split; [ exact H4 | ] ] ] ]. unfold near_digits.
  replace (10 * / 10 ^ p)%R with (bpow ten (1 - Z.of_nat p)); [ exact H5 | ].
  unfold Zminus. rewrite bpow_plus, bpow_opp. f_equal. f_equal. rewrite bpow_powerRZ. change (IZR ten) with 10%R. rewrite pow_powerRZ. reflexivity.
Qed.
Definition tenth : f64 := dnum 3602879701896397 (-55).
Lemma tenth_text : number_text 17 tenth = Some "0.10000000000000001" /\ number_text 16 tenth = Some "0.1".
Proof. split; vm_compute; reflexivity. Qed.
Lemma small_text : number_text 17 (dnum (-3) (-40)) = Some "-2.7284841053187847e-12".
Proof. vm_compute. reflexivity. Qed.
