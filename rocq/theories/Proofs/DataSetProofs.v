(** Data sets on disk. *)
From Coq Require Import Reals Lia ZArith String List Bool Ascii DecimalString DecimalNat.
From Verif.Base Require Import Geom Outcome.
From Verif.Model Require Import Yaml Serialization Loaders DataSet.
From Verif.Spec Require Import YamlSpec LoaderSpec DataSetSpec.
From Verif.Proofs Require Import ListLemmas YamlProofs LoaderProofs.
Import ListNotations.
Local Open Scope string_scope.

(** ** Names *)

Lemma to_string_inj m n : to_string m = to_string n -> m = n.
Proof.
  unfold to_string. intros H. apply (f_equal NilEmpty.uint_of_string) in H. rewrite !NilEmpty.usu in H. injection H as H.
  apply (f_equal Nat.of_uint) in H. rewrite !Unsigned.of_to in H. exact H.
Qed.
Lemma app_cancel_l a b c : a ++ b = a ++ c -> b = c.
Proof. induction a; cbn; [ auto | intros H; injection H as H; auto ]. Qed.
Lemma app_assoc_s a b c : (a ++ b) ++ c = a ++ b ++ c.
Proof. induction a; cbn; [ reflexivity | rewrite IHa; reflexivity ]. Qed.
Lemma length_app_s a b : String.length (a ++ b) = String.length a + String.length b.
Proof. induction a; cbn; [ reflexivity | rewrite IHa; reflexivity ]. Qed.
Lemma app_cancel_r a b c : a ++ c = b ++ c -> a = b.
Proof.
  revert b. induction a as [ | x a IH]; intros [ | y b] H; cbn in H; [ reflexivity | | | ].
  - apply (f_equal String.length) in H. cbn in H. rewrite length_app_s in H. lia.
  - apply (f_equal String.length) in H. cbn in H. rewrite length_app_s in H. lia.
  - injection H as -> H. rewrite (IH _ H). reflexivity.
Qed.
Lemma image_name_inj dir i j : dir ++ "/" ++ image_name i = dir ++ "/" ++ image_name j -> i = j.
Proof. unfold image_name. intros H. do 3 apply app_cancel_l in H. apply app_cancel_r in H. apply to_string_inj, H. Qed.
Lemma pose_name_inj dir i j : dir ++ "/" ++ pose_name i = dir ++ "/" ++ pose_name j -> i = j.
Proof. unfold pose_name. intros H. do 3 apply app_cancel_l in H. apply app_cancel_r in H. apply to_string_inj, H. Qed.
Lemma image_not_pose dir i j : dir ++ "/" ++ image_name i <> dir ++ "/" ++ pose_name j.
Proof. intros H. apply app_cancel_l in H. discriminate. Qed.
Lemma image_not_index dir i : dir ++ "/" ++ image_name i <> dir ++ "/data.yaml".
Proof. intros H. apply app_cancel_l in H. discriminate. Qed.
Lemma pose_not_index dir i : dir ++ "/" ++ pose_name i <> dir ++ "/data.yaml".
Proof. intros H. apply app_cancel_l in H. discriminate. Qed.

Lemma root_none s : no_slash s -> rootPath s = None.
Proof.
  induction s as [ | c s IH]; intros H; [ reflexivity | ]. cbn [rootPath]. rewrite IH.
  - destruct (Ascii.eqb_spec c "/") as [-> | ]; [ exfalso; apply (H "" s); reflexivity | reflexivity ].
  - intros a b E. apply (H (String c a) b). cbn. rewrite E. reflexivity.
Qed.
Lemma root_path dir base : no_slash base -> rootPath (dir ++ "/" ++ base) = Some dir.
Proof.
  intros H. induction dir as [ | c dir IH].
  - cbn. rewrite root_none by exact H. reflexivity.
  - cbn [append rootPath]. change (dir ++ String "/" base) with (dir ++ "/" ++ base). rewrite IH. reflexivity.
Qed.
Lemma data_yaml_no_slash : no_slash "data.yaml".
Proof. intros a b E. do 9 (destruct a as [ | ? a]; cbn in E; [ discriminate | injection E as _ E ]). destruct a; discriminate. Qed.

Section Proofs.
  Context {image file : Type} (lib : codec image file).

  (** ** Reading *)

  Lemma as_string_iff v s : as_string (scalar_text lib) v = Ok s <-> text lib v s.
  Proof.
    unfold as_string. rewrite as_ok. unfold text. split.
    - destruct v; cbn [decode_string]; try discriminate; intros H; injection H as <-; eauto 8.
    - intros [-> | (-> & [(z & ->) | [(z & ->) | (z & ->)]])]; reflexivity.
  Qed.
  Lemma yo_string v : yaml_only (as_string (scalar_text lib) v).
  Proof. apply yo_as. destruct v; apply yo_ok. Qed.

  (** One turn of the loop, on the entry itself. *)
  Definition turn (disk : fs file) (u : iso) (root_path : string) (data : data_set image) (n : yaml) : res (data_set image) :=
    do v <- field "image" n; do img_path <- as_string (scalar_text lib) v;
    do v <- field "pose" n; do pose_path <- as_string (scalar_text lib) v;
    let image := readImage lib disk (combine_path root_path img_path) in
    if empty_image lib image then Ok data else
    do r <- tryPose_file (load lib disk) (combine_path root_path pose_path) u;
    let '(loaded, p) := r in
    if negb loaded then Ok data else
    Ok (DS (ds_images data ++ [image])%list (ds_tool_poses data ++ [p])%list).
  Lemma yo_turn disk u dir data n : yaml_only (turn disk u dir data n).
  Proof.
    unfold turn. apply yo_bind; [ apply yo_field | intros v ]. apply yo_bind; [ apply yo_string | intros ip ]. apply yo_bind; [ apply yo_field | intros w ]. apply yo_bind; [ apply yo_string | intros pp ].
    cbv zeta. destruct (empty_image _ _); [ apply yo_ok | ]. destruct (try_pose_file (load lib disk) (combine_path dir pp) u) as (b & T & -> & _). cbn [bind]. destruct b; apply yo_ok.
  Qed.
  Lemma yo_turns disk u dir l data : yaml_only (foldM (turn disk u dir) l data).
  Proof. revert data. induction l as [ | n l IH]; intros data; cbn; [ apply yo_ok | ]. apply yo_bind; [ apply yo_turn | exact IH ]. Qed.

  Lemma parse_seq disk u l dir : parse lib disk u (YSeq l) dir = foldM (turn disk u dir) l (DS [] []).
  Proof.
    unfold parse. cbn [ysize]. generalize (DS (image := image) [] []).
    assert (G : forall pre k data, List.length pre = k ->
      foldM (fun data i =>
        do n <- item i (YSeq (pre ++ l)%list); do v <- field "image" n; do img_path <- as_string (scalar_text lib) v;
        do n <- item i (YSeq (pre ++ l)%list); do v <- field "pose" n; do pose_path <- as_string (scalar_text lib) v;
        let image := readImage lib disk (combine_path dir img_path) in
        if empty_image lib image then Ok data else
        do r <- tryPose_file (load lib disk) (combine_path dir pose_path) u;
        let '(loaded, p) := r in
        if negb loaded then Ok data else
        Ok (DS (ds_images data ++ [image])%list (ds_tool_poses data ++ [p])%list)) (seq k (List.length l)) data = foldM (turn disk u dir) l data).
    { induction l as [ | n l IH]; intros pre k data Hk; [ reflexivity | ]. cbn [List.length seq foldM].
      assert (E : item k (YSeq (pre ++ n :: l)%list) = Ok n). { cbn [item]. rewrite nth_error_app2 by lia. rewrite Hk, Nat.sub_diag. reflexivity. }
      rewrite E. cbn [bind].
      match goal with |- bind ?a _ = bind ?b _ => replace a with b end.
      2: { unfold turn. destruct (field "image" n); cbn [bind]; reflexivity. }
      destruct (turn disk u dir data n) as [d | e | ]; cbn [bind]; try reflexivity.
      specialize (IH (pre ++ [n])%list (S k) d). rewrite <- app_assoc in IH. apply IH. rewrite app_length. cbn. lia. }
    intros d. exact (G [] 0 d eq_refl).
  Qed.

  Hypothesis Sane : sane lib.

  Lemma image_iff disk path : let i := readImage lib disk path in empty_image lib i = false <-> exists i', holds_image lib disk path i'.
  Proof.
    unfold readImage, holds_image. destruct (disk path) as [f | ]; cbv zeta.
    - split; [ intros E; exists (imread lib f), f; auto | intros (i' & g & [= <-] & <- & E); exact E ].
    - split; [ intros E; unfold sane in Sane; congruence | intros (i' & g & E & _); discriminate ].
  Qed.
  Lemma image_value disk path i : holds_image lib disk path i -> readImage lib disk path = i /\ empty_image lib i = false.
  Proof. intros (f & E & R & N). unfold readImage. rewrite E. auto. Qed.
  Lemma load_iff disk path n : load lib disk path = Some n <-> exists f, disk path = Some f /\ parse_yaml lib f = Some n.
  Proof. unfold load. destruct (disk path) as [f | ]; split; [ eauto | intros (g & [= <-] & H); exact H | discriminate | intros (g & H & _); discriminate ]. Qed.
  Lemma pose_iff disk path T : loadPose_file (load lib disk) path = Ok T <-> holds_pose lib disk path T.
  Proof.
    rewrite pose_file_iff. unfold holds_pose. split.
    - intros (n & L & q & S & E). apply load_iff in L. destruct L as (f & F & P). exists f, n, q. auto.
    - intros (f & n & q & F & P & S & E). exists n. split; [ apply load_iff; eauto | eauto ].
  Qed.
  Lemma holds_pose_unique disk path T U : holds_pose lib disk path T -> holds_pose lib disk path U -> T = U.
  Proof. intros A B. apply pose_iff in A, B. rewrite A in B. injection B as B. exact B. Qed.
  Lemma holds_image_unique disk path i j : holds_image lib disk path i -> holds_image lib disk path j -> i = j.
  Proof. intros A B. apply image_value in A, B. destruct A as [A _], B as [B _]. congruence. Qed.

  Lemma names_iff n ip pp : names lib n ip pp <-> (exists v, field "image" n = Ok v /\ as_string (scalar_text lib) v = Ok ip) /\ (exists v, field "pose" n = Ok v /\ as_string (scalar_text lib) v = Ok pp).
  Proof.
    unfold names. split; intros [(v & F & A) (w & G & B)]; (split; [ exists v | exists w ]); (split; [ apply field_ok; assumption | apply as_string_iff; assumption ]).
  Qed.
  Lemma turn_names disk u dir data n ip pp : names lib n ip pp -> turn disk u dir data n =
    let image := readImage lib disk (combine_path dir ip) in
    if empty_image lib image then Ok data else
    do r <- tryPose_file (load lib disk) (combine_path dir pp) u;
    let '(loaded, p) := r in
    if negb loaded then Ok data else
    Ok (DS (ds_images data ++ [image])%list (ds_tool_poses data ++ [p])%list).
  Proof.
    intros H. apply names_iff in H. destruct H as [(v & F & A) (w & G & B)]. unfold turn. rewrite F. cbn [bind]. rewrite A. cbn [bind]. rewrite G. cbn [bind]. rewrite B. reflexivity.
  Qed.
  Lemma turn_named disk u dir data n d : turn disk u dir data n = Ok d -> exists ip pp, names lib n ip pp.
  Proof.
    unfold turn. intros H. apply bind_ok in H. destruct H as (v & F & H). apply bind_ok in H. destruct H as (ip & A & H). apply bind_ok in H. destruct H as (w & G & H). apply bind_ok in H. destruct H as (pp & B & H).
    exists ip, pp. apply names_iff. split; eauto.
  Qed.
  Lemma turn_loaded disk u dir data n ip pp i T : names lib n ip pp -> holds_image lib disk (dir ++ "/" ++ ip) i -> holds_pose lib disk (dir ++ "/" ++ pp) T ->
    turn disk u dir data n = Ok (DS (ds_images data ++ [i])%list (ds_tool_poses data ++ [T])%list).
  Proof.
    intros N I P. rewrite (turn_names _ _ _ _ _ _ _ N). apply image_value in I. destruct I as [I E]. unfold combine_path. rewrite I. cbv zeta. rewrite E. apply pose_iff in P. unfold tryPose_file. rewrite P. reflexivity.
  Qed.
  Lemma turn_skipped disk u dir data n ip pp : names lib n ip pp ->
    ~ ((exists i, holds_image lib disk (dir ++ "/" ++ ip) i) /\ (exists T, holds_pose lib disk (dir ++ "/" ++ pp) T)) -> turn disk u dir data n = Ok data.
  Proof.
    intros N H. rewrite (turn_names _ _ _ _ _ _ _ N). cbv zeta. destruct (empty_image lib (readImage lib disk (combine_path dir ip))) eqn:E; [ reflexivity | ].
    destruct (try_pose_file (load lib disk) (combine_path dir pp) u) as (b & T & Et & I & _). rewrite Et. cbn [bind]. destruct b; [ | reflexivity ].
    exfalso. apply H. split; [ apply image_iff, E | ]. exists T. apply pose_iff. destruct (proj1 I eq_refl) as (m & L & q & S & Q). apply pose_file_iff. eauto.
  Qed.
  Lemma fold_iff disk u dir l data d : foldM (turn disk u dir) l data = Ok d <->
    exists ps, pairs_of lib disk dir l ps /\ d = DS (ds_images data ++ map fst ps)%list (ds_tool_poses data ++ map snd ps)%list.
  Proof.
    revert data. induction l as [ | n l IH]; intros data; cbn [foldM].
    - split.
      + intros H. injection H as <-. exists []. split; [ constructor | ]. cbn. rewrite !app_nil_r. destruct data; reflexivity.
      + intros (ps & H & ->). inversion H; subst. cbn. rewrite !app_nil_r. destruct data; reflexivity.
    - rewrite bind_ok. split.
      + intros (e & T & H). apply IH in H. destruct H as (ps & Ps & ->). destruct (turn_named _ _ _ _ _ _ T) as (ip & pp & N).
        destruct (empty_image lib (readImage lib disk (dir ++ "/" ++ ip))) eqn:E.
        * assert (S : ~ ((exists i, holds_image lib disk (dir ++ "/" ++ ip) i) /\ (exists T, holds_pose lib disk (dir ++ "/" ++ pp) T))) by (intros [I _]; apply image_iff in I; congruence).
          rewrite (turn_skipped _ _ _ _ _ _ _ N S) in T. injection T as <-. exists ps. split; [ eapply pair_skipped; eassumption | reflexivity ].
        * apply image_iff in E. destruct E as (i & I). destruct (try_pose_file (load lib disk) (dir ++ "/" ++ pp) u) as ([ | ] & p & Et & If & _).
          -- destruct (proj1 If eq_refl) as (m & L & q & S & Q). assert (P : holds_pose lib disk (dir ++ "/" ++ pp) p) by (apply pose_iff, pose_file_iff; eauto).
             rewrite (turn_loaded _ _ _ _ _ _ _ _ _ N I P) in T. injection T as <-. exists ((i, p) :: ps). cbn [ds_images ds_tool_poses map fst snd]. rewrite <- !app_assoc. split; [ eapply pair_loaded; eassumption | reflexivity ].
          -- assert (S : ~ ((exists i, holds_image lib disk (dir ++ "/" ++ ip) i) /\ (exists T, holds_pose lib disk (dir ++ "/" ++ pp) T))).
             { intros [_ (U & P)]. apply pose_iff in P. unfold tryPose_file in Et. rewrite P in Et. discriminate. }
             rewrite (turn_skipped _ _ _ _ _ _ _ N S) in T. injection T as <-. exists ps. split; [ eapply pair_skipped; eassumption | reflexivity ].
      + intros (ps & Ps & ->). inversion Ps as [ | ? ? qs ip pp i T N I P Q | ? ? qs ip pp N S Q]; subst.
        * exists (DS (ds_images data ++ [i])%list (ds_tool_poses data ++ [T])%list). split; [ eapply turn_loaded; eassumption | ]. apply IH. exists qs. split; [ exact Q | ]. cbn. rewrite <- !app_assoc. reflexivity.
        * exists data. split; [ eapply turn_skipped; eassumption | ]. apply IH. eauto.
  Qed.
  Lemma parse_iff disk u root dir d : parse lib disk u root dir = Ok d <-> exists l ps, index root l /\ pairs_of lib disk dir l ps /\ d = of_pairs ps.
  Proof.
    assert (Z : parse lib disk u root dir = Ok (DS [] []) -> (forall l, root <> YSeq l) -> (forall p l, root <> YMap (p :: l)) -> parse lib disk u root dir = Ok d <-> exists l ps, index root l /\ pairs_of lib disk dir l ps /\ d = of_pairs ps).
    { intros E NS NM. rewrite E. split.
      - intros H. injection H as <-. exists [], []. split; [ right; auto | split; [ constructor | reflexivity ] ].
      - intros (l & ps & [H | (-> & _)] & P & ->); [ exfalso; exact (NS _ H) | ]. inversion P; subst. reflexivity. }
    destruct root as [ | z | r | b | s | l | m]; try (apply Z; [ reflexivity | discriminate | discriminate ]).
    - rewrite parse_seq, fold_iff. split.
      + intros (ps & P & ->). exists l, ps. split; [ left; reflexivity | split; [ exact P | reflexivity ] ].
      + intros (l' & ps & [[= <-] | (-> & H & _)] & P & ->); [ exists ps; split; [ exact P | reflexivity ] | exfalso; exact (H _ eq_refl) ].
    - destruct m as [ | p m]; [ apply Z; [ reflexivity | discriminate | discriminate ] | ]. split; [ discriminate | ].
      intros (l & ps & [H | (_ & _ & H)] & _); [ discriminate | exfalso; exact (H _ _ eq_refl) ].
  Qed.
  Lemma yo_parse disk u root dir : yaml_only (parse lib disk u root dir).
  Proof.
    destruct root as [ | z | r | b | s | l | m]; try (left; eexists; reflexivity); [ rewrite parse_seq; apply yo_turns | ].
    destruct m as [ | p m]; [ left; eexists; reflexivity | right; reflexivity ].
  Qed.

  Definition reading disk dir path d : Prop := exists l ps, index_file lib disk path l /\ pairs_of lib disk dir l ps /\ d = of_pairs ps.
  Lemma from_file_iff disk u dir base d : no_slash base -> parseFromFile lib disk u (dir ++ "/" ++ base) = Ok (Some d) <-> reading disk dir (dir ++ "/" ++ base) d.
  Proof.
    intros B. unfold parseFromFile, LoadFile. rewrite root_path by exact B. unfold reading, index_file. destruct (load lib disk (dir ++ "/" ++ base)) as [root | ] eqn:L.
    - apply load_iff in L. destruct L as (f & F & P). cbn [bind]. split.
      + intros H. destruct (yo_parse disk u root dir) as [[d' E] | E]; rewrite E in H; [ | discriminate ]. injection H as ->. apply parse_iff in E. destruct E as (l & ps & I & Q & ->). exists l, ps. split; [ exists f, root; auto | auto ].
      + intros (l & ps & (f' & root' & F' & P' & I) & Q & ->). rewrite F in F'. injection F' as <-. rewrite P in P'. injection P' as <-. rewrite (proj2 (parse_iff disk u root dir (of_pairs ps))); [ reflexivity | ]. eauto.
    - cbn [bind]. split; [ discriminate | ]. intros (l & ps & (f & root & F & P & I) & _). assert (E : load lib disk (dir ++ "/" ++ base) = Some root) by (apply load_iff; eauto). congruence.
  Qed.
  Lemma from_file_total disk u dir base : no_slash base -> (exists d, parseFromFile lib disk u (dir ++ "/" ++ base) = Ok (Some d)) \/ parseFromFile lib disk u (dir ++ "/" ++ base) = Ok None.
  Proof.
    intros B. unfold parseFromFile, LoadFile. rewrite root_path by exact B. destruct (load lib disk (dir ++ "/" ++ base)) as [root | ]; cbn [bind]; [ | right; reflexivity ].
    destruct (yo_parse disk u root dir) as [[d ->] | ->]; [ left; eauto | right; reflexivity ].
  Qed.
  Lemma from_file_none disk u dir base : no_slash base -> parseFromFile lib disk u (dir ++ "/" ++ base) = Ok None <-> ~ exists d, reading disk dir (dir ++ "/" ++ base) d.
  Proof.
    intros B. split.
    - intros H (d & R). apply (from_file_iff disk u dir base d B) in R. congruence.
    - intros H. destruct (from_file_total disk u dir base B) as [[d E] | E]; [ | exact E ]. exfalso. apply H. exists d. apply (from_file_iff disk u dir base d B), E.
  Qed.
  (** Failure, spelled out. *)
  Lemma has_dec key n : (exists v, has key n v) \/ ~ exists v, has key n v.
  Proof. destruct (field key n) as [v | e | ] eqn:F; [ left; exists v; apply field_ok, F | right; intros (v & H); apply field_ok in H; congruence | right; intros (v & H); apply field_ok in H; congruence ]. Qed.
  Lemma pairs_exist disk dir l : (exists ps, pairs_of lib disk dir l ps) <-> forall n, In n l -> exists ip pp, names lib n ip pp.
  Proof.
    split.
    - intros (ps & P). induction P; intros m Hm; [ contradiction | | ]; (destruct Hm as [<- | Hm]; [ eauto | auto ]).
    - set (u := Iso I3 vzero). intros H. destruct (yo_turns disk u dir l (DS [] [])) as [[d E] | E]; [ apply fold_iff in E; destruct E as (ps & P & _); eauto | ].
      exfalso. revert E. generalize (DS (image := image) [] []). induction l as [ | n l IH]; intros d E; [ discriminate | ]. cbn [foldM] in E.
      destruct (H n (or_introl eq_refl)) as (ip & pp & N). assert (T : exists e, turn disk u dir d n = Ok e).
      { rewrite (turn_names _ _ _ _ _ _ _ N). cbv zeta. destruct (empty_image _ _); [ eauto | ]. destruct (try_pose_file (load lib disk) (combine_path dir pp) u) as (b & T & -> & _). cbn [bind]. destruct b; cbn; eauto. }
      destruct T as [e T]. rewrite T in E. cbn [bind] in E. apply (IH (fun m Hm => H m (or_intror Hm)) _ E).
  Qed.
  Lemma from_file_fails disk u dir base : no_slash base -> parseFromFile lib disk u (dir ++ "/" ++ base) = Ok None <->
    ~ exists l, index_file lib disk (dir ++ "/" ++ base) l /\ forall n, In n l -> exists ip pp, names lib n ip pp.
  Proof.
    intros B. rewrite from_file_none by exact B. unfold reading. split; intros H.
    - intros (l & I & N). apply H. apply (pairs_exist disk dir l) in N. destruct N as [ps P]. eauto 7.
    - intros (d & l & ps & I & P & _). apply H. exists l. split; [ exact I | ]. apply (pairs_exist disk dir l). eauto.
  Qed.
  Lemma same_lengths (ps : list (image * iso)) : List.length (ds_images (of_pairs ps)) = List.length (ds_tool_poses (of_pairs ps)).
  Proof. cbn. rewrite !map_length. reflexivity. Qed.

  (** ** Carrying out writes *)

  Lemma run_other can es : forall (disk : fs file) q, (forall c, ~ In (Write q c) es) -> fst (run can disk es) q = disk q.
  Proof.
    induction es as [ | [p c | e] es IH]; intros disk q H; cbn [run]; [ reflexivity | | reflexivity ]. rewrite IH by (intros c' Hc; apply (H c'); right; exact Hc).
    unfold put. destruct (can p); [ | reflexivity ]. destruct (String.eqb_spec q p) as [-> | ]; [ exfalso; apply (H c); left; reflexivity | reflexivity ].
  Qed.
  Lemma run_keeps can es : forall (disk : fs file) q c, disk q = Some c -> (forall c', In (Write q c') es -> c' = c) -> fst (run can disk es) q = Some c.
  Proof.
    induction es as [ | [p c' | e] es IH]; intros disk q c D H; cbn [run]; [ exact D | | exact D ]. apply IH; [ | intros c'' Hc; apply H; right; exact Hc ].
    unfold put. destruct (can p); [ | exact D ]. destruct (String.eqb_spec q p) as [-> | ]; [ rewrite (H c' (or_introl eq_refl)); reflexivity | exact D ].
  Qed.
  Definition no_raise (es : list (effect file)) : Prop := forall e, ~ In (Raise e) es.
  Lemma run_writes can es : forall (disk : fs file) q c, no_raise es -> can q = true -> In (Write q c) es -> (forall c', In (Write q c') es -> c' = c) -> fst (run can disk es) q = Some c.
  Proof.
    induction es as [ | [p c' | e] es IH]; intros disk q c N C I H; [ contradiction | | ]; cbn [run].
    - destruct I as [[= -> ->] | I].
      + apply run_keeps; [ unfold put; rewrite C, String.eqb_refl; reflexivity | intros c'' Hc; apply H; right; exact Hc ].
      + apply IH; [ intros e He; apply (N e); right; exact He | exact C | exact I | intros c'' Hc; apply H; right; exact Hc ].
    - exfalso. apply (N e). left. reflexivity.
  Qed.
  Lemma run_done can es : forall (disk : fs file), no_raise es -> snd (run can disk es) = None.
  Proof. induction es as [ | [p c | e] es IH]; intros disk N; cbn [run]; [ reflexivity | apply IH; intros e He; apply (N e); right; exact He | exfalso; apply (N e); left; reflexivity ]. Qed.
  Lemma run_cannot can es : forall (disk : fs file), (forall p, can p = false) -> fst (run can disk es) = disk.
  Proof. intros disk H. induction es as [ | [p c | e] es IH]; cbn [run]; [ reflexivity | unfold put; rewrite H; exact IH | reflexivity ]. Qed.

  (** ** The writes of a save *)

  Lemma in_numbered {A} (l : list A) i a : In (i, a) (combine (seq 0 (List.length l)) l) <-> nth_error l i = Some a.
  Proof.
    assert (G : forall k, In (i, a) (combine (seq k (List.length l)) l) <-> k <= i /\ nth_error l (i - k) = Some a).
    { induction l as [ | b l IH]; intros k; cbn [List.length seq combine In].
      - split; [ contradiction | ]. intros [_ H]. destruct (i - k); discriminate.
      - rewrite IH. split.
        + intros [[= -> ->] | [L H]]; [ split; [ lia | rewrite Nat.sub_diag; reflexivity ] | ]. split; [ lia | ]. replace (i - k) with (S (i - S k)) by lia. exact H.
        + intros [L H]. destruct (Nat.eq_dec i k) as [-> | N]; [ left; rewrite Nat.sub_diag in H; injection H as ->; reflexivity | right ]. split; [ lia | ]. replace (i - k) with (S (i - S k)) in H by lia. exact H. }
    rewrite (G 0). rewrite Nat.sub_0_r. split; [ intros [_ H]; exact H | intros H; split; [ lia | exact H ] ].
  Qed.
  Lemma nth_numbered {A} (l : list A) i j a : nth_error (combine (seq 0 (List.length l)) l) i = Some (j, a) -> j = i /\ nth_error l i = Some a.
  Proof.
    assert (G : forall k i, nth_error (combine (seq k (List.length l)) l) i = Some (j, a) -> j = k + i /\ nth_error l i = Some a).
    { clear i. induction l as [ | b l IH]; intros k [ | i] H; cbn in H; try discriminate; [ injection H as -> ->; split; [ lia | reflexivity ] | ]. apply IH in H. destruct H as [-> H]. split; [ lia | exact H ]. }
    apply (G 0).
  Qed.
  Definition effect_at dir (data : data_set image) (e : effect file) : Prop :=
    (exists i img, nth_error (ds_images data) i = Some img /\ e = imwrite lib (dir ++ "/" ++ image_name i) img) \/
    (exists i T, nth_error (ds_tool_poses data) i = Some T /\ e = Write (dir ++ "/" ++ pose_name i) (emit lib (encode_iso T))) \/
    e = Write (dir ++ "/data.yaml") (emit lib (directory data)).
  Lemma in_effects dir data e : In e (save_effects lib dir data) <-> effect_at dir data e.
  Proof.
    unfold save_effects, effect_at. rewrite !in_app_iff, !in_map_iff. cbn [In]. unfold writePose, writeDirectory. split.
    - intros [((i, a) & <- & H) | [((i, a) & <- & H) | [H | []]]]; [ left | right; left | right; right; auto ]; apply in_numbered in H; eauto.
    - intros [(i & a & H & ->) | [(i & a & H & ->) | ->]]; [ left | right; left | right; right; left; reflexivity ]; exists (i, a); (split; [ reflexivity | apply in_numbered, H ]).
  Qed.
  Lemma write_image dir data i c img : nth_error (ds_images data) i = Some img -> In (Write (dir ++ "/" ++ image_name i) c) (save_effects lib dir data) -> c = png lib img.
  Proof.
    intros N H. apply in_effects in H. destruct H as [(j & img' & N' & H) | [(j & T & _ & H) | H]].
    - unfold imwrite in H. destruct (empty_image lib img'); [ discriminate | ]. injection H as E ->. apply image_name_inj in E. subst j. rewrite N in N'. injection N' as ->. reflexivity.
    - injection H as E _. exfalso. exact (image_not_pose _ _ _ E).
    - injection H as E _. exfalso. exact (image_not_index _ _ E).
  Qed.
  Lemma write_pose dir data i c T : nth_error (ds_tool_poses data) i = Some T -> In (Write (dir ++ "/" ++ pose_name i) c) (save_effects lib dir data) -> c = emit lib (encode_iso T).
  Proof.
    intros N H. apply in_effects in H. destruct H as [(j & img' & N' & H) | [(j & U & N' & H) | H]].
    - unfold imwrite in H. destruct (empty_image lib img'); [ discriminate | ]. injection H as E _. exfalso. exact (image_not_pose _ _ _ (eq_sym E)).
    - injection H as E ->. apply pose_name_inj in E. subst j. rewrite N in N'. injection N' as ->. reflexivity.
    - injection H as E _. exfalso. exact (pose_not_index _ _ E).
  Qed.
  Lemma write_index dir data c : In (Write (dir ++ "/data.yaml") c) (save_effects lib dir data) -> c = emit lib (directory data).
  Proof.
    intros H. apply in_effects in H. destruct H as [(j & img' & N' & H) | [(j & U & N' & H) | H]].
    - unfold imwrite in H. destruct (empty_image lib img'); [ discriminate | ]. injection H as E _. exfalso. exact (image_not_index _ _ (eq_sym E)).
    - injection H as E _. exfalso. exact (pose_not_index _ _ (eq_sym E)).
    - injection H as ->. reflexivity.
  Qed.

  (** ** Reading an index of numbered entries *)

  Lemma entry_names i : names lib (numbered i) (image_name i) (pose_name i).
  Proof.
    split; [ exists (YStr (image_name i)) | exists (YStr (pose_name i)) ]; (split; [ | left; reflexivity ]).
    - exists [("pose", YStr (pose_name i))], []. split; [ reflexivity | ]. cbn. intros [H | []]. discriminate.
    - exists [], [("image", YStr (image_name i))]. split; [ reflexivity | auto ].
  Qed.
  Lemma directory_index data : index (directory data) (map numbered (seq 0 (List.length (ds_images (image := image) data)))).
  Proof.
    unfold directory. fold numbered. destruct (map _ _) as [ | e l] eqn:E; [ right | left; reflexivity ]. split; [ reflexivity | split; discriminate ].
  Qed.
  (** The pair with this number is on disk, or it is not. *)
  Definition pair_at disk dir i (o : option (image * iso)) : Prop :=
    match o with
    | Some (img, T) => holds_image lib disk (dir ++ "/" ++ image_name i) img /\ holds_pose lib disk (dir ++ "/" ++ pose_name i) T
    | None => ~ ((exists img, holds_image lib disk (dir ++ "/" ++ image_name i) img) /\ (exists T, holds_pose lib disk (dir ++ "/" ++ pose_name i) T))
    end.
  Fixpoint somes {A} (l : list (option A)) : list A := match l with [] => [] | Some a :: r => a :: somes r | None :: r => somes r end.
  Lemma pairs_numbered disk dir k (os : list (option (image * iso))) : (forall i o, nth_error os i = Some o -> pair_at disk dir (k + i) o) ->
    pairs_of lib disk dir (map numbered (seq k (List.length os))) (somes os).
  Proof.
    revert k. induction os as [ | o os IH]; intros k H; cbn [List.length seq map somes]; [ constructor | ].
    assert (R : pairs_of lib disk dir (map numbered (seq (S k) (List.length os))) (somes os)). { apply IH. intros i o' Ho. replace (S k + i) with (k + S i) by lia. apply H. exact Ho. }
    specialize (H 0 o eq_refl). rewrite Nat.add_0_r in H. destruct o as [[img T] | ]; cbn in H.
    - eapply pair_loaded; [ apply entry_names | apply H | apply H | exact R ].
    - eapply pair_skipped; [ apply entry_names | exact H | exact R ].
  Qed.
  Lemma somes_all {A} (l : list A) : somes (map Some l) = l.
  Proof. induction l; cbn; [ reflexivity | rewrite IHl; reflexivity ]. Qed.
  Lemma somes_app {A} (l1 l2 : list (option A)) : somes (l1 ++ l2)%list = (somes l1 ++ somes l2)%list.
  Proof. induction l1 as [ | [a | ] l1 IH]; cbn; [ reflexivity | rewrite IH; reflexivity | exact IH ]. Qed.

  Section Lossless.
    Variable storable : image -> Prop.
    Hypothesis L : lossless lib storable.

    Lemma image_holds disk path i : storable i -> disk path = Some (png lib i) -> holds_image lib disk path i.
    Proof. intros S D. destruct L as (_ & Li & _). destruct (Li i S) as [E R]. exists (png lib i). auto. Qed.
    Lemma pose_holds disk path T : rigid T -> disk path = Some (emit lib (encode_iso T)) -> holds_pose lib disk path T.
    Proof.
      intros R D. destruct L as (_ & _ & Lp & _). apply pose_iff, pose_file_iff. exists (encode_iso T). split; [ apply load_iff; exists (emit lib (encode_iso T)); auto | ]. apply iso_reads, iso_round, R.
    Qed.
    Lemma pair_holds disk dir i img T : storable img -> rigid T -> disk (dir ++ "/" ++ image_name i) = Some (png lib img) -> disk (dir ++ "/" ++ pose_name i) = Some (emit lib (encode_iso T)) ->
      pair_at disk dir i (Some (img, T)).
    Proof. intros S R A B. split; [ apply image_holds; assumption | apply pose_holds; assumption ]. Qed.

    Definition fine (data : data_set image) : Prop := forall i, In i (ds_images data) -> storable i.
    Lemma fine_no_raise dir data : fine data -> no_raise (save_effects lib dir data).
    Proof.
      intros F e H. apply in_effects in H. destruct H as [(j & img & N & H) | [(j & U & N' & H) | H]]; [ | discriminate | discriminate ].
      unfold imwrite in H. destruct L as (_ & Li & _). rewrite (proj1 (Li img (F img (nth_error_In _ _ N)))) in H. discriminate.
    Qed.
    Lemma nonempty i : storable i -> empty_image lib i = false.
    Proof. intros S. destruct L as (_ & Li & _). apply Li, S. Qed.

    (** A saved data set; the numbers of images and poses need not agree. *)
    Lemma saved_files can disk dir data : fine data -> (forall p, can p = true) ->
      exists disk', saveToDirectory lib can disk dir data = (disk', Ok true) /\
        disk' (dir ++ "/data.yaml") = Some (emit lib (directory data)) /\
        (forall i img, nth_error (ds_images data) i = Some img -> disk' (dir ++ "/" ++ image_name i) = Some (png lib img)) /\
        (forall i T, nth_error (ds_tool_poses data) i = Some T -> disk' (dir ++ "/" ++ pose_name i) = Some (emit lib (encode_iso T))) /\
        (forall q, (forall c, ~ In (Write q c) (save_effects lib dir data)) -> disk' q = disk q).
    Proof.
      intros F C. pose proof (fine_no_raise dir data F) as N. exists (fst (run can disk (save_effects lib dir data))). split.
      - unfold saveToDirectory. pose proof (run_done can _ disk N) as E. destruct (run can disk (save_effects lib dir data)) as [d o]. cbn in *. rewrite E. reflexivity.
      - split; [ | split; [ | split ] ].
        + apply run_writes; [ exact N | apply C | apply in_effects; right; right; reflexivity | intros c; apply write_index ].
        + intros i img H. apply run_writes; [ exact N | apply C | | intros c; apply write_image, H ]. apply in_effects. left. exists i, img. split; [ exact H | ].
          unfold imwrite. rewrite (nonempty img (F img (nth_error_In _ _ H))). reflexivity.
        + intros i T H. apply run_writes; [ exact N | apply C | | intros c; apply write_pose, H ]. apply in_effects. right. left. eauto.
        + intros q H. apply run_other, H.
    Qed.

    Lemma nth_map_some {A} (l : list A) i o : nth_error (map Some l) i = Some o -> exists a, o = Some a /\ nth_error l i = Some a.
    Proof. rewrite nth_error_map. destruct (nth_error l i); [ intros [= <-]; eauto | discriminate ]. Qed.
    Lemma index_read disk dir k f root u : disk (dir ++ "/data.yaml") = Some f -> parse_yaml lib f = Some root -> index root (map numbered (seq 0 k)) ->
      forall os, List.length os = k -> (forall i o, nth_error os i = Some o -> pair_at disk dir i o) ->
      parseFromFile lib disk u (dir ++ "/data.yaml") = Ok (Some (of_pairs (somes os))).
    Proof.
      intros D P I os Lo H. apply (from_file_iff disk u dir "data.yaml" _ data_yaml_no_slash). exists (map numbered (seq 0 k)), (somes os).
      split; [ exists f, root; auto | split; [ | reflexivity ] ]. rewrite <- Lo. apply pairs_numbered. exact H.
    Qed.
    Lemma stored_reads disk dir ps u : storable_pairs storable ps -> stored lib disk dir ps -> parseFromFile lib disk u (dir ++ "/data.yaml") = Ok (Some (of_pairs ps)).
    Proof.
      intros S (D & H). destruct L as (_ & _ & _ & Ld). rewrite <- (somes_all ps) at 1.
      refine (index_read disk dir _ _ _ u D (Ld _) (directory_index _) (map Some ps) _ _); [ cbn; rewrite !map_length; reflexivity | ].
      intros i o E. apply nth_map_some in E. destruct E as ([img T] & -> & E). destruct (H i img T E). destruct (S img T (nth_error_In _ _ E)). apply pair_holds; assumption.
    Qed.
    Lemma pairs_fine ps : storable_pairs storable ps -> fine (of_pairs ps).
    Proof. intros S i H. cbn in H. apply in_map_iff in H. destruct H as ([j T] & <- & H). apply (S j T H). Qed.
    Lemma save_stored can disk dir ps : storable_pairs storable ps -> (forall p, can p = true) ->
      exists disk', saveToDirectory lib can disk dir (of_pairs ps) = (disk', Ok true) /\ stored lib disk' dir ps.
    Proof.
      intros S C. destruct (saved_files can disk dir (of_pairs ps) (pairs_fine ps S) C) as (disk' & E & D & Hi & Hp & _). exists disk'. split; [ exact E | ]. split; [ exact D | ].
      intros n i T H. split; [ apply Hi | apply Hp ]; cbn; rewrite nth_error_map, H; reflexivity.
    Qed.
    Lemma save_parse can disk dir ps u : storable_pairs storable ps -> (forall p, can p = true) ->
      exists disk', saveToDirectory lib can disk dir (of_pairs ps) = (disk', Ok true) /\ parseFromFile lib disk' u (dir ++ "/data.yaml") = Ok (Some (of_pairs ps)).
    Proof.
      intros S C. destruct (save_stored can disk dir ps S C) as (disk' & E & D). exists disk'. split; [ exact E | ]. apply stored_reads; assumption.
    Qed.
    (** Everything else on the disk stays. *)
    Lemma save_elsewhere can disk dir data q : (forall r, q <> dir ++ "/" ++ r) -> fst (saveToDirectory lib can disk dir data) q = disk q.
    Proof.
      intros H. assert (E : fst (run can disk (save_effects lib dir data)) q = disk q).
      { apply run_other. intros c I. apply in_effects in I. destruct I as [(j & img & _ & I) | [(j & U & _ & I) | I]].
        - unfold imwrite in I. destruct (empty_image lib img); [ discriminate | ]. injection I as I _. exact (H _ I).
        - injection I as I _. exact (H _ I).
        - injection I as I _. exact (H _ I). }
      unfold saveToDirectory. destruct (run can disk (save_effects lib dir data)) as [d [e | ]]; exact E.
    Qed.
    Lemma save_silent can disk dir data : fine data -> (forall p, can p = false) -> saveToDirectory lib can disk dir data = (disk, Ok true).
    Proof.
      intros F C. pose proof (run_done can _ disk (fine_no_raise dir data F)) as N. pose proof (run_cannot can (save_effects lib dir data) disk C) as E.
      unfold saveToDirectory. destruct (run can disk (save_effects lib dir data)) as [d o]. cbn in *. subst. reflexivity.
    Qed.
    (** Images without poses are dropped when there are no old pose files, and so are poses without images. *)
    Lemma save_uneven can disk dir images poses u : (forall i, In i images -> storable i) -> (forall T, In T poses -> rigid T) -> (forall p, can p = true) ->
      (forall i, List.length poses <= i -> disk (dir ++ "/" ++ pose_name i) = None) ->
      exists disk', saveToDirectory lib can disk dir (DS images poses) = (disk', Ok true) /\ parseFromFile lib disk' u (dir ++ "/data.yaml") = Ok (Some (of_pairs (combine images poses))).
    Proof.
      intros Si Rp C Old. destruct (saved_files can disk dir (DS images poses) Si C) as (disk' & E & D & Hi & Hp & Ho). exists disk'. split; [ exact E | ].
      destruct L as (_ & _ & _ & Ld).
      set (os := map (fun p => match nth_error poses (fst p) with Some T => Some (snd p, T) | None => None end) (combine (seq 0 (List.length images)) images)).
      assert (O : somes os = combine images poses).
      { unfold os. clear. assert (G : forall k (ps pre : list iso), List.length pre = k -> somes (map (fun p => match nth_error (pre ++ ps)%list (fst p) with Some T => Some (snd p, T) | None => None end) (combine (seq k (List.length images)) images)) = combine images ps).
        { induction images as [ | i images IH]; intros k ps pre Hk; [ reflexivity | ]. cbn [List.length seq combine map fst snd]. rewrite nth_error_app2 by lia. rewrite Hk, Nat.sub_diag. destruct ps as [ | T ps]; cbn [nth_error somes combine].
          - specialize (IH (S k) []). rewrite app_nil_r in *. clear - Hk.
            assert (N : forall (l : list image) j, List.length pre <= j -> somes (map (fun p => match nth_error pre (fst p) with Some T => Some (snd p, T) | None => None end) (combine (seq j (List.length l)) l)) = []).
            { induction l as [ | a l IHl]; intros j Hj; [ reflexivity | ]. cbn [List.length seq combine map fst snd]. rewrite (proj2 (nth_error_None pre j)) by lia. cbn. apply IHl. lia. }
            apply N. lia.
          - f_equal. specialize (IH (S k) ps (pre ++ [T])%list). rewrite <- app_assoc in IH. apply IH. rewrite app_length. cbn. lia. }
        exact (G 0 poses [] eq_refl). }
      rewrite <- O. refine (index_read disk' dir _ _ _ u D (Ld _) (directory_index _) os _ _).
      - unfold os. cbn. rewrite map_length, combine_length, seq_length. lia.
      - intros i o H. unfold os in H. rewrite nth_error_map in H. destruct (nth_error (combine (seq 0 (List.length images)) images) i) as [[j img] | ] eqn:Ej; [ | discriminate ]. cbn in H. injection H as <-.
        assert (X : j = i /\ nth_error images i = Some img) by (apply nth_numbered in Ej; exact Ej).
        destruct X as [-> Ni]. destruct (nth_error poses i) as [T | ] eqn:Ep.
        + apply pair_holds; [ apply Si, (nth_error_In _ _ Ni) | apply Rp, (nth_error_In _ _ Ep) | apply Hi, Ni | apply Hp, Ep ].
        + intros [_ (T & f & n & q & F & _)]. rewrite Ho in F.
          * rewrite Old in F by (apply nth_error_None, Ep). discriminate.
          * intros c I. apply in_effects in I. destruct I as [(j & img' & _ & I) | [(j & U & Nj & I) | I]].
            -- unfold imwrite in I. destruct (empty_image lib img'); [ discriminate | ]. injection I as I _. exact (image_not_pose _ _ _ (eq_sym I)).
            -- injection I as I _. apply pose_name_inj in I. subst j. cbn in Nj. congruence.
            -- injection I as I _. exact (pose_not_index _ _ I).
    Qed.
  End Lossless.
End Proofs.
