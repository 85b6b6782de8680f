(** Interrupted saves. *)
From Coq Require Import Reals Lra Lia ZArith String List Bool.
From Verif.Base Require Import Geom Outcome.
From Verif.Model Require Import Yaml Serialization Loaders DataSet.
From Verif.Spec Require Import YamlSpec LoaderSpec DataSetSpec.
From Verif.Proofs Require Import ListLemmas GeomLemmas YamlProofs LoaderProofs DataSetProofs.
Import ListNotations.
Local Open Scope string_scope.

Section Interrupt.
  Context {image file : Type} (lib : codec image file) (storable : image -> Prop).
  Hypothesis L : lossless lib storable.
  Let Sane : sane lib := proj1 L.

  Lemma index_last dir data : exists front, save_effects lib dir data = (front ++ [Write (dir ++ "/data.yaml") (emit lib (directory data))])%list /\
    (forall e, In e front -> In e (save_effects lib dir data)) /\ (forall c, ~ In (Write (dir ++ "/data.yaml") c) front).
  Proof.
    unfold save_effects. eexists. rewrite app_assoc. split; [ reflexivity | ]. split; [ intros e H; apply in_app_iff; left; exact H | ].
    intros c H. apply in_app_iff in H. rewrite !in_map_iff in H. destruct H as [((i, a) & H & _) | ((i, a) & H & _)].
    - unfold imwrite in H. destruct (empty_image lib _); [ discriminate | ]. injection H as H _. exact (image_not_index _ _ H).
    - injection H as H _. exact (pose_not_index _ _ H).
  Qed.
  Lemma split_last {A} (front done rest : list A) w : (front ++ [w] = done ++ rest)%list -> rest <> [] -> exists rest', rest = (rest' ++ [w])%list /\ front = (done ++ rest')%list.
  Proof.
    intros E N. destruct (exists_last N) as (rest' & x & ->). rewrite app_assoc in E. apply app_inj_tail in E. destruct E as [-> ->]. exists rest'. auto.
  Qed.
  Lemma not_yet dir data done rest : save_effects lib dir data = (done ++ rest)%list -> rest <> [] -> forall c, ~ In (Write (dir ++ "/data.yaml") c) done.
  Proof.
    intros E N c H. destruct (index_last dir data) as (front & F & _ & G). rewrite F in E. destruct (split_last _ _ _ _ E N) as (rest' & -> & ->). apply (G c). apply in_app_iff. left. exact H.
  Qed.

  Lemma index_missing disk dir u : (forall f root, disk (dir ++ "/data.yaml") = Some f -> parse_yaml lib f = Some root -> False) -> parseFromFile lib disk u (dir ++ "/data.yaml") = Ok None.
  Proof.
    intros H. apply (from_file_fails lib Sane disk u dir "data.yaml" data_yaml_no_slash). intros (l & (f & root & F & P & _) & _). exact (H f root F P).
  Qed.
  Lemma update_other (disk : fs file) p o q : q <> p -> update disk p o q = disk q.
  Proof. intros N. unfold update. destruct (String.eqb_spec q p); [ contradiction | reflexivity ]. Qed.
  Lemma update_same (disk : fs file) p o : update disk p o p = o.
  Proof. unfold update. rewrite String.eqb_refl. reflexivity. Qed.

  (** ** First save *)

  Lemma first_before disk dir data disk' u : disk (dir ++ "/data.yaml") = None -> before_index lib disk dir data disk' -> parseFromFile lib disk' u (dir ++ "/data.yaml") = Ok None.
  Proof.
    intros D I. apply index_missing. intros f root F _. destruct I as [done rest N E | done path content rest o N E U].
    - rewrite run_other in F by (apply (not_yet _ _ _ _ E N)). congruence.
    - rewrite update_other in F.
      + rewrite run_other in F by (refine (not_yet _ _ _ _ E _); discriminate). congruence.
      + intros <-. apply (not_yet dir data (done ++ [Write (dir ++ "/data.yaml") content])%list rest) with (c := content); [ rewrite <- app_assoc; exact E | exact N | ]. apply in_app_iff. right. left. reflexivity.
  Qed.

  Lemma nth_firstn {A} (l : list A) k i a : nth_error (firstn k l) i = Some a -> i < k /\ nth_error l i = Some a.
  Proof.
    revert k i. induction l as [ | b l IH]; intros [ | k] [ | i] H; cbn in H; try discriminate; [ split; [ lia | exact H ] | ]. apply IH in H. split; [ lia | apply H ].
  Qed.
  Lemma within_result disk dir ps k disk' u : storable_pairs storable ps -> within_index lib disk dir (of_pairs ps) k disk' ->
    parseFromFile lib disk' u (dir ++ "/data.yaml") = Ok None \/ parseFromFile lib disk' u (dir ++ "/data.yaml") = Ok (Some (of_pairs (firstn k ps))).
  Proof.
    intros S [done path content o E K T]. cbn [ds_images of_pairs] in K. rewrite map_length in K.
    assert (NR : no_raise done). { intros e H. apply (fine_no_raise lib storable L dir (of_pairs ps) (pairs_fine storable ps S) e). rewrite E. apply in_app_iff. left. exact H. }
    destruct (index_last dir (of_pairs ps)) as (front & F & _ & G). pose proof E as E2. rewrite F in E2. apply app_inj_tail in E2. destruct E2 as [-> [= <- <-]].
    assert (P : forall i img T, nth_error ps i = Some (img, T) -> pair_at lib (update (fst (run always disk done)) (dir ++ "/data.yaml") o) dir i (Some (img, T))).
    { intros i img U H. destruct (S img U (nth_error_In _ _ H)) as [Si Ri]. apply (pair_holds lib storable L); [ exact Si | exact Ri | | ].
      - rewrite update_other by (apply image_not_index). assert (N : nth_error (ds_images (of_pairs ps)) i = Some img) by (cbn; rewrite nth_error_map, H; reflexivity).
        apply run_writes; [ exact NR | reflexivity | | intros c Hc; apply (write_image lib dir (of_pairs ps) i c img N); rewrite E; apply in_app_iff; left; exact Hc ].
        assert (J : In (Write (dir ++ "/" ++ image_name i) (png lib img)) (save_effects lib dir (of_pairs ps))). { apply in_effects. left. exists i, img. split; [ exact N | ]. unfold imwrite. rewrite (nonempty lib storable L img Si). reflexivity. }
        rewrite E in J. apply in_app_iff in J. destruct J as [J | [J | []]]; [ exact J | ]. injection J as J _. exfalso. exact (image_not_index _ _ (eq_sym J)).
      - rewrite update_other by (apply pose_not_index). assert (N : nth_error (ds_tool_poses (of_pairs ps)) i = Some U) by (cbn; rewrite nth_error_map, H; reflexivity).
        apply run_writes; [ exact NR | reflexivity | | intros c Hc; apply (write_pose lib dir (of_pairs ps) i c U N); rewrite E; apply in_app_iff; left; exact Hc ].
        assert (J : In (Write (dir ++ "/" ++ pose_name i) (emit lib (encode_iso U))) (save_effects lib dir (of_pairs ps))). { apply in_effects. right. left. eauto. }
        rewrite E in J. apply in_app_iff in J. destruct J as [J | [J | []]]; [ exact J | ]. injection J as J _. exfalso. exact (pose_not_index _ _ (eq_sym J)). }
    clear disk'. set (disk' := update _ _ _) in *. assert (D : disk' (dir ++ "/data.yaml") = o) by apply update_same. clearbody disk'.
    assert (Q : forall i o', nth_error (map Some (firstn k ps)) i = Some o' -> pair_at lib disk' dir i o').
    { intros i o' H. apply nth_map_some in H. destruct H as ([img U] & -> & H). apply nth_firstn in H. apply P, H. }
    assert (Len : List.length (map Some (firstn k ps)) = k) by (rewrite map_length, firstn_length; lia).
    destruct o as [f | ]; [ | left; apply index_missing; intros f root H _; congruence ]. destruct T as [T | [[-> T] | [T | T]]].
    - left. apply index_missing. intros f' root H. rewrite D in H. injection H as <-. congruence.
    - right. rewrite <- (somes_all (firstn 0 ps)). refine (index_read lib Sane disk' dir 0 f YNull u D T _ _ Len Q). right. split; [ reflexivity | split; discriminate ].
    - right. rewrite <- (somes_all (firstn k ps)). refine (index_read lib Sane disk' dir k f _ u D T _ _ Len Q). left. reflexivity.
    - left. apply (from_file_fails lib Sane disk' u dir "data.yaml" data_yaml_no_slash). intros (l & (f' & root & F' & P' & I) & H). change (dir ++ "/" ++ "data.yaml") with (dir ++ "/data.yaml") in F'. rewrite D in F'. injection F' as <-. rewrite T in P'. injection P' as <-.
      destruct I as [[= <-] | (_ & N & _)]; [ | exfalso; exact (N _ eq_refl) ].
      destruct (H (YMap [("pose", YStr (pose_name k))])) as (ip & pp & (v & W & _) & _); [ apply in_app_iff; right; left; reflexivity | ]. apply field_ok in W. discriminate.
  Qed.

  (** ** Saving a longer version *)

  Lemma nth_app_left {A} (l1 l2 : list A) i a : nth_error l1 i = Some a -> nth_error (l1 ++ l2)%list i = Some a.
  Proof. intros H. rewrite nth_error_app1; [ exact H | ]. apply nth_error_Some. congruence. Qed.
  Lemma stored_during disk dir old more done rest : stored lib disk dir old -> save_effects lib dir (of_pairs (old ++ more)%list) = (done ++ rest)%list -> rest <> [] -> stored lib (fst (run always disk done)) dir old.
  Proof.
    intros (D & H) E N. split; [ rewrite run_other by (apply (not_yet _ _ _ _ E N)); exact D | ].
    intros n i T Hn. destruct (H n i T Hn) as [A B]. apply (nth_app_left old more) in Hn. split; apply run_keeps; try assumption; intros c Hc.
    - apply (write_image lib dir (of_pairs (old ++ more)%list) n c i); [ cbn; rewrite nth_error_map, Hn; reflexivity | rewrite E; apply in_app_iff; left; exact Hc ].
    - apply (write_pose lib dir (of_pairs (old ++ more)%list) n c T); [ cbn; rewrite nth_error_map, Hn; reflexivity | rewrite E; apply in_app_iff; left; exact Hc ].
  Qed.
  Lemma no_image_there disk path (o : option file) : unusable lib o -> disk path = o -> ~ exists i, holds_image lib disk path i.
  Proof. intros U D (i & f & F & R & E). rewrite <- D, F in U. destruct U as [U _]. congruence. Qed.
  Lemma no_pose_there disk path (o : option file) : unusable lib o -> disk path = o -> ~ exists T, holds_pose lib disk path T.
  Proof. intros U D (T & f & n & q & F & P & Q & _). rewrite <- D, F in U. destruct U as [_ U]. apply (U n P). eauto. Qed.

  Lemma torn_result disk dir ps j path o u : storable_pairs storable ps -> stored lib disk dir ps -> unusable lib o ->
    path = dir ++ "/" ++ image_name j \/ path = dir ++ "/" ++ pose_name j ->
    exists qs, parseFromFile lib (update disk path o) u (dir ++ "/data.yaml") = Ok (Some (of_pairs qs)) /\ (qs = ps \/ without_one ps qs).
  Proof.
    intros S (D & H) U P. pose proof (proj2 (proj2 (proj2 L))) as Ld.
    assert (NI : dir ++ "/data.yaml" <> path) by (destruct P as [-> | ->]; intros E; [ exact (image_not_index _ _ (eq_sym E)) | exact (pose_not_index _ _ (eq_sym E)) ]).
    assert (D' : update disk path o (dir ++ "/data.yaml") = Some (emit lib (directory (of_pairs ps)))) by (rewrite update_other by exact NI; exact D).
    assert (Len : List.length (ds_images (of_pairs ps)) = List.length ps) by (cbn; apply map_length).
    assert (G : forall i img T, i <> j -> nth_error ps i = Some (img, T) -> pair_at lib (update disk path o) dir i (Some (img, T))).
    { intros i img T N Hi. destruct (H i img T Hi) as [A B]. destruct (S img T (nth_error_In _ _ Hi)). apply (pair_holds lib storable L); [ assumption | assumption | | ]; (rewrite update_other; [ assumption | ]);
        intros E; destruct P as [-> | ->]; try (apply N; first [ apply (image_name_inj _ _ _ E) | apply (pose_name_inj _ _ _ E) ]); first [ exact (image_not_pose _ _ _ E) | exact (image_not_pose _ _ _ (eq_sym E)) ]. }
    destruct (nth_error ps j) as [[img T] | ] eqn:Ej.
    - exists (firstn j ps ++ skipn (Datatypes.S j) ps)%list. assert (X : ps = (firstn j ps ++ (img, T) :: skipn (Datatypes.S j) ps)%list).
      { clear - Ej. revert j Ej. induction ps as [ | p ps IH]; intros [ | j] E; cbn in E; try discriminate; [ injection E as ->; reflexivity | ]. cbn. f_equal. apply IH, E. }
      assert (Lj : j < List.length ps) by (apply nth_error_Some; congruence).
      split; [ | right; exists (firstn j ps), (img, T), (skipn (Datatypes.S j) ps); auto ].
      replace (firstn j ps ++ skipn (Datatypes.S j) ps)%list with (somes (map Some (firstn j ps) ++ None :: map Some (skipn (Datatypes.S j) ps))%list) by (rewrite somes_app; cbn; rewrite !somes_all; reflexivity).
      refine (index_read lib Sane (update disk path o) dir _ _ _ u D' (Ld _) (directory_index _) _ _ _).
      + rewrite Len. rewrite X at 3. rewrite !app_length. cbn [List.length]. rewrite !map_length. reflexivity.
      + intros i o' Hi. destruct (Nat.lt_trichotomy i j) as [C | [-> | C]].
        * rewrite nth_error_app1 in Hi by (rewrite map_length, firstn_length; lia). apply nth_map_some in Hi. destruct Hi as ([img' T'] & -> & Hi). apply nth_firstn in Hi. apply G; [ lia | apply Hi ].
        * rewrite nth_error_app2 in Hi by (rewrite map_length, firstn_length; lia). rewrite map_length, firstn_length, Nat.min_l, Nat.sub_diag in Hi by lia. injection Hi as <-.
          cbn. destruct P as [-> | ->]; [ intros [I _]; exact (no_image_there _ _ o U (update_same _ _ _) I) | intros [_ I]; exact (no_pose_there _ _ o U (update_same _ _ _) I) ].
        * rewrite nth_error_app2 in Hi by (rewrite map_length, firstn_length; lia). rewrite map_length, firstn_length, Nat.min_l in Hi by lia. destruct (i - j) as [ | m] eqn:Em; [ lia | ]. cbn in Hi.
          apply nth_map_some in Hi. destruct Hi as ([img' T'] & -> & Hi). apply G; [ lia | ]. rewrite X. rewrite nth_error_app2 by (rewrite firstn_length; lia). rewrite firstn_length, Nat.min_l by lia. rewrite Em. exact Hi.
    - exists ps. split; [ | left; reflexivity ]. rewrite <- (somes_all ps) at 1. refine (index_read lib Sane (update disk path o) dir _ _ _ u D' (Ld _) (directory_index _) _ _ _).
      + rewrite Len, map_length. reflexivity.
      + intros i o' Hi. apply nth_map_some in Hi. destruct Hi as ([img' T'] & -> & Hi). apply G; [ intros ->; congruence | exact Hi ].
  Qed.
  Lemma longer_before disk dir old more disk' u : storable_pairs storable old -> stored lib disk dir old -> before_index lib disk dir (of_pairs (old ++ more)%list) disk' ->
    exists qs, parseFromFile lib disk' u (dir ++ "/data.yaml") = Ok (Some (of_pairs qs)) /\ (qs = old \/ without_one old qs).
  Proof.
    intros S St I. destruct I as [done rest N E | done path content rest o N E U].
    - exists old. split; [ | left; reflexivity ]. apply (stored_reads lib Sane storable L); [ exact S | ]. apply (stored_during disk dir old more done rest St E N).
    - assert (St' : stored lib (fst (run always disk done)) dir old) by (apply (stored_during disk dir old more done _ St E); discriminate).
      assert (J : exists j, path = dir ++ "/" ++ image_name j \/ path = dir ++ "/" ++ pose_name j).
      { assert (W : In (Write path content) (save_effects lib dir (of_pairs (old ++ more)%list))) by (rewrite E; apply in_app_iff; right; left; reflexivity).
        apply in_effects in W. destruct W as [(j & img & _ & W) | [(j & T & _ & W) | W]].
        - unfold imwrite in W. destruct (empty_image lib img); [ discriminate | ]. injection W as -> _. exists j. auto.
        - injection W as -> _. exists j. auto.
        - injection W as -> ->. exfalso. refine (not_yet dir (of_pairs (old ++ more)%list) (done ++ [Write (dir ++ "/data.yaml") (emit lib (directory (of_pairs (old ++ more)%list)))])%list rest _ N _ _); [ rewrite <- app_assoc; exact E | apply in_app_iff; right; left; reflexivity ]. }
      destruct J as [j J]. apply (torn_result _ dir old j path o u S St' U J).
  Qed.
End Interrupt.

(** ** Examples *)

Definition moved : iso := Iso I3 (V3 1 2 3).
Definition still : iso := Iso I3 vzero.
Lemma rigid_I3 t : rigid (Iso I3 t).
Proof. unfold rigid. cbn [lin]. exact is_rot_I. Qed.
Definition real_image (i : nat) : Prop := i <> 0.
Lemma plain_lossless : lossless plain_codec real_image.
Proof.
  split; [ reflexivity | ]. split; [ | split; reflexivity ]. intros [ | i] H; [ exfalso; apply H; reflexivity | split; reflexivity ].
Qed.
Lemma two_storable : storable_pairs real_image [(1, still); (2, moved)].
Proof. intros i T [[= <- <-] | [[= <- <-] | []]]; (split; [ discriminate | apply rigid_I3 ]). Qed.
Definition blank : fs (nat + yaml) := fun _ => None.
Definition two : list (nat * iso) := [(1, still); (2, moved)].
(** The index was opened, but nothing was written to it. *)
Definition opened : fs (nat + yaml) :=
  update (fst (run always blank (firstn 4 (save_effects plain_codec "d" (of_pairs two))))) "d/data.yaml" (Some (inr YNull)).
Lemma opened_interrupted : within_index plain_codec blank "d" (of_pairs two) 0 opened.
Proof. unfold opened. eapply in_index with (content := inr (directory (of_pairs two))); [ reflexivity | apply Nat.le_0_l | right; left; split; reflexivity ]. Qed.
Lemma opened_empty u : parseFromFile plain_codec opened u "d/data.yaml" = Ok (Some (of_pairs [])).
Proof. reflexivity. Qed.
(** Half of the index was written. *)
Definition half : fs (nat + yaml) :=
  update (fst (run always blank (firstn 4 (save_effects plain_codec "d" (of_pairs two))))) "d/data.yaml" (Some (inr (YSeq [numbered 0]))).
Lemma half_interrupted : within_index plain_codec blank "d" (of_pairs two) 1 half.
Proof. unfold half. eapply in_index with (content := inr (directory (of_pairs two))); [ reflexivity | cbn; lia | right; right; left; reflexivity ]. Qed.
Lemma half_one u : parseFromFile plain_codec half u "d/data.yaml" = Ok (Some (of_pairs [(1, still)])).
Proof.
  destruct (within_result plain_codec real_image plain_lossless blank "d" two 1 half u two_storable half_interrupted) as [H | H]; [ | exact H ].
  apply (from_file_fails plain_codec (proj1 plain_lossless) half u "d" "data.yaml" data_yaml_no_slash) in H. exfalso. apply H. exists [numbered 0]. split.
  - exists (inr (YSeq [numbered 0])), (YSeq [numbered 0]). split; [ reflexivity | split; [ reflexivity | left; reflexivity ] ].
  - intros n [<- | []]. exists (image_name 0), (pose_name 0). apply entry_names.
Qed.
(** The first image of another data set was written over the old one. *)
Definition old_disk : fs (nat + yaml) := fst (saveToDirectory plain_codec always blank "d" (of_pairs [(1, still)])).
Definition mixed_disk : fs (nat + yaml) := fst (run always old_disk (firstn 1 (save_effects plain_codec "d" (of_pairs [(2, moved)])))).
Lemma old_stored : stored plain_codec old_disk "d" [(1, still)].
Proof. split; [ reflexivity | ]. intros [ | n] i T H; [ injection H as <- <-; split; reflexivity | destruct n; discriminate ]. Qed.
Lemma mixed_interrupted : before_index plain_codec old_disk "d" (of_pairs [(2, moved)]) mixed_disk.
Proof. unfold mixed_disk. eapply between with (rest := skipn 1 (save_effects plain_codec "d" (of_pairs [(2, moved)]))); [ discriminate | symmetry; apply firstn_skipn ]. Qed.
Lemma mixed_reads u : parseFromFile plain_codec mixed_disk u "d/data.yaml" = Ok (Some (of_pairs [(2, still)])).
Proof.
  refine (index_read plain_codec (proj1 plain_lossless) mixed_disk "d" 1 (inr (YSeq [numbered 0])) (YSeq [numbered 0]) u _ _ _ [Some (2, still)] _ _); [ reflexivity | reflexivity | left; reflexivity | reflexivity | ].
  intros [ | i] o H; [ injection H as <- | destruct i; discriminate ]. apply (pair_holds plain_codec real_image plain_lossless); [ discriminate | apply rigid_I3 | reflexivity | reflexivity ].
Qed.

Lemma first_save_refuted : ~ (forall image file (lib : codec image file) storable disk dir ps disk' u, lossless lib storable -> storable_pairs storable ps ->
  disk (dir ++ "/data.yaml") = None -> interrupted lib disk dir (of_pairs ps) disk' -> parseFromFile lib disk' u (dir ++ "/data.yaml") = Ok None).
Proof.
  intros H. specialize (H _ _ plain_codec real_image blank "d" two opened still plain_lossless two_storable eq_refl (or_intror (ex_intro _ 0 opened_interrupted))). discriminate.
Qed.
Lemma first_save disk_image disk_file (lib : codec disk_image disk_file) storable disk dir ps disk' u : lossless lib storable -> storable_pairs storable ps ->
  disk (dir ++ "/data.yaml") = None -> interrupted lib disk dir (of_pairs ps) disk' ->
  parseFromFile lib disk' u (dir ++ "/data.yaml") = Ok None \/ exists k, parseFromFile lib disk' u (dir ++ "/data.yaml") = Ok (Some (of_pairs (firstn k ps))).
Proof.
  intros L S D [I | [k I]]; [ left; apply (first_before lib storable L _ _ _ _ _ D I) | ]. destruct (within_result lib storable L _ _ _ _ _ u S I); [ left; assumption | right; eauto ].
Qed.
Lemma longer_save_refuted : ~ (forall image file (lib : codec image file) storable disk dir old more disk' u, lossless lib storable -> storable_pairs storable (old ++ more)%list ->
  stored lib disk dir old -> interrupted lib disk dir (of_pairs (old ++ more)%list) disk' ->
  exists qs, parseFromFile lib disk' u (dir ++ "/data.yaml") = Ok (Some (of_pairs qs)) /\ (qs = old \/ qs = (old ++ more)%list \/ without_one old qs)).
Proof.
  intros H. set (old := fst (saveToDirectory plain_codec always blank "d" (of_pairs two))). set (done := firstn 6 (save_effects plain_codec "d" (of_pairs (two ++ [(3, still)])%list))).
  set (disk' := update (fst (run always old done)) "d/data.yaml" (Some (inr YNull : nat + yaml)%type)).
  destruct (H _ _ plain_codec real_image old "d" two [(3, still)] disk' still plain_lossless) as (qs & E & C).
  - intros i T [[= <- <-] | [[= <- <-] | [[= <- <-] | []]]]; (split; [ discriminate | apply rigid_I3 ]).
  - split; [ reflexivity | ]. intros [ | [ | [ | n]]] i T E; try discriminate; injection E as <- <-; split; reflexivity.
  - right. exists 0. unfold disk'. eapply in_index with (content := inr (directory (of_pairs (two ++ [(3, still)])%list))); [ reflexivity | apply Nat.le_0_l | right; left; split; reflexivity ].
  - assert (N : parseFromFile plain_codec disk' still "d/data.yaml" = Ok (Some (DS [] []))) by reflexivity. change ("d" ++ "/data.yaml") with "d/data.yaml" in E. rewrite N in E. injection E as E _.
    destruct C as [-> | [-> | (l1 & p & l2 & A & ->)]]; [ discriminate | discriminate | ]. apply (f_equal (@List.length _)) in A. rewrite app_length in A. cbn in A. rewrite map_app in E. destruct l1, l2; discriminate.
Qed.
Lemma mixed : exists (lib : codec nat (nat + yaml)) storable disk dir old new disk' i T, lossless lib storable /\
  storable_pairs storable old /\ storable_pairs storable new /\ stored lib disk dir old /\ before_index lib disk dir (of_pairs new) disk' /\
  (forall u, parseFromFile lib disk' u (dir ++ "/data.yaml") = Ok (Some (of_pairs [(i, T)]))) /\ ~ In (i, T) old /\ ~ In (i, T) new.
Proof.
  exists plain_codec, real_image, old_disk, "d", [(1, still)], [(2, moved)], mixed_disk, 2, still.
  split; [ exact plain_lossless | ]. split; [ intros i T [[= <- <-] | []]; split; [ discriminate | apply rigid_I3 ] | ]. split; [ intros i T [[= <- <-] | []]; split; [ discriminate | apply rigid_I3 ] | ].
  split; [ exact old_stored | split; [ exact mixed_interrupted | split; [ exact mixed_reads | ] ] ]. split; intros [H | []]; [ discriminate | ].
  apply (f_equal (fun p => vx (tr (snd p)))) in H. cbn in H. lra.
Qed.
Definition one_missing : fs (nat + yaml) := update (fst (saveToDirectory plain_codec always blank "d" (of_pairs two))) "d/images/0.png" None.
Lemma one_missing_reads u : parseFromFile plain_codec one_missing u "d/data.yaml" = Ok (Some (of_pairs [(2, moved)])).
Proof.
  refine (index_read plain_codec (proj1 plain_lossless) one_missing "d" 2 (inr (directory (of_pairs two))) (directory (of_pairs two)) u _ _ _ [None; Some (2, moved)] _ _); [ reflexivity | reflexivity | left; reflexivity | reflexivity | ].
  intros [ | [ | i]] o H; [ injection H as <- | injection H as <- | destruct i; discriminate ].
  - intros [(i & f & E & _) _]. discriminate.
  - apply (pair_holds plain_codec real_image plain_lossless); [ discriminate | apply rigid_I3 | reflexivity | reflexivity ].
Qed.
