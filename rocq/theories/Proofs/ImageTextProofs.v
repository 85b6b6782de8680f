(** C128: what is said about images. *)
From Coq Require Import Reals Arith Lia Lra String List.
From Verif.Base Require Import Geom Outcome.
From Verif.Model Require Import Pose Covariance HandEye Homography Pnp DataSet ExampleTools CheckText ImageText.
From Verif.Spec Require Import Frames StatSpec ToolSpec ImageMessageSpec.
From Verif.Proofs Require Import ListLemmas ToolProofs LoopProofs HandEyeToolProofs HomographyProofs SceneProofs.
Import ListNotations.
Local Open Scope string_scope.

Lemma logged_free {S A} (round : S -> A -> res S) lines L l s : (forall t a, lines t a = L a) ->
  logged round lines l s = do s' <- foldM round l s; Ok (s', flat_map L l).
Proof.
  intros H. unfold logged.
  assert (G : forall l acc s, foldM (fun st a => do s' <- round (fst st) a; Ok (s', snd st ++ lines (fst st) a)%list) l (s, acc) =
    do s' <- foldM round l s; Ok (s', acc ++ flat_map L l)%list).
  { clear l s. induction l as [ | a l IH]; intros acc s; cbn [foldM flat_map bind fst snd]; [ rewrite app_nil_r; reflexivity | ].
    destruct (round s a) as [s' | |]; cbn [bind]; [ | reflexivity | reflexivity ]. rewrite IH, H, app_assoc. reflexivity. }
  exact (G l [] s).
Qed.

Lemma by_image {A} (P : nat -> A -> list message -> Prop) (images : list A) (L : nat -> list message) :
  (forall i a, nth_error images i = Some a -> P i a (L i)) -> image_by_image P images (flat_map L (seq 0 (List.length images))).
Proof.
  intros H. exists (map L (seq 0 (List.length images))). split; [ apply flat_map_concat_map | ]. split; [ rewrite map_length, seq_length; reflexivity | ].
  intros i a m Hi Hm. assert (Li : (i < List.length images)%nat) by (apply nth_error_Some; congruence).
  rewrite (map_nth_error L i (seq 0 (List.length images)) (d := i)) in Hm.
  - injection Hm as <-. exact (H i a Hi).
  - rewrite (nth_error_nth' _ 0) by (rewrite seq_length; exact Li). rewrite seq_nth by exact Li. reflexivity.
Qed.

Lemma warnings_app a b : warnings (a ++ b) = (warnings a + warnings b)%nat.
Proof. unfold warnings. rewrite filter_app, app_length. reflexivity. Qed.
Lemma warned_one i m : warned i m -> warnings m = 1%nat.
Proof. intros (t & [-> | (n & ->)]); reflexivity. Qed.
Lemma count_warnings {A B} (P : nat -> A -> list message -> Prop) (Q : A -> B -> Prop) images sel ms :
  (forall i a m, P i a m -> ((exists b, Q a b) -> warnings m = 0%nat) /\ ((forall b, ~ Q a b) -> warnings m = 1%nat)) ->
  chosen Q images sel -> image_by_image P images ms -> (warnings ms + List.length sel)%nat = List.length images.
Proof.
  intros HP Ch (per & -> & L & H).
  assert (K : forall i a m, nth_error images i = Some a -> nth_error per i = Some m ->
    ((exists b, Q a b) -> warnings m = 0%nat) /\ ((forall b, ~ Q a b) -> warnings m = 1%nat)) by (intros; eapply HP; eapply H; eassumption).
  clear H HP. revert per L K. induction Ch as [ | a b l r Hq Ch IH | a l r Hq Ch IH ]; intros per L K.
  - destruct per; [ reflexivity | discriminate ].
  - destruct per as [ | m per]; [ discriminate | ]. injection L as L. cbn [concat List.length]. rewrite warnings_app.
    rewrite (proj1 (K 0%nat a m eq_refl eq_refl) (ex_intro _ b Hq)). specialize (IH per L (fun i => K (S i))). lia.
  - destruct per as [ | m per]; [ discriminate | ]. injection L as L. cbn [concat List.length]. rewrite warnings_app.
    rewrite (proj2 (K 0%nat a m eq_refl eq_refl) Hq). specialize (IH per L (fun i => K (S i))). lia.
Qed.

Section Images.
  Context {image features : Type} (v : vision image features) (size : features -> nat) (what : image -> exn -> string).

  Notation said := (said v size).

  Lemma lines_skip i img rest : (exists e, find v img = Throw e) \/ (exists f, find v img = Ok f /\ none v f = true) \/
    (exists f t, find v img = Ok f /\ none v f = false /\ rest f = Some t) -> warned i (roundLines i (tryBlock v size what img rest)).
  Proof.
    unfold tryBlock, roundLines. intros [(e & ->) | [(f & -> & ->) | (f & t & -> & -> & E)]]; cbn [fst snd app].
    - eexists. left. reflexivity.
    - eexists. left. reflexivity.
    - rewrite E. exists t. right. eexists. reflexivity.
  Qed.
  Lemma lines_none i img rest f : find v img = Ok f -> none v f = true ->
    roundLines i (tryBlock v size what img rest) = [skipped i "Failed to find any target features"].
  Proof. intros F N. unfold tryBlock, roundLines. rewrite F, N. reflexivity. Qed.
  Lemma lines_found i img rest f : find v img = Ok f -> none v f = false -> rest f = None ->
    roundLines i (tryBlock v size what img rest) = [found (size f)].
  Proof. intros F N E. unfold tryBlock, roundLines. rewrite F, N. cbn [fst snd]. rewrite E. reflexivity. Qed.

  Lemma show_said p i (st st' : list (observation vec2)) :
    match (do f <- findFeatures v (fst p); do _ <- show_features v (fst p) f; Ok f) with
    | Ok f => do cs <- create v f; Ok (st ++ [on_wrist cs (snd p)])%list
    | Throw e => if runtime_error e then do _ <- show_image v (fst p); Ok st else Throw e
    | UB => UB
    end = Ok st' ->
    said (exists cs, sees_shown v p cs) (fst p) i (roundLines i (showBlock v size what (fst p))).
  Proof.
    intros E. split; [ | split ].
    - intros (cs & f & F & N & Sh & _). exists f. split; [ exact F | ]. apply lines_found; [ exact F | exact N | ]. rewrite Sh. reflexivity.
    - intros U. apply lines_skip. unfold findFeatures in E. destruct (find v (fst p)) as [f | e |] eqn:F; cbn [bind] in E; [ | left; eauto | discriminate ].
      right. destruct (none v f) eqn:N; [ left; eauto | right ]. cbn [bind] in E. exists f.
      destruct (show_features v (fst p) f) as [[] | e |] eqn:Sh; cbn [bind] in E; [ | exists (what (fst p) e); auto | discriminate ].
      exfalso. destruct (create v f) as [cs | |] eqn:C; cbn [bind] in E; try discriminate. apply U. exists cs, f. auto.
    - intros f F N. exact (lines_none _ _ _ f F N).
  Qed.

  Lemma free_lines {T} (block : image -> list message * option string) images (t : T) i : imageLines block images t i = imageLines block images tt i.
  Proof. reflexivity. Qed.
  Lemma nth_lines (block : image -> list message * option string) (ps : list (image * iso)) i p : nth_error ps i = Some p ->
    imageLines block (map fst ps) tt i = roundLines i (block (fst p)).
  Proof. intros H. unfold imageLines. rewrite (map_nth_error fst i ps H). reflexivity. Qed.

  Lemma validation_logged ps :
    match validationObservations v (data_of ps) with
    | Ok obs => exists ms, validationLogged v size what (data_of ps) = Ok (obs, ms) /\
        image_by_image (fun i p m => said (exists cs, sees_shown v p cs) (fst p) i m) ps ms /\
        (warnings ms + List.length obs)%nat = List.length ps
    | Throw e => validationLogged v size what (data_of ps) = Throw e
    | UB => validationLogged v size what (data_of ps) = UB
    end.
  Proof.
    unfold validationLogged. rewrite (logged_free _ _ _ _ _ (free_lines _ _)). fold (validationObservations v (data_of ps)).
    destruct (validationObservations v (data_of ps)) as [obs | |] eqn:E; cbn [bind]; try reflexivity.
    eexists. split; [ reflexivity | ]. unfold data_of. cbn [ds_images]. rewrite map_length.
    destruct (validation_images v ps obs E) as (sel & Ch & ->). rewrite map_length.
    match goal with |- ?A /\ _ => assert (I : A) end.
    { apply by_image. intros i p Hp. rewrite (nth_lines _ _ _ _ Hp).
      rewrite validation_pairs in E. destruct (foldM_ok_elim _ _ _ _ E p (nth_error_In _ _ Hp)) as (st & st' & Es). exact (show_said p i st st' Es). }
    split; [ exact I | ]. refine (count_warnings _ _ _ _ _ _ Ch I).
    intros i p m (U & N & _). split; [ intros X; destruct (U X) as (f & _ & ->); reflexivity | ].
    intros X. apply (warned_one i). apply N. intros (cs & Hc). exact (X cs Hc).
  Qed.

  Lemma pair_said img i st st' : intrinsicObservation v st img = Ok st' ->
    said (exists cs, sees v img cs) img i (roundLines i (pairBlock v size what img)).
  Proof.
    intros E. split; [ | split ].
    - intros (cs & f & F & N & C). exists f. split; [ exact F | ]. apply lines_found; [ exact F | exact N | ]. rewrite C. reflexivity.
    - intros U. apply lines_skip. unfold intrinsicObservation, findFeatures in E.
      destruct (find v img) as [f | e |] eqn:F; cbn [bind] in E; [ | left; eauto | discriminate ].
      right. destruct (none v f) eqn:N; [ left; eauto | right ]. cbn [bind] in E. exists f.
      destruct (create v f) as [cs | e |] eqn:C; cbn [bind] in E; [ | exists (what img e); auto | discriminate ].
      exfalso. apply U. exists cs, f. auto.
    - intros f F N. exact (lines_none _ _ _ f F N).
  Qed.
  Lemma intrinsic_rounds data st :
    foldM (fun st i => do img <- idx (ds_images data) i; intrinsicObservation v st img) (seq 0 (List.length (ds_images data))) st =
    foldM (intrinsicObservation v) (ds_images data) st.
  Proof.
    apply foldM_index. intros pre img post s E. rewrite E. pose proof (idx_middle (fun x : image => x) pre img post) as M. rewrite map_id in M. rewrite M. reflexivity.
  Qed.
  Lemma intrinsic_logged data :
    match intrinsicObservations v data with
    | Ok obs => exists ms, intrinsicLogged v size what data = Ok (obs, ms) /\
        image_by_image (fun i img m => said (exists cs, sees v img cs) img i m) (ds_images data) ms /\
        (warnings ms + List.length obs)%nat = List.length (ds_images data)
    | Throw e => intrinsicLogged v size what data = Throw e
    | UB => intrinsicLogged v size what data = UB
    end.
  Proof.
    unfold intrinsicLogged. rewrite (logged_free _ _ _ _ _ (free_lines _ _)), intrinsic_rounds. fold (intrinsicObservations v data).
    destruct (intrinsicObservations v data) as [obs | |] eqn:E; cbn [bind]; try reflexivity.
    eexists. split; [ reflexivity | ]. destruct data as [images poses]. cbn [ds_images].
    destruct (intrinsic_images v images poses obs E) as (sel & Ch & ->). rewrite map_length.
    match goal with |- ?A /\ _ => assert (I : A) end.
    { apply by_image. intros i img Hp. unfold imageLines. rewrite Hp.
      unfold intrinsicObservations in E. cbn [ds_images] in E.
      destruct (foldM_ok_elim _ _ _ _ E img (nth_error_In _ _ Hp)) as (st & st' & Es). exact (pair_said img i st st' Es). }
    split; [ exact I | ]. refine (count_warnings _ _ _ _ _ _ Ch I).
    intros i p m (U & N & _). split; [ intros X; destruct (U X) as (f & _ & ->); reflexivity | ].
    intros X. apply (warned_one i). apply N. intros (cs & Hc). exact (X cs Hc).
  Qed.

  (** ** Noise *)
  Lemma noise_logged read k g n0 names :
    match noiseProblems v read k g (n0 :: names) with
    | Ok problems => exists st ms, noiseLogged v size what read k g (n0 :: names) = Ok ((st, problems), ms) /\
        image_by_image (fun i _ m => said (exists cs, sees_shown v (read n0, iso_id) cs) (read n0) i m) (n0 :: names) ms /\
        (warnings ms = 0%nat \/ warnings ms = List.length (n0 :: names))
    | Throw e => noiseLogged v size what read k g (n0 :: names) = Throw e
    | UB => noiseLogged v size what read k g (n0 :: names) = UB
    end.
  Proof.
    set (R := noiseProblem v read k g). set (img := read n0).
    assert (Keep : forall o prev n st', R (o, prev) n = Ok st' -> fst st' = Some (match o with Some f => f | None => read n end)).
    { intros o prev n st'. unfold R, noiseProblem. cbv zeta. destruct (do f <- _; _) as [f | e |]; [ | | discriminate ].
      - destruct (create v f); cbn [bind]; try discriminate. intros [= <-]. reflexivity.
      - destruct (runtime_error e); [ | discriminate ]. destruct (show_image v _); cbn [bind]; try discriminate. intros [= <-]. reflexivity. }
    assert (G : forall l a o prev acc, match o with Some f => f = img | None => match l with n :: _ => read n = img | [] => True end end ->
      foldM (fun st x => do s' <- R (fst st) (snd x); Ok (s', snd st ++ roundLines (fst x) (showBlock v size what (match fst (fst st) with Some first => first | None => read (snd x) end)))%list)
        (combine (seq a (List.length l)) l) ((o, prev), acc) =
      do s' <- foldM R l (o, prev); Ok (s', acc ++ flat_map (fun i => roundLines i (showBlock v size what img)) (seq a (List.length l)))%list).
    { induction l as [ | n l IH]; intros a o prev acc Ho; cbn [List.length seq combine foldM flat_map bind fst snd]; [ rewrite app_nil_r; reflexivity | ].
      destruct (R (o, prev) n) as [[o' prev'] | |] eqn:E; cbn [bind]; [ | reflexivity | reflexivity ].
      pose proof (Keep _ _ _ _ E) as K. cbn [fst] in K. subst o'.
      assert (X : match o with Some f => f | None => read n end = img) by (destruct o; exact Ho).
      rewrite X. rewrite IH by reflexivity. rewrite app_assoc. reflexivity. }
    unfold noiseLogged, logged. unfold R in G. rewrite (G (n0 :: names) 0%nat None [] []) by reflexivity.
    unfold noiseProblems. destruct (foldM (noiseProblem v read k g) (n0 :: names) (None, [])) as [[st problems] | |] eqn:E; cbn [bind fst snd]; try reflexivity.
    exists st. eexists. split; [ reflexivity | ]. cbn [app].
    assert (Sa : forall i, said (exists cs, sees_shown v (img, iso_id) cs) img i (roundLines i (showBlock v size what img))).
    { intros i. destruct (foldM_ok_elim _ _ _ _ E n0 (or_introl eq_refl)) as (t0 & t1 & _).
      cbn [foldM] in E. destruct (noiseProblem v read k g (None, []) n0) as [[o1 ps1] | |] eqn:E1; cbn [bind] in E; try discriminate.
      assert (X : exists st' : list (observation vec2), match (do f <- findFeatures v img; do _ <- show_features v img f; Ok f) with
        | Ok f => do cs <- create v f; Ok ([] ++ [on_wrist cs iso_id])%list
        | Throw e => if runtime_error e then do _ <- show_image v img; Ok [] else Throw e
        | UB => UB end = Ok st').
      { unfold noiseProblem in E1. cbv zeta in E1. fold img in E1. destruct (do f <- findFeatures v img; _) as [f | e |]; [ | | discriminate ].
        - destruct (create v f); cbn [bind] in *; try discriminate. eexists. reflexivity.
        - destruct (runtime_error e); [ | discriminate ]. destruct (show_image v img); cbn [bind] in *; try discriminate. eexists. reflexivity. }
      destruct X as (st' & X). exact (show_said (img, iso_id) i [] st' X). }
    split.
    - apply (by_image (fun i _ m => said _ img i m) (n0 :: names)). intros i n _. apply Sa.
    - assert (D : forall used : Prop, used \/ ~ used) by (intros; apply Classical_Prop.classic).
      destruct (D (exists cs, sees_shown v (img, iso_id) cs)) as [U | U]; [ left | right ].
      + generalize (seq 0 (List.length (n0 :: names))). induction l as [ | i l IH]; [ reflexivity | ]. cbn [flat_map]. rewrite warnings_app, IH.
        destruct (proj1 (Sa i) U) as (f & _ & ->). reflexivity.
      + rewrite <- (seq_length (List.length (n0 :: names)) 0) at 2. generalize (seq 0 (List.length (n0 :: names))).
        induction l as [ | i l IH]; [ reflexivity | ]. cbn [flat_map List.length]. rewrite warnings_app, IH.
        rewrite (warned_one i _ (proj1 (proj2 (Sa i)) U)). reflexivity.
  Qed.

  (** ** The example *)
  Lemma example_logged ps :
    match exampleObservations v (data_of ps) with
    | Ok obs => exists ms, exampleLogged v (data_of ps) = Ok (obs, ms) /\
        image_by_image (fun i p m => ((exists f, find v (fst p) = Ok f) -> m = []) /\
          ((forall f, find v (fst p) <> Ok f) -> m = [Warn ("Unable to find the circle grid in image: " ++ decimal i)])) ps ms
    | Throw e => exampleLogged v (data_of ps) = Throw e
    | UB => exampleLogged v (data_of ps) = UB
    end.
  Proof.
    unfold exampleLogged. rewrite (logged_free _ _ _ _ _ (fun t i => eq_refl)). fold (exampleObservations v (data_of ps)).
    destruct (exampleObservations v (data_of ps)) as [obs | |] eqn:E; cbn [bind]; try reflexivity.
    eexists. split; [ reflexivity | ]. unfold data_of. cbn [ds_images]. rewrite map_length.
    apply by_image. intros i p Hp. rewrite (map_nth_error fst i ps Hp).
    assert (Hi : In i (seq 0 (List.length (ds_images (data_of ps))))).
    { apply in_seq. unfold data_of. cbn [ds_images]. rewrite map_length. split; [ lia | ]. apply nth_error_Some. congruence. }
    unfold exampleObservations in E. destruct (foldM_ok_elim _ _ _ _ E i Hi) as (st & st' & Es).
    unfold exampleObservation, idx, data_of in Es. cbn [ds_images] in Es. rewrite (map_nth_error fst i ps Hp) in Es. cbn [bind] in Es.
    destruct (find v (fst p)) as [f | e |].
    - split; [ reflexivity | ]. intros N. destruct (N f eq_refl).
    - split; [ intros (f & F); discriminate | reflexivity ].
    - discriminate.
  Qed.
End Images.

(** ** Hand-eye tools *)
Section HandEye.
  Context {image features G : Type} (v : vision image features)
          (lu : lu_solver) (seeded : nat -> G) (uniform_int : nat -> nat -> G -> nat * G)
          (size : features -> nat) (what : image -> exn -> string) (to_string_f : R -> string)
          (mount : list (correspondence vec2) -> iso -> observation vec2) (t : R).
  Notation use := (usable v lu seeded uniform_int t).
  Notation block := (handEyeBlock v lu seeded uniform_int size what to_string_f t).

  Notation said_hand_eye := (said_hand_eye v size lu seeded uniform_int to_string_f t).

  Lemma sampled (cs : list (correspondence vec2)) : (12 <= List.length cs)%nat -> mk_random_sampler (List.length cs) (List.length cs / 3) RANDOM_SEED = Ok (RS (List.length cs) (List.length cs / 3) 1).
  Proof. intros L. rewrite sampler_third. destruct (Nat.ltb_spec (List.length cs) 12); [ lia | reflexivity ]. Qed.

  Lemma hand_eye_said p i st st' : round v lu seeded uniform_int mount t st p = Ok st' -> said_hand_eye p i (roundLines i (block (fst p))).
  Proof.
    intros E. unfold round, process, findFeatures in E. split; [ | split; [ | split ] ].
    - intros cs [(f & F & N & C) (L & es & He & Av)]. exists f. split; [ exact F | ].
      assert (K : checkHomography lu seeded uniform_int t cs = Ok tt) by (apply check_ok; split; [ exact L | eauto ]).
      rewrite F in E. cbn [bind] in E. rewrite N in E. cbn [bind] in E. rewrite C in E. cbn [bind] in E. rewrite K in E. cbn [bind] in E.
      assert (B : roundLines i (block (fst p)) = (found (size f) :: match thrown what (fst p) (show_features v (fst p) f) with Some r => [skipped i r] | None => [] end)%list).
      { unfold handEyeBlock, tryBlock, roundLines. rewrite F, N, C, (sampled cs L). cbn [bind]. rewrite He. cbn [bind].
        rewrite array_mean_average by (intros ->; apply errors_length in He; cbn in He; lia). destruct (Rlt_dec t (average es)); [ lra | reflexivity ]. }
      rewrite B. destruct (show_features v (fst p) f) as [[] | e |]; [ left; auto | right; split; [ eauto | eexists; reflexivity ] | discriminate ].
    - intros U. apply lines_skip. destruct (find v (fst p)) as [f | e |] eqn:F; cbn [bind] in E; [ | left; eauto | discriminate ].
      right. destruct (none v f) eqn:N; [ left; eauto | right ]. cbn [bind] in E. exists f. cbv beta.
      destruct (create v f) as [cs | e |] eqn:C; cbn [bind] in E; [ | eexists; split; [ reflexivity | split; [ exact N | cbn [thrown]; reflexivity ] ] | discriminate ].
      assert (K : checkHomography lu seeded uniform_int t cs <> Ok tt) by (rewrite check_ok; intros K; apply (U cs); split; [ exists f; auto | exact K ]).
      unfold checkHomography in K, E.
      destruct (mk_random_sampler (List.length cs) (List.length cs / 3) RANDOM_SEED) as [rs | e |]; cbn [bind] in *;
        [ | eexists; split; [ reflexivity | split; [ exact N | cbn [thrown]; reflexivity ] ] | discriminate ].
      destruct (calculateHomographyError lu cs (randomSample seeded uniform_int rs)) as [es | e |]; cbn [bind] in *;
        [ | eexists; split; [ reflexivity | split; [ exact N | cbn [thrown]; reflexivity ] ] | discriminate ].
      destruct (array_mean es) as [m | e |]; cbn [bind] in *;
        [ | eexists; split; [ reflexivity | split; [ exact N | cbn [thrown]; reflexivity ] ] | discriminate ].
      destruct (Rlt_dec t m); [ eexists; split; [ reflexivity | split; [ exact N | cbn [thrown]; reflexivity ] ] | destruct (K eq_refl) ].
    - intros f F N. exact (lines_none v size what i _ _ f F N).
    - intros f cs es F N C L He Av. unfold handEyeBlock, tryBlock, roundLines. rewrite F, N, C, (sampled cs L). cbn [bind]. rewrite He. cbn [bind].
      rewrite array_mean_average by (intros ->; apply errors_length in He; cbn in He; lia). destruct (Rlt_dec t (average es)); [ reflexivity | lra ].
  Qed.

  Lemma hand_eye_logged ps :
    match collectObservations v lu seeded uniform_int mount t (data_of ps) with
    | Ok (obs, imgs) => exists ms, collectLogged v lu seeded uniform_int size what to_string_f mount t (data_of ps) = Ok ((obs, imgs), ms) /\
        image_by_image (fun i p m => said_hand_eye p i m) ps ms
    | Throw e => collectLogged v lu seeded uniform_int size what to_string_f mount t (data_of ps) = Throw e
    | UB => collectLogged v lu seeded uniform_int size what to_string_f mount t (data_of ps) = UB
    end.
  Proof.
    unfold collectLogged. rewrite (logged_free _ _ _ _ _ (free_lines _ _)). fold (collectObservations v lu seeded uniform_int mount t (data_of ps)).
    destruct (collectObservations v lu seeded uniform_int mount t (data_of ps)) as [[obs imgs] | |] eqn:E; cbn [bind]; try reflexivity.
    eexists. split; [ reflexivity | ]. unfold data_of. cbn [ds_images]. rewrite map_length.
    apply by_image. intros i p Hp. rewrite (nth_lines _ _ _ _ Hp).
    rewrite collect_pairs in E. destruct (foldM_ok_elim _ _ _ _ E p (nth_error_In _ _ Hp)) as (st & st' & Es). exact (hand_eye_said p i st st' Es).
  Qed.

  (** The count, if drawings can be shown. *)
  Lemma hand_eye_count ps obs imgs ms :
    (forall p f, In p ps -> find v (fst p) = Ok f -> show_features v (fst p) f = Ok tt) ->
    collectLogged v lu seeded uniform_int size what to_string_f mount t (data_of ps) = Ok ((obs, imgs), ms) ->
    (warnings ms + List.length obs)%nat = List.length ps.
  Proof.
    intros Sh E. pose proof (hand_eye_logged ps) as H.
    destruct (collectObservations v lu seeded uniform_int mount t (data_of ps)) as [[obs' imgs'] | |] eqn:Ec; try congruence.
    destruct H as (ms' & E' & I). rewrite E in E'. injection E' as <- <- <-.
    destruct (collected v lu seeded uniform_int mount t ps obs imgs Ec) as (sel & Ch & -> & _). rewrite map_length.
    destruct I as (per & -> & L & I).
    apply (count_warnings (fun i p m => In p ps /\ said_hand_eye p i m) use ps sel); [ | exact Ch | ].
    - intros i p m (Ip & U & N & _). split.
      + intros (cs & Hc). destruct (U cs Hc) as (f & F & [(_ & ->) | ((e & X) & _)]); [ reflexivity | ]. rewrite (Sh p f Ip F) in X. discriminate.
      + intros X. exact (warned_one i m (N X)).
    - exists per. split; [ reflexivity | split; [ exact L | ] ]. intros i a m Ha Hm. split; [ exact (nth_error_In _ _ Ha) | exact (I i a m Ha Hm) ].
  Qed.
End HandEye.

(** A scene without a window: the picture is used, and the user is warned about it. *)
Definition blind : vision (option iso) (list (correspondence vec2)) :=
  Vision (find sc_vision) (none sc_vision) (create sc_vision) (fun _ _ => Throw RuntimeError) (fun _ => Ok tt).
Definition no_text (_ : option iso) (_ : exn) : string := "".
Lemma blind_usable : usable blind (gauss 8) sc_seed sc_uniform 0 (Some iso_id, iso_id) (sc_seen iso_id).
Proof. split; [ exists (sc_seen iso_id); repeat split | apply (sc_flat vzero); cbn; lra ]. Qed.
Lemma blind_run to_s : exists obs imgs ms,
  collectLogged blind (gauss 8) sc_seed sc_uniform (@List.length _) no_text to_s on_wrist 0 (data_of [(Some iso_id, iso_id)]) = Ok ((obs, imgs), ms) /\
  List.length obs = 1%nat /\ warnings ms = 1%nat.
Proof.
  destruct (collects blind (gauss 8) sc_seed sc_uniform on_wrist 0 [(Some iso_id, iso_id)] sc_bounds) as (obs & imgs & E).
  { intros p _. split; [ exact I | split; [ reflexivity | ] ]. intros f _. split; exact eq_refl || exact I. }
  pose proof (hand_eye_logged blind (gauss 8) sc_seed sc_uniform (@List.length _) no_text to_s on_wrist 0 [(Some iso_id, iso_id)]) as H.
  rewrite E in H. destruct H as (ms & El & (per & -> & L & H)). exists obs, imgs, (concat per). split; [ exact El | ].
  destruct (collected _ _ _ _ _ _ _ _ _ E) as (sel & Ch & -> & _).
  split.
  - rewrite map_length. inversion Ch; subst.
    + match goal with X : chosen _ [] _ |- _ => inversion X; subst end. reflexivity.
    + exfalso. match goal with X : forall b, ~ _ |- _ => exact (X _ blind_usable) end.
  - destruct per as [ | m [ | ]]; try discriminate. destruct (H 0%nat _ m eq_refl eq_refl) as (U & _).
    destruct (U _ blind_usable) as (f & _ & [(X & _) | (_ & r & ->)]); [ discriminate | reflexivity ].
Qed.
Lemma hand_eye_refuted : ~ (forall (image features G : Type) (v : vision image features) lu (seeded : nat -> G) uniform_int size what to_s mount t ps obs imgs ms,
  collectLogged v lu seeded uniform_int size what to_s mount t (data_of ps) = Ok ((obs, imgs), ms) ->
  (warnings ms + List.length obs)%nat = List.length ps).
Proof.
  intros H. destruct (blind_run (fun _ => "")) as (obs & imgs & ms & E & Lo & W). pose proof (H _ _ _ _ _ _ _ _ _ _ _ _ _ _ _ _ E) as X.
  rewrite Lo, W in X. discriminate.
Qed.
(** The scene with one blank picture of three. *)
Lemma scene_said : exists obs,
  validationLogged sc_vision (@List.length _) no_text (data_of sc_data) = Ok (obs, [found 12; skipped 1 "Failed to find any target features"; found 12]) /\
  List.length obs = 2%nat.
Proof. eexists. split; reflexivity. Qed.
Lemma scene_said_intrinsic : exists obs,
  intrinsicLogged sc_vision (@List.length _) no_text (data_of sc_data) = Ok (obs, [found 12; skipped 1 "Failed to find any target features"; found 12]) /\
  List.length obs = 2%nat.
Proof. eexists. split; reflexivity. Qed.
Lemma scene_said_noise : exists st,
  noiseLogged sc_vision (@List.length _) no_text (fun name => if String.eqb name "a" then None else Some iso_id) sc_intr sc_target ["a"; "b"]%string =
  Ok (st, [skipped 0 "Failed to find any target features"; skipped 1 "Failed to find any target features"]).
Proof. eexists. reflexivity. Qed.
Lemma scene_said_hand_eye to_s : exists obs imgs ms,
  collectLogged sc_vision (gauss 8) sc_seed sc_uniform (@List.length _) no_text to_s on_wrist 0 (data_of sc_data) = Ok ((obs, imgs), ms) /\
  List.length obs = 2%nat /\ warnings ms = 1%nat.
Proof.
  destruct (collects sc_vision (gauss 8) sc_seed sc_uniform on_wrist 0 sc_data sc_bounds sc_harmless) as (obs & imgs & E).
  pose proof (hand_eye_logged sc_vision (gauss 8) sc_seed sc_uniform (@List.length _) no_text to_s on_wrist 0 sc_data) as H.
  rewrite E in H. destruct H as (ms & El & _). exists obs, imgs, ms. split; [ exact El | ].
  assert (N := El). apply hand_eye_count in N; [ | reflexivity ]. destruct (collected _ _ _ _ _ _ _ _ _ E) as (sel & Ch & -> & _). rewrite map_length in *.
  assert (L : List.length sel = 2%nat).
  { inversion Ch as [ | a b l r U Ch1 | a l r U Ch1 ]; subst.
    - inversion Ch1 as [ | a b' l r' U1 Ch2 | a l r' U1 Ch2 ]; subst; [ destruct U1 as [(f & F & N1 & _) _]; cbn in F; injection F as <-; discriminate | ].
      inversion Ch2 as [ | a b' l r' U2 Ch3 | a l r' U2 Ch3 ]; subst; [ inversion Ch3; reflexivity | ].
      exfalso. apply (U2 (sc_seen sc_move)). split; [ exists (sc_seen sc_move); repeat split | apply sc_flat; cbn; lra ].
    - exfalso. apply (U (sc_seen iso_id)). split; [ exists (sc_seen iso_id); repeat split | apply (sc_flat vzero); cbn; lra ]. }
  split; [ exact L | ]. rewrite L in N. change (List.length sc_data) with 3%nat in N. lia.
Qed.
Lemma scene_said_example : exists obs,
  exampleLogged (Vision (fun img => match img with Some _ => Ok (sc_find img) | None => Throw RuntimeError end) (none sc_vision) (create sc_vision) (show_features sc_vision) (show_image sc_vision))
    (data_of sc_data) = Ok (obs, [Warn "Unable to find the circle grid in image: 1"]) /\ List.length obs = 2%nat.
Proof. eexists. split; reflexivity. Qed.
