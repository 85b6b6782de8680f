(** The data collection node. *)
From Coq Require Import Reals Lra Lia ZArith String List.
From Verif.Base Require Import Geom Outcome.
From Verif.Model Require Import DataSet Collector.
From Verif.Spec Require Import YamlSpec DataSetSpec CollectorSpec.
From Verif.Proofs Require Import GeomLemmas RotLemmas ListLemmas DataSetProofs.
Import ListNotations.
Local Open Scope string_scope.

Lemma not_runtime e : is_runtime e = false <-> e = CvError \/ e = OtherError.
Proof. destruct e; cbn; intuition congruence. Qed.

Section Collector.
Context {message image file : Type} (lib : codec image file) (cam : camera message image) (save_dir : string).
Notation latest := (latest cam). Notation collected := (collected cam).
Notation step := (step lib cam save_dir). Notation spin := (spin lib cam save_dir).

Definition inv (c : collection image file) (last : option image) (ps : list (image * transform)) : Prop :=
  length (poses c) = length (images c) /\ (forall k, In k (images c) -> k < length (heap c)) /\
  (forall k, last_frame c = Some k -> k < length (heap c)) /\ option_map (content lib (heap c)) (last_frame c) = last /\ pairs lib c = ps.

Lemma content_app h l k : k < length h -> content lib (h ++ l) k = content lib h k.
Proof. intros H. unfold content. apply app_nth1, H. Qed.
Lemma content_last h x l : content lib (h ++ x :: l) (length h) = x.
Proof. unfold content. rewrite app_nth2, Nat.sub_diag by lia. reflexivity. Qed.
Lemma overwrite_last (h : list image) x y : overwrite (h ++ [x]) (length h) y = (h ++ [y])%list.
Proof.
  unfold overwrite. rewrite firstn_app, Nat.sub_diag, firstn_all, app_nil_r. f_equal. f_equal. apply skipn_all2. rewrite app_length. cbn. lia.
Qed.
Lemma map_content_app h l ks : (forall k, In k ks -> k < length h) -> map (content lib (h ++ l)) ks = map (content lib h) ks.
Proof. intros H. apply map_ext_in. intros k I. apply content_app, H, I. Qed.
Lemma combine_snoc {A B} (l : list A) (r : list B) a b : length l = length r -> combine (l ++ [a]) (r ++ [b]) = (combine l r ++ [(a, b)])%list.
Proof. revert r. induction l; intros [|]; cbn; intros H; try discriminate; [ reflexivity | f_equal; apply IHl; lia ]. Qed.

Lemma firstn_snoc {A} (l : list A) n d : n < length l -> firstn (S n) l = (firstn n l ++ [nth n l d])%list.
Proof. revert n. induction l as [ | a l IH ]; intros [ | n ] H; cbn in *; try lia; [ reflexivity | f_equal; apply IH; lia ]. Qed.
Lemma map_fst_eq {A B} (l : list A) (r : list B) : length l = length r -> map fst (combine l r) = l.
Proof. revert r. induction l; intros [|]; cbn; intros H; try discriminate; [ reflexivity | f_equal; apply IHl; lia ]. Qed.
Lemma map_snd_eq {A B} (l : list A) (r : list B) : length l = length r -> map snd (combine l r) = r.
Proof. revert r. induction l; intros [|]; cbn; intros H; try discriminate; [ reflexivity | f_equal; apply IHl; lia ]. Qed.

Lemma initial_inv d : inv (initial d) None [].
Proof. repeat split; cbn; try tauto; discriminate. Qed.

(** One image. *)
Lemma new_image c last ps m : inv c last ps ->
  (inv (fst (onNewImage lib cam c m)) (match picture cam m with Some i => Some i | None => last end) ps) /\
  disk (fst (onNewImage lib cam c m)) = disk c /\ ((exists e, snd (onNewImage lib cam c m) = Some e) <-> ends cam m).
Proof.
  intros I. unfold onNewImage. fold (colour cam m). unfold picture. cbv zeta. unfold ends. destruct (colour cam m) as [i | e].
  2: { cbn [fst snd]. split; [ exact I | split; [ reflexivity | ] ]. split.
    - intros (e' & H). left. exists e. split; [ reflexivity | ]. intros ->. discriminate.
    - intros [(e' & H & N) | (? & ? & H & _)]; [ | discriminate ]. injection H as <-. destruct e; cbn; try (eexists; reflexivity). contradiction. }
  rewrite !content_last. set (h := (heap c ++ [i])%list). destruct (examine cam i) as [after failure] eqn:E.
  rewrite overwrite_last. assert (C : content lib (h ++ [after]) (length (heap c)) = i) by (unfold h; rewrite <- app_assoc; apply content_last).
  rewrite C. set (c' := Coll (h ++ [after])%list (Some (length (heap c))) (poses c) (images c) (disk c)).
  assert (I' : inv c' (Some i) ps).
  { destruct I as (L & K & _ & _ & P). unfold c', inv, pairs. cbn [poses images heap last_frame disk]. unfold h. rewrite <- app_assoc.
    split; [ exact L | split; [ | split; [ | split ] ] ].
    - intros k H. rewrite app_length. specialize (K k H). lia.
    - intros k H. injection H as <-. rewrite app_length. cbn. lia.
    - cbn. f_equal. apply content_last.
    - rewrite map_content_app by exact K. exact P. }
  destruct failure as [e | ]; [ destruct (is_runtime e) eqn:R; [ destruct (publish cam i) as [e' | ] eqn:P | ] | ]; cbn [fst snd];
    (split; [ exact I' | split; [ reflexivity | ] ]); split.
  - intros (e'' & H). right. exists i, e. split; [ reflexivity | split; [ rewrite E; reflexivity | ] ]. right. exists e'. split; [ exact P | ]. intros ->. discriminate.
  - intros [(? & H & _) | (i' & e'' & H1 & H2 & H3)]; [ discriminate | ]. injection H1 as <-. rewrite E in H2. injection H2 as <-. destruct H3 as [H3 | (x & H3 & N)]; [ apply not_runtime in H3; congruence | ].
    rewrite P in H3. injection H3 as <-. destruct e'; cbn; try (eexists; reflexivity). contradiction.
  - intros (? & H). discriminate.
  - intros [(? & H & _) | (i' & e'' & H1 & H2 & H3)]; [ discriminate | ]. injection H1 as <-. rewrite E in H2. injection H2 as <-. destruct H3 as [H3 | (x & H3 & N)]; [ apply not_runtime in H3 | ]; congruence.
  - intros _. right. exists i, e. split; [ reflexivity | split; [ rewrite E; reflexivity | left; apply not_runtime; exact R ] ].
  - intros _. destruct e; cbn in R |- *; try discriminate; eexists; reflexivity.
  - intros (? & H). discriminate.
  - intros [(? & H & _) | (i' & e'' & H1 & H2 & H3)]; [ discriminate | ]. injection H1 as <-. rewrite E in H2. discriminate.
Qed.

(** One request to collect. *)
Definition taken (last : option image) (tf : option transform) : list (image * transform) :=
  match tf, last with Some t, Some i => [(i, t)] | _, _ => [] end.
Lemma trigger c last ps tf : inv c last ps -> inv (fst (onTrigger c tf)) last (ps ++ taken last tf) /\ disk (fst (onTrigger c tf)) = disk c /\
  (snd (onTrigger c tf) = true <-> exists t i, tf = Some t /\ last = Some i) /\ (snd (onTrigger c tf) = false -> fst (onTrigger c tf) = c).
Proof.
  intros I. pose proof I as (L & K & F & O & P). unfold onTrigger, taken. destruct tf as [t | ].
  2: { cbn [fst snd]. rewrite app_nil_r. split; [ exact I | split; [ reflexivity | split; [ | reflexivity ] ] ]. split; [ discriminate | intros (? & ? & H & _); discriminate ]. }
  destruct (last_frame c) as [k | ] eqn:E; cbn [option_map] in O; rewrite <- O; cbn [fst snd].
  - split; [ | split; [ reflexivity | split; [ | discriminate ] ] ].
    + unfold inv, pairs. cbn [poses images heap last_frame disk]. rewrite !app_length, L. cbn [length]. split; [ reflexivity | split; [ | split; [ | split ] ] ].
      * intros j H. apply in_app_or in H. destruct H as [H | [<- | []]]; [ exact (K j H) | exact (F k eq_refl) ].
      * intros j H. apply F. congruence.
      * reflexivity.
      * rewrite map_app. cbn [map]. rewrite combine_snoc by (rewrite map_length; symmetry; exact L). fold (pairs lib c). rewrite P. reflexivity.
    + split; [ intros _; eauto | reflexivity ].
  - rewrite app_nil_r. split; [ rewrite O; exact I | split; [ reflexivity | split; [ | reflexivity ] ] ]. split; [ discriminate | intros (? & ? & _ & H); discriminate ].
Qed.

(** Saving. *)
Lemma save_data c last ps : inv c last ps -> exists data, data = of_pairs (map with_pose ps) /\
  foldM (fun data i => do image <- idx (images c) i; do msg <- idx (poses c) i;
      Ok (DS (ds_images data ++ [content lib (heap c) image])%list (ds_tool_poses data ++ [transformToEigen msg])%list))
    (seq 0 (length (poses c))) (DS [] []) = Ok data.
Proof.
  intros (L & _ & _ & _ & P). eexists. split; [ reflexivity | ]. rewrite <- P. unfold pairs.
  assert (G : forall n, n <= length (poses c) -> foldM (fun data i => do image <- idx (images c) i; do msg <- idx (poses c) i;
      Ok (DS (ds_images data ++ [content lib (heap c) image])%list (ds_tool_poses data ++ [transformToEigen msg])%list)) (seq 0 n) (DS [] [])
    = Ok (DS (map (content lib (heap c)) (firstn n (images c))) (map transformToEigen (firstn n (poses c))))).
  { intros n. induction n as [ | n IH ]; intros H; [ reflexivity | ]. rewrite seq_S, foldM_app, IH by lia. cbn [bind foldM plus].
    rewrite (idx_ok (images c) n 0) by lia. destruct (poses c) as [ | t0 tr ] eqn:E; [ cbn in H; lia | ]. rewrite <- E in *. rewrite (idx_ok (poses c) n t0) by lia. cbn [bind ds_images ds_tool_poses].
    do 2 f_equal.
    - change [content lib (heap c) (nth n (images c) 0)] with (map (content lib (heap c)) [nth n (images c) 0]). rewrite <- map_app. f_equal. symmetry. apply firstn_snoc. lia.
    - change [transformToEigen (nth n (poses c) t0)] with (map transformToEigen [nth n (poses c) t0]). rewrite <- map_app. f_equal. symmetry. apply firstn_snoc. lia. }
  rewrite G, L, firstn_all, <- L, firstn_all by lia. f_equal. unfold of_pairs. rewrite !map_map. cbn [with_pose fst snd]. f_equal.
  - rewrite <- (map_map fst (fun i => i)). rewrite map_id. symmetry. apply map_fst_eq. rewrite map_length. lia.
  - rewrite <- (map_map snd transformToEigen). f_equal. symmetry. apply map_snd_eq. rewrite map_length. lia.
Qed.
Lemma save_step c last ps can : inv c last ps ->
  fst (onSave lib save_dir c can) = Coll (heap c) (last_frame c) (poses c) (images c) (fst (saveToDirectory lib can (disk c) save_dir (of_pairs (map with_pose ps)))) /\
  snd (onSave lib save_dir c can) = (do _ <- snd (saveToDirectory lib can (disk c) save_dir (of_pairs (map with_pose ps))); Ok true).
Proof.
  intros I. destruct (save_data c last ps I) as (data & -> & E). unfold onSave. rewrite E. destruct (saveToDirectory _ _ _ _ _) as [d r]. split; reflexivity.
Qed.
Lemma save_inv c last ps d : inv c last ps -> inv (Coll (heap c) (last_frame c) (poses c) (images c) d) last ps.
Proof. intros I. exact I. Qed.

(** Histories. *)
Lemma ended e d es : fst (spin (Ended e d) es) = Ended e d.
Proof. induction es as [ | x es IH ]; [ reflexivity | ]. cbn [Collector.spin Collector.step]. destruct (spin (Ended e d) es). cbn in *. exact IH. Qed.
Lemma spin_app n es1 es2 : spin n (es1 ++ es2) = (fst (spin (fst (spin n es1)) es2), (snd (spin n es1) ++ snd (spin (fst (spin n es1)) es2))%list).
Proof.
  revert n. induction es1 as [ | e es IH ]; intros n; cbn [app Collector.spin fst snd]; [ destruct (spin n es2); reflexivity | ].
  destruct (step n e) as [n' a]. rewrite IH. destruct (spin n' es) as [n'' l]. reflexivity.
Qed.
Lemma step_inv c last ps e c' : inv c last ps -> fst (step (Running c) e) = Running c' -> inv c' (latest last [e]) (ps ++ collected last [e]).
Proof.
  intros I H. destruct e as [m | tf | can]; cbn [Collector.step] in H; cbn [CollectorSpec.latest CollectorSpec.collected].
  - destruct (new_image c last ps m I) as (J & _). destruct (onNewImage lib cam c m) as [c1 [e | ]]; [ discriminate | ]. injection H as <-. rewrite app_nil_r. exact J.
  - destruct (trigger c last ps tf I) as (J & _). destruct (onTrigger c tf) as [c1 ok]. injection H as <-. unfold taken in J. destruct tf, last; cbn [fst] in J; exact J.
  - destruct (save_step c last ps can I) as (E & _). destruct (onSave lib save_dir c can) as [c1 r]. cbn [fst] in E. subst c1. rewrite app_nil_r. destruct r; injection H as <-; apply save_inv, I.
Qed.
Lemma latest_app last es1 es2 : latest last (es1 ++ es2) = latest (latest last es1) es2.
Proof. revert last. induction es1 as [ | [ | | ] es IH ]; intros last; cbn [app CollectorSpec.latest]; auto. Qed.
Lemma collected_app last es1 es2 : collected last (es1 ++ es2) = (collected last es1 ++ collected (latest last es1) es2)%list.
Proof.
  revert last. induction es1 as [ | [m | [t | ] | can] es IH ]; intros last; cbn [app CollectorSpec.latest CollectorSpec.collected]; auto. destruct last; cbn [app]; [ f_equal | ]; apply IH.
Qed.
Lemma spin_inv c last ps es c' : inv c last ps -> fst (spin (Running c) es) = Running c' -> inv c' (latest last es) (ps ++ collected last es).
Proof.
  revert c last ps. induction es as [ | e es IH ]; intros c last ps I H.
  - cbn in H. injection H as <-. cbn. rewrite app_nil_r. exact I.
  - cbn [Collector.spin] in H. destruct (step (Running c) e) as [[c1 | x d] a] eqn:S.
    + change (e :: es) with ([e] ++ es)%list. rewrite latest_app, collected_app, app_assoc. apply IH with (c := c1).
      * apply (step_inv c); [ exact I | rewrite S; reflexivity ].
      * destruct (spin (Running c1) es). exact H.
    + pose proof (ended x d es) as N. destruct (spin (Ended x d) es). cbn [fst] in *. congruence.
Qed.
Lemma history d es c : fst (spin (Running (initial d)) es) = Running c ->
  length (poses c) = length (images c) /\ pairs lib c = collected None es.
Proof. intros H. destruct (spin_inv _ _ _ _ _ (initial_inv d) H) as (L & _ & _ & _ & P). split; assumption. Qed.
Lemma trigger_history d es c tf : fst (spin (Running (initial d)) es) = Running c ->
  exists c', (exists t i, tf = Some t /\ latest None es = Some i /\ step (Running c) (Trigger tf) = (Running c', Answer true) /\
      length (poses c') = length (images c') /\ pairs lib c' = (pairs lib c ++ [(i, t)])%list) \/
    ((tf = None \/ latest None es = None) /\ step (Running c) (Trigger tf) = (Running c', Answer false) /\ c' = c).
Proof.
  intros H. pose proof (spin_inv _ _ _ _ _ (initial_inv d) H) as I. cbn [app] in I. destruct (trigger _ _ _ tf I) as (J & _ & B & N). cbn [Collector.step].
  exists (fst (onTrigger c tf)). unfold taken in J. destruct (onTrigger c tf) as [c1 ok]. cbn [fst snd] in *. destruct ok.
  - left. destruct (proj1 B eq_refl) as (t & i & -> & E). exists t, i. rewrite E in J. split; [ reflexivity | split; [ exact E | split; [ reflexivity | ] ] ].
    destruct J as (L & _ & _ & _ & P), I as (_ & _ & _ & _ & Q). split; [ exact L | ]. rewrite P, Q. reflexivity.
  - right. split; [ | split; [ reflexivity | exact (N eq_refl) ] ]. destruct tf as [t | ]; [ right | left; reflexivity ]. destruct (latest None es) as [i | ]; [ | reflexivity ]. assert (X : false = true) by (apply B; eauto). discriminate.
Qed.
Lemma run_raises can d es : (exists e, snd (run can d es) = Some e) <-> exists e, In (@Raise file e) es.
Proof.
  revert d. induction es as [ | [p f | e] es IH ]; intros d; cbn [run In].
  - split; intros (e & H); [ discriminate | destruct H ].
  - rewrite IH. split; intros (e & H); exists e; [ right; exact H | destruct H as [H | H]; [ discriminate | exact H ] ].
  - split; intros _; [ eauto | exists e; reflexivity ].
Qed.
Lemma save_ok can d (data : data_set image) : (exists b, snd (saveToDirectory lib can d save_dir data) = Ok b) /\ (forall i, In i (ds_images data) -> empty_image lib i = false) \/
  (exists e, snd (saveToDirectory lib can d save_dir data) = Throw e) /\ (exists i, In i (ds_images data) /\ empty_image lib i = true).
Proof.
  unfold saveToDirectory. pose proof (run_raises can d (save_effects lib save_dir data)) as R. destruct (run can d (save_effects lib save_dir data)) as [d' [e | ]]; cbn [snd] in *.
  - right. split; [ eauto | ]. destruct (proj1 R (ex_intro _ e eq_refl)) as (e' & H). apply in_effects in H. destruct H as [(j & img & N & H) | [(j & U & _ & H) | H]].
    + exists img. unfold imwrite in H. destruct (empty_image lib img) eqn:E; [ | discriminate ]. split; [ | reflexivity ]. apply nth_error_In in N. exact N.
    + discriminate.
    + discriminate.
  - left. split; [ eauto | ]. intros i I. destruct (empty_image lib i) eqn:E; [ exfalso | reflexivity ]. apply In_nth_error in I. destruct I as (j & I).
    assert (X : exists e : exn, None = Some e); [ | destruct X; discriminate ]. apply R. exists CvException. apply in_effects. left. exists j, i. split; [ exact I | ]. unfold imwrite. rewrite E. reflexivity.
Qed.
Lemma save_history d es c can : fst (spin (Running (initial d)) es) = Running c ->
  exists c' ok, step (Running c) (Save can) = (Running c', Answer ok) /\ pairs lib c' = pairs lib c /\ length (poses c') = length (images c') /\
    (ok = true <-> forall i t, In (i, t) (collected None es) -> empty_image lib i = false).
Proof.
  intros H. pose proof (spin_inv _ _ _ _ _ (initial_inv d) H) as I. cbn [app] in I. destruct (save_step _ _ _ can I) as (A & B). cbn [Collector.step].
  destruct (onSave lib save_dir c can) as [c1 r]. cbn [fst snd] in *. assert (I1 : pairs lib c1 = pairs lib c /\ length (poses c1) = length (images c1)) by (rewrite A; split; [ reflexivity | exact (proj1 I) ]). destruct I1 as [I1 I2].
  destruct (save_ok can (disk c) (of_pairs (map with_pose (collected None es)))) as [((b & E) & S) | ((e & E) & (i & S & Z))]; rewrite E in B; cbn [bind] in B; subst r.
  - exists c1, true. split; [ reflexivity | split; [ exact I1 | split; [ exact I2 | ] ] ]. split; [ | reflexivity ]. intros _ i t In'. apply S. cbn [of_pairs ds_images]. rewrite map_map. cbn. apply in_map_iff. exists (i, t). split; [ reflexivity | exact In' ].
  - exists c1, false. split; [ reflexivity | split; [ exact I1 | split; [ exact I2 | ] ] ]. split; [ discriminate | ]. intros N. cbn [of_pairs ds_images] in S. rewrite map_map in S. apply in_map_iff in S. destruct S as ([i' t] & <- & S). cbn in Z. rewrite (N _ _ S) in Z. discriminate.
Qed.
Lemma ends_history d es : (exists e d', fst (spin (Running (initial d)) es) = Ended e d') <-> exists m, In (NewImage m) es /\ ends cam m.
Proof.
  assert (G : forall c last ps, inv c last ps -> ((exists e d', fst (spin (Running c) es) = Ended e d') <-> exists m, In (NewImage m) es /\ ends cam m)).
  { induction es as [ | e es IH ]; intros c last ps I.
    - split; [ intros (? & ? & H); discriminate | intros (m & [] & _) ].
    - cbn [Collector.spin]. pose proof (fun c' => step_inv c last ps e c' I) as SI. destruct (step (Running c) e) as [[c1 | x dd] a] eqn:S.
      + specialize (IH c1 _ _ (SI c1 eq_refl)). destruct (spin (Running c1) es) as [n l]. cbn [fst] in *. rewrite IH. split; intros (m & M & E); exists m; (split; [ | exact E ]); [ right; exact M | ].
        destruct M as [-> | M]; [ exfalso | exact M ]. cbn [Collector.step] in S. destruct (new_image c last ps m I) as (_ & _ & Z). apply Z in E. destruct E as (e & E). destruct (onNewImage lib cam c m) as [c2 o]. cbn in E. subst o. discriminate.
      + pose proof (ended x dd es) as N. destruct (spin (Ended x dd) es) as [n l]. cbn [fst] in *. split; [ intros _ | intros _; eauto ].
        destruct e as [m | tf | can]; cbn [Collector.step] in S.
        * exists m. split; [ left; reflexivity | ]. apply (new_image c last ps m I). destruct (onNewImage lib cam c m) as [c2 [y | ]]; [ exists y; reflexivity | discriminate ].
        * destruct (onTrigger c tf); discriminate.
        * destruct (onSave lib save_dir c can) as [c2 [ | | ]]; discriminate. }
  exact (G _ _ _ (initial_inv d)).
Qed.
Lemma defined_history d es : ~ In Undefined (snd (spin (Running (initial d)) es)).
Proof.
  assert (E : forall e d' es, ~ In Undefined (snd (spin (Ended e d') es))).
  { intros e d'. induction es0 as [ | x es0 IH ]; cbn [Collector.spin Collector.step]; [ intros [] | ]. destruct (spin (Ended e d') es0). cbn in *. intros [H | H]; [ discriminate | exact (IH H) ]. }
  assert (G : forall c last ps, inv c last ps -> ~ In Undefined (snd (spin (Running c) es))); [ | exact (G _ _ _ (initial_inv d)) ].
  induction es as [ | e es IH ]; intros c last ps I; [ intros [] | ]. cbn [Collector.spin]. pose proof (fun c' => step_inv c last ps e c' I) as SI. destruct (step (Running c) e) as [n a] eqn:S.
  assert (A : a <> Undefined).
  { destruct e as [m | tf | can]; cbn [Collector.step] in S.
    - destruct (onNewImage lib cam c m) as [? [ | ]]; injection S as _ <-; discriminate.
    - destruct (onTrigger c tf); injection S as _ <-; discriminate.
    - destruct (save_step c last ps can I) as (_ & B). destruct (onSave lib save_dir c can) as [c2 r]. cbn in B. destruct (save_ok can (disk c) (of_pairs (map with_pose ps))) as [((b & Q) & _) | ((b & Q) & _)]; rewrite Q in B; cbn in B; subst r; injection S as _ <-; discriminate. }
  destruct n as [c1 | x dd].
  - specialize (IH c1 _ _ (SI c1 eq_refl)). destruct (spin (Running c1) es). cbn in *. intros [H | H]; auto.
  - specialize (E x dd es). destruct (spin (Ended x dd) es). cbn in *. intros [H | H]; auto.
Qed.
Lemma disk_history n es : (forall e, In e es -> is_save e = false) -> node_disk (fst (spin n es)) = node_disk n.
Proof.
  revert n. induction es as [ | e es IH ]; intros n H; [ reflexivity | ]. cbn [Collector.spin]. destruct (step n e) as [n' a] eqn:S. specialize (IH n' (fun e' I => H e' (or_intror I))). destruct (spin n' es). cbn [fst] in *. rewrite IH.
  destruct n as [c | x dd]; cbn [Collector.step] in S; [ | injection S as <- _; reflexivity ].
  destruct e as [m | tf | can].
  - assert (D : disk (fst (onNewImage lib cam c m)) = disk c).
    { unfold onNewImage. cbv zeta. destruct (if String.eqb _ _ then _ else _) as [i | e]; [ | reflexivity ]. destruct (examine cam _) as [b [e | ]]; [ | reflexivity ]. destruct (is_runtime e); [ | reflexivity ]. destruct (publish cam _); reflexivity. }
    destruct (onNewImage lib cam c m) as [c1 [y | ]]; injection S as <- _; exact D.
  - unfold onTrigger in S. destruct tf, (last_frame c); injection S as <- _; reflexivity.
  - specialize (H _ (or_introl eq_refl)). discriminate.
Qed.
Lemma saved_history storable d es c u can : lossless lib storable -> (forall i t, In (i, t) (collected None es) -> storable i /\ qnorm2 (tf_rotation t) = 1%R) ->
  (forall p, can p = true) -> fst (spin (Running (initial d)) es) = Running c ->
  exists c', step (Running c) (Save can) = (Running c', Answer true) /\
    parseFromFile lib (disk c') u (save_dir ++ "/data.yaml") = Ok (Some (of_pairs (map with_pose (collected None es)))).
Proof.
  intros L S C H. pose proof (spin_inv _ _ _ _ _ (initial_inv d) H) as I. cbn [app] in I. destruct (save_step _ _ _ can I) as (A & B).
  destruct (save_parse lib (proj1 L) storable L can (disk c) save_dir (map with_pose (collected None es)) u) as (d' & E & P).
  - intros i T M. apply in_map_iff in M. destruct M as ([i' t] & M & N). injection M as <- <-. destruct (S _ _ N) as (Q1 & Q2). split; [ exact Q1 | ]. unfold rigid, transformToEigen. cbn [lin snd]. apply q_matrix_rot, Q2.
  - exact C.
  - rewrite E in A, B. cbn [fst snd bind] in A, B. exists (fst (onSave lib save_dir c can)). cbn [Collector.step]. destruct (onSave lib save_dir c can) as [c1 r]. cbn [fst snd] in *. subst r c1. split; [ reflexivity | exact P ].
Qed.
End Collector.
