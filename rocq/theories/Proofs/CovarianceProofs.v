(** C17, C18, C19. *)
From Coq Require Import Reals Lra Arith Lia ZArith String List Bool Sorted Permutation.
From Coq Require Import DecimalString DecimalNat Decimal Ascii.
From Verif.Base Require Import Geom Outcome Matrix.
From Verif.Model Require Import Covariance.
From Verif.Spec Require Import CovarianceSpec.
From Verif.Proofs Require Import ListLemmas CorrelationProofs.
Import ListNotations.
Local Open Scope nat_scope.

(** ** C17 *)
Definition row_pairs (n i : nat) : list (nat * nat) := map (pair i) (seq (S i) (n - S i)).
Definition pairs_upto (n k : nat) : list (nat * nat) := flat_map (row_pairs n) (seq 0 k).
Definition pairs (n : nat) := pairs_upto n n.

Lemma pairs_upto_In n k i j : In (i, j) (pairs_upto n k) <-> i < k /\ i < j < n.
Proof.
  unfold pairs_upto, row_pairs. rewrite in_flat_map. split.
  - intros (x & Hx & Hp). apply in_map_iff in Hp as (y & [= <- <-] & Hy).
    apply in_seq in Hx, Hy. lia.
  - intros (H1 & H2). exists i. split; [ apply in_seq; lia | ].
    apply in_map_iff. exists j. split; [ reflexivity | apply in_seq; lia ].
Qed.

Lemma pairs_upto_sorted n k : StronglySorted pair_lt (pairs_upto n k).
Proof.
  induction k as [|k IH]; [ constructor | ].
  unfold pairs_upto in *. rewrite seq_S, flat_map_app'. cbn. rewrite app_nil_r.
  apply StronglySorted_app; [ exact IH | | ].
  - apply (StronglySorted_map lt); [ | apply StronglySorted_seq ].
    intros a b H. right. cbn. auto.
  - intros [a a'] [b b'] Ha Hb. apply (pairs_upto_In n k) in Ha.
    unfold row_pairs in Hb. apply in_map_iff in Hb as (y & [= <- <-] & _). left. cbn. lia.
Qed.

Lemma pairs_spec n : upper_pairs n (pairs n).
Proof.
  split; [ apply pairs_upto_sorted | ]. intros i j. unfold pairs. rewrite pairs_upto_In. lia.
Qed.

Definition sd_entry (corr : matrix) (names : list string) (i : nat) : named_param :=
  NP (nth i names EmptyString, EmptyString) (ent corr i i).
Definition pair_entry (m : matrix) (names : list string) (p : nat * nat) : named_param :=
  NP (nth (fst p) names EmptyString, nth (snd p) names EmptyString) (ent m (fst p) (snd p)).

Lemma results_row corr cov names n row sds ccs cvs :
  n <= List.length names -> row < n ->
  foldM (cov_results_step corr cov names row) (seq row (n - row)) (sds, ccs, cvs) =
  Ok (sds ++ [sd_entry corr names row],
      ccs ++ map (pair_entry corr names) (row_pairs n row),
      cvs ++ map (pair_entry cov names) (row_pairs n row))%list.
Proof.
  intros Hn Hr. replace (n - row) with (S (n - S row)) by lia. cbn [seq foldM].
  unfold cov_results_step at 1. rewrite Nat.eqb_refl, (idx_ok _ _ EmptyString) by lia. cbn [bind].
  unfold row_pairs. fold (sd_entry corr names row).
  set (sds' := (sds ++ [sd_entry corr names row])%list).
  assert (G : forall m a ccs cvs, row < a -> a + m <= n ->
    foldM (cov_results_step corr cov names row) (seq a m) (sds', ccs, cvs) =
    Ok (sds', ccs ++ map (pair_entry corr names) (map (pair row) (seq a m)),
        cvs ++ map (pair_entry cov names) (map (pair row) (seq a m)))%list).
  { induction m as [|m IH]; intros a c1 c2 Ha Hm; cbn [seq map foldM].
    - rewrite !app_nil_r. reflexivity.
    - unfold cov_results_step at 1. destruct (Nat.eqb_spec row a); [ lia | ].
      rewrite !(idx_ok _ _ EmptyString) by lia. cbn [bind].
      rewrite IH by lia. rewrite <- !app_assoc. reflexivity. }
  rewrite G by lia. reflexivity.
Qed.

Lemma results_spec u cov names : rows cov = cols cov -> rows cov <= List.length names ->
  exists corr, computeCorrelationsFromCovariance u cov = Ok corr /\
  computeCovarianceResults u cov names =
  Ok (CR (map (sd_entry corr names) (seq 0 (rows cov)))
         (map (pair_entry corr names) (pairs (rows cov)))
         (map (pair_entry cov names) (pairs (rows cov))) cov corr).
Proof.
  intros Hsq Hn. destruct (correlations_spec u cov Hsq) as (corr & E & Hr & _ & _).
  exists corr. split; [ exact E | ]. unfold computeCovarianceResults. rewrite E. cbn [bind]. rewrite Hr.
  set (f := fun st_cs row => _).
  set (P := fun k (s : list named_param * list named_param * list named_param * nat) =>
    s = (map (sd_entry corr names) (seq 0 k),
         map (pair_entry corr names) (pairs_upto (rows cov) k),
         map (pair_entry cov names) (pairs_upto (rows cov) k), k)).
  destruct (foldM_seq_inv P f 0 (rows cov) (([], [], []), 0)) as (s & Es & Hs).
  - reflexivity.
  - intros k s Hk ->. unfold f. rewrite results_row by lia. cbn [bind]. eexists; split; [ reflexivity | ].
    unfold P, pairs_upto. rewrite seq_S, !flat_map_app', !map_app. cbn. rewrite !app_nil_r. reflexivity.
  - rewrite Es. cbn [bind]. unfold P in Hs. rewrite Hs. cbn. reflexivity.
Qed.

Lemma results_few_names u cov names : rows cov = cols cov -> List.length names < rows cov ->
  computeCovarianceResults u cov names = UB.
Proof.
  intros Hsq Hn. destruct (correlations_spec u cov Hsq) as (corr & E & Hr & _ & _).
  unfold computeCovarianceResults. rewrite E. cbn [bind]. rewrite Hr.
  set (f := fun st_cs row => _).
  destruct names as [|n0 names].
  - destruct (rows cov) as [|n] eqn:En; [ cbn in Hn; lia | ].
    assert (F : foldM f (seq 0 (S n)) (([], [], []), 0) = UB); [ | rewrite F; reflexivity ].
    cbn [seq foldM]. unfold f at 1. rewrite Nat.sub_0_r. cbn. reflexivity.
  - set (k := List.length (n0 :: names)) in *.
    assert (F : foldM f (seq 0 (rows cov)) (([], [], []), 0) = UB); [ | rewrite F; reflexivity ].
    destruct (rows cov) as [|n] eqn:En; [ lia | ].
    cbn [seq foldM]. unfold f at 1. rewrite Nat.sub_0_r.
    assert (G : foldM (cov_results_step corr cov (n0 :: names) 0) (seq 0 (S n)) ([], [], []) = UB).
    { replace (S n) with (k + S (n - k)) by lia. rewrite seq_app, foldM_app.
      pose proof (results_row corr cov (n0 :: names) k 0 [] [] []) as RR.
      rewrite Nat.sub_0_r in RR. rewrite RR by (unfold k; cbn; lia). cbn [bind seq foldM].
      unfold cov_results_step at 1. rewrite Nat.add_0_l.
      destruct (Nat.eqb_spec 0 k) as [C|_]; [ unfold k in C; cbn in C; lia | ].
      rewrite (idx_ok _ 0 EmptyString) by (cbn; lia). cbn [bind].
      rewrite idx_ub by (unfold k; lia). reflexivity. }
    rewrite G. reflexivity.
Qed.

(** ** C18 *)
Definition mask_of (masks : amap (list Z)) (b : nat) : list Z :=
  match find_key b masks with Some m => m | None => [] end.
Definition label_of (names : amap (list string)) (e : nat * nat) : string :=
  nth (snd e) (match find_key (fst e) names with Some l => l | None => [] end) EmptyString.

Lemma in_mask_spec masks i : in_mask masks i = existsb (Z.eqb (Z.of_nat i)) masks.
Proof.
  unfold in_mask. induction masks as [|m r IH]; cbn; [ reflexivity | ]. rewrite IH, Z.eqb_sym. reflexivity.
Qed.

Lemma free_elems_app size mask l1 l2 :
  free_elems size mask (l1 ++ l2) = (free_elems size mask l1 ++ free_elems size mask l2)%list.
Proof. apply flat_map_app'. Qed.
Lemma ceres_elems_app pb l1 l2 : ceres_elems pb (l1 ++ l2) = (ceres_elems pb l1 ++ ceres_elems pb l2)%list.
Proof. apply flat_map_app'. Qed.

Definition free_blk (mask : list Z) (b k : nat) : list (nat * nat) :=
  filter (fun e => negb (existsb (Z.eqb (Z.of_nat (snd e))) mask)) (map (fun i => (b, i)) (seq 0 k)).

Lemma free_blk_S mask b k :
  free_blk mask b (S k) =
  (free_blk mask b k ++ if existsb (Z.eqb (Z.of_nat k)) mask then [] else [(b, k)])%list.
Proof.
  unfold free_blk. rewrite seq_S, map_app, filter_app. cbn.
  destruct (existsb (Z.eqb (Z.of_nat k)) mask); reflexivity.
Qed.

Section Block.
  Variables (pb : cov_problem) (names : amap (list string)) (masks : amap (list Z)) (blocks : list nat).
  Let size b := match pb_size pb b with Some n => n | None => 0 end.
  Let el := ceres_elems pb blocks.

  Definition tan_ok (fr : list (nat * nat)) (t : list nat * list string) : Prop :=
    snd t = map (label_of names) fr /\
    map (fun k => nth k el (0, 0)) (fst t) = fr /\
    Forall (fun k => k < List.length el) (fst t).

  Lemma tangent_loop pre b post label t k :
    blocks = (pre ++ b :: post)%list -> pb_size pb b = Some (List.length label) ->
    find_key b names = Some label -> k <= List.length label ->
    tan_ok (free_elems size (mask_of masks) pre) t ->
    exists t', foldM (tangent_step label (mask_of masks b) (List.length (ceres_elems pb pre))) (seq 0 k) t = Ok t' /\
      tan_ok (free_elems size (mask_of masks) pre ++ free_blk (mask_of masks b) b k) t'.
  Proof.
    intros Eb Hs Hf Hk Ht.
    pose (P := fun k t => tan_ok (free_elems size (mask_of masks) pre ++ free_blk (mask_of masks b) b k) t).
    apply (foldM_seq_inv P).
    - unfold P, free_blk. cbn. rewrite app_nil_r. exact Ht.
    - intros i [ix lb] Hi (H1 & H2 & H3). cbn [fst snd] in *. unfold tangent_step. rewrite in_mask_spec.
      unfold P. rewrite free_blk_S. destruct (existsb _ _).
      + eexists; split; [ reflexivity | ]. rewrite app_nil_r. repeat split; assumption.
      + rewrite (at_ok _ _ EmptyString) by lia. cbn [bind]. eexists; split; [ reflexivity | ].
        unfold tan_ok. cbn [fst snd]. rewrite app_assoc.
        set (fr := (free_elems size (mask_of masks) pre ++ free_blk (mask_of masks b) b i)%list) in *.
        assert (Hel : el = (ceres_elems pb pre ++ map (fun j => (b, j)) (seq 0 (List.length label))
                            ++ ceres_elems pb post)%list).
        { unfold el. rewrite Eb. rewrite ceres_elems_app. f_equal. unfold ceres_elems. cbn [flat_map].
          rewrite Hs. reflexivity. }
        repeat split.
        * rewrite map_app, H1. cbn. f_equal. unfold label_of. cbn. rewrite Hf. reflexivity.
        * rewrite map_app, H2. cbn. f_equal. f_equal. rewrite Hel, app_nth2_plus, app_nth1 by (rewrite map_length, seq_length; lia).
          rewrite (nth_indep _ (0, 0) (b, 0)) by (rewrite map_length, seq_length; lia).
          rewrite (map_nth (fun j => (b, j))), seq_nth by lia. reflexivity.
        * apply Forall_app. split; [ exact H3 | ]. constructor; [ | constructor ].
          rewrite Hel, !app_length, map_length, seq_length. lia.
  Qed.

  Lemma block_loop : (forall b, In b blocks -> labels_fit pb names b) ->
    exists t, foldM (block_step pb names masks) blocks (0, ([], [])) = Ok (List.length el, t) /\
      tan_ok (free_elems size (mask_of masks) blocks) t.
  Proof.
    intros H.
    pose (P := fun pre (s : nat * (list nat * list string)) =>
      fst s = List.length (ceres_elems pb pre) /\ tan_ok (free_elems size (mask_of masks) pre) (snd s)).
    destruct (foldM_ok_inv P (block_step pb names masks) blocks (0, ([], []))) as (s & Es & H1 & H2).
    - unfold P, tan_ok; cbn. repeat split; constructor.
    - intros pre b post [n t] Eb (H1 & H2). cbn [fst snd] in *. unfold block_step.
      destruct (H b) as (label & Hf & Hs); [ rewrite Eb; apply in_elt | ].
      unfold blockSize. rewrite Hs. cbn [bind]. rewrite Hf, Nat.eqb_refl. cbn [negb].
      destruct (tangent_loop pre b post label t (List.length label) Eb Hs Hf (le_n _) H2) as (t' & Et & Ht').
      unfold mask_of in Et. rewrite H1. rewrite Et. cbn [bind]. eexists; split; [ reflexivity | ].
      unfold P. cbn [fst snd]. split.
      + rewrite ceres_elems_app, app_length. f_equal. unfold ceres_elems. cbn [flat_map].
        rewrite Hs, app_nil_r, map_length, seq_length. reflexivity.
      + rewrite free_elems_app. unfold free_elems at 2. cbn [flat_map]. rewrite app_nil_r.
        unfold size at 2. rewrite Hs. exact Ht'.
    - destruct s as [n t]. cbn [fst snd] in *. subst n. exists t. split; [ exact Es | exact H2 ].
  Qed.

  Lemma block_loop_ok s0 s : foldM (block_step pb names masks) blocks s0 = Ok s ->
    forall b, In b blocks -> labels_fit pb names b.
  Proof.
    intros H b Hb. destruct (foldM_ok_elim _ _ _ _ H b Hb) as ([n t] & s' & E).
    unfold block_step, blockSize in E. destruct (pb_size pb b) as [z|] eqn:Ez; cbn in E; [ | discriminate ].
    destruct (find_key b names) as [label|] eqn:Ef; [ | discriminate ].
    destruct (Nat.eqb_spec z (List.length label)) as [->|N]; cbn in E; [ | discriminate ].
    exists label. auto.
  Qed.

  Lemma tangent_step_no_ub label mk n ks t :
    (forall k, In k ks -> k < List.length label) -> is_ok (foldM (tangent_step label mk n) ks t).
  Proof.
    revert t. induction ks as [|k r IH]; intros [ix lb] H; cbn.
    - eexists; reflexivity.
    - destruct (in_mask mk k); cbn; [ apply IH; intros; apply H; right; assumption | ].
      rewrite (at_ok _ _ EmptyString) by (apply H; left; reflexivity). cbn.
      apply IH. intros; apply H; right; assumption.
  Qed.

  Lemma block_loop_throw s0 : (forall b, In b blocks -> pb_size pb b <> None) ->
    (exists b, In b blocks /\ ~ labels_fit pb names b) ->
    exists e, foldM (block_step pb names masks) blocks s0 = Throw e /\
              (e = CovarianceException \/ e = OutOfRange).
  Proof.
    clear el. revert s0. induction blocks as [|b r IH]; intros [n t] Hs (b' & Hb' & Hn); [ destruct Hb' | ].
    cbn [foldM]. unfold block_step at 1, blockSize.
    destruct (pb_size pb b) as [z|] eqn:Ez; [ | exfalso; apply (Hs b); [ left; reflexivity | exact Ez ] ].
    cbn [bind]. destruct (find_key b names) as [label|] eqn:Ef; cbn [bind]; [ | eauto ].
    destruct (Nat.eqb_spec z (List.length label)) as [->|N]; cbn [negb bind]; [ | eauto ].
    destruct (tangent_step_no_ub label (match find_key b masks with Some m => m | None => [] end)
                n (seq 0 (List.length label)) t) as [t' Et].
    { intros k Hk. apply in_seq in Hk. lia. }
    rewrite Et. cbn [bind]. apply IH.
    - intros c Hc. apply Hs. right. exact Hc.
    - destruct Hb' as [->|Hb']; [ exfalso; apply Hn; exists label; auto | eauto ].
  Qed.
End Block.

Lemma ceres_data_entry pb blocks r c :
  let el := ceres_elems pb blocks in
  r < List.length el -> c < List.length el ->
  ceres_cov_data pb blocks (c * List.length el + r) =
  pb_cov pb (fst (nth c el (0, 0))) (snd (nth c el (0, 0))) (fst (nth r el (0, 0))) (snd (nth r el (0, 0))).
Proof.
  intros el Hr Hc. unfold ceres_cov_data. fold el.
  rewrite Nat.div_add_l, Nat.div_small, Nat.add_0_r by lia.
  rewrite Nat.add_comm, Nat.mod_add, Nat.mod_small by lia.
  destruct (nth c el (0, 0)), (nth r el (0, 0)). reflexivity.
Qed.

Lemma covariance_ok u pb blocks names masks :
  (forall b i c j, pb_cov pb b i c j = pb_cov pb c j b i) ->
  cov_inputs_ok pb blocks names ->
  let size b := match pb_size pb b with Some n => n | None => 0 end in
  let fr := free_elems size (mask_of masks) blocks in
  exists r, computeCovariance u pb blocks names masks = Ok r /\
    computeCovarianceResults u (covariance_matrix r) (map (label_of names) fr) = Ok r /\
    rows (covariance_matrix r) = List.length fr /\ cols (covariance_matrix r) = List.length fr /\
    forall p q, p < List.length fr -> q < List.length fr ->
      ent (covariance_matrix r) p q =
      pb_cov pb (fst (nth p fr (0, 0))) (snd (nth p fr (0, 0)))
                (fst (nth q fr (0, 0))) (snd (nth q fr (0, 0))).
Proof.
  intros Sy (Hl & Hb & Hc & Hg) size fr. unfold computeCovariance.
  rewrite Hl, Nat.eqb_refl. cbn [negb].
  destruct (block_loop pb names masks blocks Hb) as ([ix lb] & -> & T1 & T2 & T3). cbn [fst snd] in *.
  fold size in T1, T2. fold fr in T1, T2. cbn [bind].
  rewrite Hc, Hg. cbn [negb].
  set (el := ceres_elems pb blocks) in *.
  set (M := Mat _ _ _).
  assert (Ln : List.length fr = List.length ix) by (rewrite <- T2, map_length; reflexivity).
  assert (Ll : List.length lb = List.length fr) by (rewrite T1, map_length; reflexivity).
  destruct (results_spec u M lb) as (corr & Ec & Er); [ reflexivity | cbn; lia | ].
  rewrite Er. eexists; split; [ reflexivity | ]. cbn [covariance_matrix].
  split; [ rewrite <- T1; exact Er | ]. cbn [rows cols ent M].
  split; [ exact Ll | split; [ exact Ll | ] ].
  intros p q Hp Hq. cbn.
  assert (N : forall k, k < List.length ix -> nth (nth k ix 0) el (0, 0) = nth k fr (0, 0)).
  { intros k Hk. rewrite <- T2.
    rewrite (nth_indep (map (fun k => nth k el (0, 0)) ix) (0, 0) (nth 0 el (0, 0))) by (rewrite map_length; exact Hk).
    rewrite (map_nth (fun k => nth k el (0, 0))). reflexivity. }
  assert (B : forall k, k < List.length ix -> nth k ix 0 < List.length el).
  { intros k Hk. rewrite Forall_forall in T3. apply T3, nth_In, Hk. }
  unfold el in *. rewrite ceres_data_entry by (apply B; lia). rewrite !N by lia. apply Sy.
Qed.

Lemma covariance_ok_inv u pb blocks names masks r :
  computeCovariance u pb blocks names masks = Ok r -> cov_inputs_ok pb blocks names.
Proof.
  unfold computeCovariance. destruct (Nat.eqb_spec (List.length blocks) (List.length names)) as [E|N]; cbn; [ | discriminate ].
  destruct (foldM _ blocks _) as [[n [ix lb]]| |] eqn:F; cbn; try discriminate.
  destruct (pb_compute pb blocks) eqn:E1; cbn; [ | discriminate ].
  destruct (pb_get pb blocks) eqn:E2; cbn; [ | discriminate ].
  intros _. split; [ exact E | split; [ eapply block_loop_ok; exact F | auto ] ].
Qed.

Lemma covariance_throw_count u pb blocks names masks :
  List.length blocks <> List.length names ->
  computeCovariance u pb blocks names masks = Throw CovarianceException.
Proof.
  intros N. unfold computeCovariance. destruct (Nat.eqb_spec (List.length blocks) (List.length names)); [ contradiction | reflexivity ].
Qed.
Lemma covariance_throw_labels u pb blocks names masks :
  (forall b, In b blocks -> pb_size pb b <> None) ->
  (exists b, In b blocks /\ ~ labels_fit pb names b) ->
  exists e, computeCovariance u pb blocks names masks = Throw e.
Proof.
  intros Hs Hn. unfold computeCovariance. destruct (Nat.eqb _ _); cbn; [ | eauto ].
  destruct (block_loop_throw pb names masks blocks (0, ([], [])) Hs Hn) as (e & -> & _). cbn. eauto.
Qed.
Lemma covariance_throw_solver u pb blocks names masks :
  List.length blocks = List.length names -> (forall b, In b blocks -> labels_fit pb names b) ->
  pb_compute pb blocks = false \/ pb_get pb blocks = false ->
  computeCovariance u pb blocks names masks = Throw CovarianceException.
Proof.
  intros Hl Hb Hs. unfold computeCovariance. rewrite Hl, Nat.eqb_refl. cbn [negb].
  destruct (block_loop pb names masks blocks Hb) as ([ix lb] & -> & _). cbn [bind].
  destruct (pb_compute pb blocks); cbn; [ | reflexivity ].
  destruct Hs as [|Hs]; [ discriminate | ]. rewrite Hs. reflexivity.
Qed.

(** Generated names. *)
Fixpoint no_us (s : string) : Prop :=
  match s with EmptyString => True | String c r => c <> "_"%char /\ no_us r end.
Lemma uint_no_us d : no_us (NilEmpty.string_of_uint d).
Proof. induction d; cbn; repeat split; try assumption; discriminate. Qed.
Lemma to_string_no_us n : no_us (to_string n).
Proof.
  unfold to_string, NilZero.string_of_uint. destruct (Nat.to_uint n); try apply uint_no_us.
  cbn. split; [ discriminate | exact I ].
Qed.
Lemma to_uint_nonnil n : Nat.to_uint n <> Nil.
Proof.
  intros H. pose proof (DecimalNat.Unsigned.of_to n) as E. rewrite H in E. cbn in E. subst n. discriminate H.
Qed.
Lemma to_string_inj n m : to_string n = to_string m -> n = m.
Proof.
  unfold to_string. intros H.
  assert (E : Nat.to_uint n = Nat.to_uint m).
  { pose proof (f_equal NilZero.uint_of_string H) as H2.
    rewrite !NilZero.usu in H2 by apply to_uint_nonnil. congruence. }
  rewrite <- (DecimalNat.Unsigned.of_to n), <- (DecimalNat.Unsigned.of_to m), E. reflexivity.
Qed.
Lemma append_us_inj s1 s2 t1 t2 : no_us s1 -> no_us s2 ->
  String.append s1 (String "_"%char t1) = String.append s2 (String "_"%char t2) -> s1 = s2 /\ t1 = t2.
Proof.
  revert s2. induction s1 as [|c s1 IH]; intros [|c2 s2] H1 H2 H; cbn in *.
  - injection H as ->. auto.
  - injection H as H _. destruct H2. congruence.
  - injection H as H _. destruct H1. congruence.
  - injection H as -> H. destruct H1, H2. destruct (IH s2) as [-> ->]; auto.
Qed.
Lemma dummy_name_inj k i k' i' : dummy_name k i = dummy_name k' i' -> k = k' /\ i = i'.
Proof.
  unfold dummy_name. cbn [String.append]. intros H. injection H as H.
  apply append_us_inj in H as [H1 H2]; try apply to_string_no_us. cbn in H2.
  injection H2 as H2. split; apply to_string_inj; assumption.
Qed.

Definition dummy_map (pb : cov_problem) (blocks : list nat) : amap (list string) :=
  map (fun kb => (snd kb, map (dummy_name (fst kb))
                 (seq 0 (match pb_size pb (snd kb) with Some n => n | None => 0 end))))
      (combine (seq 0 (List.length blocks)) blocks).

Lemma insert_key_fresh {V} k (v : V) m : ~ In k (keys m) -> insert_key k v m = (m ++ [(k, v)])%list.
Proof.
  unfold keys. induction m as [|[k' v'] r IH]; cbn; intros H; [ reflexivity | ].
  destruct (Nat.eqb_spec k k') as [->|N]; [ tauto | ]. rewrite IH by tauto. reflexivity.
Qed.

Lemma keys_dummy pb a blocks :
  keys (map (fun kb => (snd kb, map (dummy_name (fst kb))
                 (seq 0 (match pb_size pb (snd kb) with Some n => n | None => 0 end))))
      (combine (seq a (List.length blocks)) blocks)) = blocks.
Proof.
  unfold keys. rewrite map_map. cbn. revert a. induction blocks as [|b r IH]; intros a; cbn; [ reflexivity | ].
  f_equal. apply IH.
Qed.

Lemma generated_names u pb blocks masks :
  NoDup blocks -> (forall b, In b blocks -> pb_size pb b <> None) ->
  computeCovariance_blocks u pb blocks masks = computeCovariance u pb blocks (dummy_map pb blocks) masks.
Proof.
  intros Hd Hs. unfold computeCovariance_blocks.
  match goal with |- context [foldM ?g _ _] => set (f := g) end.
  assert (G : forall post a (acc : amap (list string)), (forall b, In b post -> ~ In b (keys acc)) -> NoDup post ->
     (forall b, In b post -> pb_size pb b <> None) ->
     foldM f (combine (seq a (List.length post)) post) acc =
     Ok (acc ++ map (fun kb => (snd kb, map (dummy_name (fst kb))
                 (seq 0 (match pb_size pb (snd kb) with Some n => n | None => 0 end))))
            (combine (seq a (List.length post)) post))%list).
  { induction post as [|b r IH]; intros a acc Hi Hnd Hsz; cbn [combine List.length seq foldM map].
    - rewrite app_nil_r. reflexivity.
    - inversion Hnd as [|x l Hx Hnd']; subst. unfold f at 1, blockSize. cbn [fst snd].
      destruct (pb_size pb b) as [z|] eqn:Ez; [ | exfalso; apply (Hsz b); [ left; reflexivity | exact Ez ] ].
      cbn [bind]. rewrite insert_key_fresh by (apply Hi; left; reflexivity).
      rewrite IH; [ rewrite <- app_assoc; reflexivity | | exact Hnd' | intros; apply Hsz; right; assumption ].
      intros c Hc. unfold keys. rewrite map_app, in_app_iff. cbn. intros [C|[->|[]]].
      + apply (Hi c); [ right; exact Hc | exact C ].
      + contradiction. }
  rewrite (G blocks 0 []); [ reflexivity | intros b _ [] | exact Hd | exact Hs ].
Qed.

Lemma find_dummy_gen pb a blocks k : NoDup blocks -> k < List.length blocks ->
  find_key (nth k blocks 0)
    (map (fun kb => (snd kb, map (dummy_name (fst kb))
                 (seq 0 (match pb_size pb (snd kb) with Some n => n | None => 0 end))))
      (combine (seq a (List.length blocks)) blocks)) =
  Some (map (dummy_name (a + k))
        (seq 0 (match pb_size pb (nth k blocks 0) with Some n => n | None => 0 end))).
Proof.
  revert a k. induction blocks as [|b r IH]; intros a k Hd Hk; [ cbn in Hk; lia | ].
  inversion Hd as [|x l Hx Hd']; subst. cbn [combine List.length seq map find_key fst snd].
  destruct k as [|k]; cbn [nth].
  - rewrite Nat.eqb_refl, Nat.add_0_r. reflexivity.
  - cbn in Hk. destruct (Nat.eqb_spec (nth k r 0) b) as [E|_].
    + exfalso. apply Hx. rewrite <- E. apply nth_In. lia.
    + rewrite IH by (try assumption; lia). replace (S a + k) with (a + S k) by lia. reflexivity.
Qed.
Lemma find_dummy pb blocks k : NoDup blocks -> k < List.length blocks ->
  find_key (nth k blocks 0) (dummy_map pb blocks) =
  Some (map (dummy_name k)
        (seq 0 (match pb_size pb (nth k blocks 0) with Some n => n | None => 0 end))).
Proof. intros Hd Hk. apply (find_dummy_gen pb 0); assumption. Qed.

Lemma dummy_inputs_ok pb blocks : NoDup blocks -> (forall b, In b blocks -> pb_size pb b <> None) ->
  pb_compute pb blocks = true -> pb_get pb blocks = true -> cov_inputs_ok pb blocks (dummy_map pb blocks).
Proof.
  intros Hd Hs Hc Hg. split; [ | split; [ | auto ] ].
  - unfold dummy_map. rewrite map_length, combine_length, seq_length, Nat.min_id. reflexivity.
  - intros b Hb. destruct (In_nth _ _ 0 Hb) as (k & Hk & <-).
    pose proof (find_dummy pb blocks k Hd Hk) as E.
    destruct (pb_size pb (nth k blocks 0)) as [z|] eqn:Ez; [ | exfalso; eapply Hs; eauto ].
    eexists; split; [ exact E | ]. rewrite map_length, seq_length. exact Ez.
Qed.

Lemma dummy_label pb blocks k i : NoDup blocks -> k < List.length blocks ->
  i < (match pb_size pb (nth k blocks 0) with Some n => n | None => 0 end) ->
  label_of (dummy_map pb blocks) (nth k blocks 0, i) = dummy_name k i.
Proof.
  intros Hd Hk Hi. unfold label_of. cbn [fst snd]. rewrite find_dummy by assumption.
  rewrite (nth_indep _ EmptyString (dummy_name k 0)) by (rewrite map_length, seq_length; exact Hi).
  rewrite (map_nth (dummy_name k)), seq_nth by exact Hi. reflexivity.
Qed.

(** ** C19 *)
Lemma cmp_abs_swo : strict_weak_order cmp_abs.
Proof.
  unfold strict_weak_order, cmp_abs. repeat split; intros *;
  repeat destruct (Rlt_dec _ _); intros; try discriminate; try reflexivity; exfalso; lra.
Qed.

Lemma threshold_filter std_sort r t : sort_contract std_sort ->
  Permutation (filter (fun c => if Rlt_dec t (Rabs (np_value c)) then true else false) (correlation_coeffs r))
              (getCorrelationCoeffOutsideThreshold std_sort r t) /\
  StronglySorted (fun a b => (Rabs (np_value b) <= Rabs (np_value a))%R)
              (getCorrelationCoeffOutsideThreshold std_sort r t).
Proof.
  intros H. unfold getCorrelationCoeffOutsideThreshold.
  set (p := fun c => if Rlt_dec t (Rabs (np_value c)) then true else false).
  assert (E : fold_left (fun out corr => if Rlt_dec t (Rabs (np_value corr)) then (out ++ [corr])%list else out)
                (correlation_coeffs r) [] = filter p (correlation_coeffs r)).
  { rewrite <- (app_nil_l (filter p _)), <- fold_left_filter. clear.
    assert (G : forall l acc, fold_left (fun out corr => if Rlt_dec t (Rabs (np_value corr)) then (out ++ [corr])%list else out) l acc
       = fold_left (fun out a => if p a then (out ++ [a])%list else out) l acc).
    { induction l as [|a l IH]; intros acc; cbn; [ reflexivity | ].
      rewrite IH. unfold p. destruct (Rlt_dec _ _); reflexivity. }
    apply G. }
  rewrite E. destruct (H cmp_abs (filter p (correlation_coeffs r)) cmp_abs_swo) as [Hp Hs].
  split; [ exact Hp | ]. clear - Hs. induction Hs as [|a l S IH F]; constructor; [ exact IH | ].
  eapply Forall_impl; [ | exact F ]. intros b. cbn. unfold cmp_abs. destruct (Rlt_dec _ _); [ discriminate | lra ].
Qed.

(** Insertion sort meets the contract, so the hypothesis is satisfiable. *)
Fixpoint insert_by {A} (lt : A -> A -> bool) (x : A) (l : list A) : list A :=
  match l with [] => [x] | y :: r => if lt y x then y :: insert_by lt x r else x :: l end.
Definition insertion_sort {A} (lt : A -> A -> bool) (l : list A) : list A :=
  fold_right (insert_by lt) [] l.

Lemma insert_by_perm {A} (lt : A -> A -> bool) x l : Permutation (x :: l) (insert_by lt x l).
Proof.
  induction l as [|y r IH]; cbn; [ reflexivity | ]. destruct (lt y x); [ | reflexivity ].
  rewrite perm_swap. constructor. exact IH.
Qed.
Lemma swo_neg_trans {A} (lt : A -> A -> bool) a b c : strict_weak_order lt ->
  lt b a = false -> lt c b = false -> lt c a = false.
Proof.
  intros (Ir & Tr & Eq) H1 H2. destruct (lt c a) eqn:E; [ | reflexivity ]. exfalso.
  destruct (lt a b) eqn:E1; [ rewrite (Tr c a b E E1) in H2; discriminate | ].
  destruct (lt b c) eqn:E2; [ rewrite (Tr b c a E2 E) in H1; discriminate | ].
  destruct (Eq a b c) as [_ C]; auto. congruence.
Qed.
Lemma insert_by_sorted {A} (lt : A -> A -> bool) x l : strict_weak_order lt ->
  StronglySorted (fun a b => lt b a = false) l -> StronglySorted (fun a b => lt b a = false) (insert_by lt x l).
Proof.
  intros W S. induction S as [|y r S IH F]; cbn; [ repeat constructor | ].
  destruct (lt y x) eqn:E.
  - constructor; [ exact IH | ]. apply (Permutation_Forall (insert_by_perm lt x r)).
    constructor; [ | exact F ]. destruct W as (Ir & Tr & _).
    destruct (lt x y) eqn:E2; [ | reflexivity ]. pose proof (Tr _ _ _ E E2). rewrite Ir in *. discriminate.
  - constructor; [ constructor; assumption | ]. constructor; [ exact E | ].
    eapply Forall_impl; [ | exact F ]. intros z Hz. cbn in Hz. eapply swo_neg_trans; eauto.
Qed.
Lemma insertion_sort_contract {A} : sort_contract (@insertion_sort A).
Proof.
  intros lt l W. induction l as [|a r [IH1 IH2]]; cbn; [ split; constructor | ].
  split; [ rewrite <- insert_by_perm; constructor; exact IH1 | apply insert_by_sorted; assumption ].
Qed.

Lemma results_summary u cov names : rows cov = cols cov -> List.length names = rows cov ->
  exists r ps,
    computeCovarianceResults u cov names = Ok r /\
    upper_pairs (rows cov) ps /\
    covariance_matrix r = cov /\
    computeCorrelationsFromCovariance u cov = Ok (correlation_matrix r) /\
    standard_deviations r = map (sd_entry (correlation_matrix r) names) (seq 0 (rows cov)) /\
    correlation_coeffs r = map (pair_entry (correlation_matrix r) names) ps /\
    covariances r = map (pair_entry cov names) ps.
Proof.
  intros Hsq Hn. destruct (results_spec u cov names Hsq) as (corr & Ec & Er); [ lia | ].
  eexists. exists (pairs (rows cov)). split; [ exact Er | ]. cbn.
  split; [ apply pairs_spec | ]. repeat split; assumption.
Qed.

Lemma pair_lt_irrefl p : ~ pair_lt p p.
Proof. unfold pair_lt. lia. Qed.
Lemma pair_lt_asym p q : pair_lt p q -> pair_lt q p -> False.
Proof. unfold pair_lt. lia. Qed.

Lemma sorted_unique (l1 l2 : list (nat * nat)) :
  StronglySorted pair_lt l1 -> StronglySorted pair_lt l2 -> (forall x, In x l1 <-> In x l2) -> l1 = l2.
Proof.
  intros S1. revert l2. induction S1 as [|a l1 S1 IH F1]; intros l2 S2 H.
  - destruct l2 as [|b l2]; [ reflexivity | ]. exfalso. apply (proj2 (H b)). left; reflexivity.
  - destruct S2 as [|b l2 S2 F2]; [ exfalso; apply (proj1 (H a)); left; reflexivity | ].
    rewrite Forall_forall in F1, F2.
    assert (a = b).
    { destruct (proj1 (H a) (or_introl eq_refl)) as [E|Ha]; [ auto | ].
      destruct (proj2 (H b) (or_introl eq_refl)) as [E|Hb]; [ auto | ].
      exfalso. eapply pair_lt_asym; eauto. }
    subst b. f_equal. apply IH; [ exact S2 | ]. intros x. split; intros Hx.
    + destruct (proj1 (H x) (or_intror Hx)) as [<-|?]; [ | assumption ].
      exfalso. eapply pair_lt_irrefl. apply F1. exact Hx.
    + destruct (proj2 (H x) (or_intror Hx)) as [<-|?]; [ | assumption ].
      exfalso. eapply pair_lt_irrefl. apply F2. exact Hx.
Qed.

Lemma upper_pairs_unique n ps qs : upper_pairs n ps -> upper_pairs n qs -> NoDup ps /\ ps = qs.
Proof.
  intros [S1 H1] [S2 H2]. split.
  - eapply StronglySorted_NoDup; [ apply pair_lt_irrefl | exact S1 ].
  - apply sorted_unique; try assumption. intros [i j]. rewrite H1, H2. reflexivity.
Qed.

(** A problem with two blocks used in the example. *)
Definition ex_pb : cov_problem :=
  CP [7; 3] (fun b => match b with 7 => Some 2 | 3 => Some 3 | _ => None end)
     (fun _ => true) (fun _ => true)
     (fun b i c j => if andb (Nat.eqb b c) (Nat.eqb i j) then 4%R else 0%R).
Definition ex_names : amap (list string) :=
  [(3, ["a"; "b"; "c"]%string); (7, ["p"; "q"]%string)].
Definition ex_masks : amap (list Z) := [(3, [1%Z; 1%Z])].
Lemma ex_inputs_ok : cov_inputs_ok ex_pb [7; 3] ex_names.
Proof.
  split; [ reflexivity | split; [ | split; reflexivity ] ].
  intros b [<-|[<-|[]]]; eexists; split; reflexivity.
Qed.

Lemma covariance_sd_names u pb blocks names masks r :
  (forall b i c j, pb_cov pb b i c j = pb_cov pb c j b i) ->
  computeCovariance u pb blocks names masks = Ok r ->
  let size b := match pb_size pb b with Some n => n | None => 0 end in
  map (fun p => fst (np_names p)) (standard_deviations r) =
  map (label_of names) (free_elems size (mask_of masks) blocks).
Proof.
  intros Sy E size. pose proof (covariance_ok_inv _ _ _ _ _ _ E) as Hi.
  destruct (covariance_ok u pb blocks names masks Sy Hi) as (r' & E' & Er & Hr & Hc & _).
  rewrite E in E'. injection E' as <-. fold size in Er, Hr, Hc.
  set (fr := free_elems size (mask_of masks) blocks) in *.
  destruct (results_summary u (covariance_matrix r) (map (label_of names) fr)) as (r2 & ps & E2 & _ & _ & _ & Hs & _).
  - rewrite Hr, Hc. reflexivity.
  - rewrite map_length. auto.
  - rewrite Er in E2. injection E2 as <-. rewrite Hs, map_map. cbn [sd_entry np_names fst].
    rewrite Hr. rewrite <- (map_length (label_of names) fr).
    generalize (map (label_of names) fr). intros l. clear. 
    apply nth_ext with (d := EmptyString) (d' := EmptyString); [ rewrite map_length, seq_length; reflexivity | ].
    intros n Hn. rewrite map_length, seq_length in Hn.
    rewrite (nth_indep _ EmptyString (nth 0 l EmptyString)) by (rewrite map_length, seq_length; exact Hn).
    rewrite (map_nth (fun x => nth x l EmptyString)), seq_nth by exact Hn. reflexivity.
Qed.

Lemma generated_names_summary u pb blocks masks :
  NoDup blocks -> (forall b, In b blocks -> pb_size pb b <> None) ->
  exists names,
    computeCovariance_blocks u pb blocks masks = computeCovariance u pb blocks names masks /\
    (pb_compute pb blocks = true -> pb_get pb blocks = true -> cov_inputs_ok pb blocks names) /\
    (forall k i n, k < List.length blocks -> pb_size pb (nth k blocks 0) = Some n -> i < n ->
       nth_error (match find_key (nth k blocks 0) names with Some l => l | None => [] end) i
       = Some (dummy_name k i)).
Proof.
  intros Hd Hs. exists (dummy_map pb blocks). split; [ apply generated_names; assumption | split ].
  - intros; apply dummy_inputs_ok; assumption.
  - intros k i n Hk Hn Hi. rewrite find_dummy by assumption. rewrite Hn.
    rewrite nth_error_map, (nth_error_nth' _ 0) by (rewrite seq_length; exact Hi).
    rewrite seq_nth by exact Hi. reflexivity.
Qed.

Lemma threshold_summary std_sort : sort_contract std_sort -> forall r t,
  let out := getCorrelationCoeffOutsideThreshold std_sort r t in
  (exists kept,
     Permutation kept out /\
     kept = filter (fun c => if Rlt_dec t (Rabs (np_value c)) then true else false) (correlation_coeffs r)) /\
  (forall c, In c out <-> In c (correlation_coeffs r) /\ (t < Rabs (np_value c))%R) /\
  StronglySorted (fun a b => (Rabs (np_value b) <= Rabs (np_value a))%R) out.
Proof.
  intros H r t out. destruct (threshold_filter std_sort r t H) as [Hp Hs]. fold out in Hp, Hs.
  split; [ eexists; split; [ exact Hp | reflexivity ] | split; [ | exact Hs ] ].
  intros c. split; intros Hc.
  - apply (Permutation_in c (Permutation_sym Hp)) in Hc. apply filter_In in Hc as [H1 H2].
    split; [ exact H1 | ]. destruct (Rlt_dec _ _); [ assumption | discriminate ].
  - apply (Permutation_in c Hp). apply filter_In. destruct Hc as [H1 H2]. split; [ exact H1 | ].
    destruct (Rlt_dec _ _); [ reflexivity | contradiction ].
Qed.

Lemma threshold_example :
  getCorrelationCoeffOutsideThreshold insertion_sort
    (CR [] [NP ("a", "b")%string (6/10)%R; NP ("a", "c")%string (1/10)%R; NP ("b", "c")%string (- (9/10))%R] []
        (Mat 0 0 (fun _ _ => 0%R)) (Mat 0 0 (fun _ _ => 0%R))) (1/2)%R
  = [NP ("b", "c")%string (- (9/10))%R; NP ("a", "b")%string (6/10)%R].
Proof.
  assert (A1 : Rabs (6/10) = (6/10)%R) by (apply Rabs_pos_eq; lra).
  assert (A2 : Rabs (1/10) = (1/10)%R) by (apply Rabs_pos_eq; lra).
  assert (A3 : Rabs (- (9/10)) = (9/10)%R) by (rewrite Rabs_Ropp; apply Rabs_pos_eq; lra).
  unfold getCorrelationCoeffOutsideThreshold. cbn [correlation_coeffs fold_left np_value].
  rewrite A1, A2, A3.
  destruct (Rlt_dec (1/2) (6/10)); [ | lra ]. destruct (Rlt_dec (1/2) (1/10)); [ lra | ].
  destruct (Rlt_dec (1/2) (9/10)); [ | lra ]. cbn. unfold cmp_abs; cbn.
  rewrite A1, A3. destruct (Rlt_dec (6/10) (9/10)); [ | lra ]. reflexivity.
Qed.
