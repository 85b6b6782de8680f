(** Loops over index ranges, and facts about lists used throughout. *)
From Coq Require Import List Arith Lia Bool Permutation Sorted.
From Verif.Base Require Import Outcome Matrix.
Import ListNotations.

Lemma fold_left_seq_inv {T} (P : nat -> T -> Prop) (f : T -> nat -> T) n s0 :
  P 0 s0 -> (forall k s, k < n -> P k s -> P (S k) (f s k)) -> P n (fold_left f (seq 0 n) s0).
Proof.
  intros H0 HS. assert (G : forall k, k <= n -> P k (fold_left f (seq 0 k) s0)).
  { induction k as [|k IH]; intros Hk; [ exact H0 | ].
    rewrite seq_S, fold_left_app. cbn. apply HS; [ lia | apply IH; lia ]. }
  apply G. lia.
Qed.

Lemma foldM_app {S A} (f : S -> A -> res S) l1 l2 s :
  foldM f (l1 ++ l2) s = do s' <- foldM f l1 s; foldM f l2 s'.
Proof.
  revert s. induction l1 as [|a r IH]; intros s; cbn; [ reflexivity | ].
  destruct (f s a); cbn; [ apply IH | reflexivity | reflexivity ].
Qed.

Lemma foldM_ok_inv {S A} (P : list A -> S -> Prop) (f : S -> A -> res S) l s0 :
  P [] s0 ->
  (forall pre a post s, l = pre ++ a :: post -> P pre s -> exists s', f s a = Ok s' /\ P (pre ++ [a]) s') ->
  exists s, foldM f l s0 = Ok s /\ P l s.
Proof.
  intros H0 HS.
  assert (G : forall post pre s, l = pre ++ post -> P pre s ->
                exists s', foldM f post s = Ok s' /\ P l s').
  { induction post as [|a post IH]; intros pre s E Hp; cbn.
    - exists s. split; [ reflexivity | ]. rewrite app_nil_r in E. subst. exact Hp.
    - destruct (HS pre a post s E Hp) as (s' & -> & Hp'). cbn.
      apply (IH (pre ++ [a])); [ rewrite <- app_assoc; exact E | exact Hp' ]. }
  apply (G l []); auto.
Qed.

Lemma foldM_ok_elim {S A} (f : S -> A -> res S) l s s' :
  foldM f l s = Ok s' -> forall a, In a l -> exists t t', f t a = Ok t'.
Proof.
  revert s. induction l as [|b r IH]; intros s H a Ha; [ destruct Ha | ].
  cbn in H. destruct (f s b) as [t| |] eqn:E; cbn in H; try discriminate.
  destruct Ha as [->|Ha]; [ eauto | eapply IH; eauto ].
Qed.

Lemma foldM_seq_inv {T} (P : nat -> T -> Prop) (f : T -> nat -> res T) a n s0 :
  P a s0 -> (forall k s, a <= k < a + n -> P k s -> exists s', f s k = Ok s' /\ P (S k) s') ->
  exists s, foldM f (seq a n) s0 = Ok s /\ P (a + n) s.
Proof.
  revert a s0. induction n as [|n IH]; intros a s0 H0 HS; cbn.
  - exists s0. rewrite Nat.add_0_r. auto.
  - destruct (HS a s0) as (s' & -> & H'); [ lia | exact H0 | ]. cbn.
    destruct (IH (S a) s') as (s & E & Hs); [ exact H' | intros; apply HS; [ lia | assumption ] | ].
    exists s. split; [ exact E | ]. replace (a + S n) with (S a + n) by lia. exact Hs.
Qed.

Lemma mapM_ok {A B} (f : A -> res B) (g : A -> B) l :
  (forall a, In a l -> f a = Ok (g a)) -> mapM f l = Ok (map g l).
Proof.
  induction l as [|a r IH]; intros H; cbn; [ reflexivity | ].
  rewrite H by (left; reflexivity). cbn. rewrite IH by (intros; apply H; right; assumption). reflexivity.
Qed.

Lemma mapM_ok_iff {A B} (f : A -> res B) l :
  is_ok (mapM f l) <-> forall a, In a l -> is_ok (f a).
Proof.
  induction l as [|a r IH]; cbn.
  - split; [ intros _ ? [] | intros _; eexists; reflexivity ].
  - split.
    + intros [bs H] b [->|Hb]; destruct (f _) as [x| |] eqn:E; cbn in H; try discriminate;
        [ eexists; reflexivity | ]. destruct (mapM f r) eqn:E2; cbn in H; try discriminate.
      apply IH; [ eexists; reflexivity | assumption ].
    + intros H. destruct (H a) as [x ->]; [ auto | ]. cbn.
      destruct (proj2 IH) as [bs ->]; [ intros; apply H; auto | ]. cbn. eexists; reflexivity.
Qed.

Lemma mapM_length {A B} (f : A -> res B) l bs : mapM f l = Ok bs -> length bs = length l.
Proof.
  revert bs. induction l as [|a r IH]; cbn; intros bs H; [ injection H as <-; reflexivity | ].
  destruct (f a); cbn in H; try discriminate. destruct (mapM f r); cbn in H; try discriminate.
  injection H as <-. cbn. f_equal. auto.
Qed.

Lemma idx_ok {A} (l : list A) i d : i < length l -> idx l i = Ok (nth i l d).
Proof. intros H. unfold idx. rewrite (nth_error_nth' l d H). reflexivity. Qed.
Lemma idx_ub {A} (l : list A) i : length l <= i -> idx l i = UB.
Proof. intros H. unfold idx. apply nth_error_None in H. rewrite H. reflexivity. Qed.
Lemma at_ok {A} (l : list A) i d : i < length l -> at_ l i = Ok (nth i l d).
Proof. intros H. unfold at_. rewrite (nth_error_nth' l d H). reflexivity. Qed.
Lemma at_throw {A} (l : list A) i : length l <= i -> at_ l i = Throw OutOfRange.
Proof. intros H. unfold at_. apply nth_error_None in H. rewrite H. reflexivity. Qed.

Lemma flat_map_app' {A B} (f : A -> list B) l1 l2 :
  flat_map f (l1 ++ l2) = flat_map f l1 ++ flat_map f l2.
Proof. induction l1; cbn; [ reflexivity | rewrite IHl1, app_assoc; reflexivity ]. Qed.

Lemma filter_app' {A} (f : A -> bool) l1 l2 : filter f (l1 ++ l2) = filter f l1 ++ filter f l2.
Proof. apply filter_app. Qed.

Lemma fold_left_filter {A} (p : A -> bool) l acc :
  fold_left (fun out a => if p a then out ++ [a] else out) l acc = acc ++ filter p l.
Proof.
  revert acc. induction l as [|a r IH]; intros acc; cbn; [ rewrite app_nil_r; reflexivity | ].
  rewrite IH. destruct (p a); [ rewrite <- app_assoc | ]; reflexivity.
Qed.

Lemma fold_left_push {A B} (f : A -> B) l acc :
  fold_left (fun out a => out ++ [f a]) l acc = acc ++ map f l.
Proof.
  revert acc. induction l as [|a r IH]; intros acc; cbn; [ rewrite app_nil_r; reflexivity | ].
  rewrite IH, <- app_assoc. reflexivity.
Qed.

Lemma StronglySorted_app {A} (R : A -> A -> Prop) l1 l2 :
  StronglySorted R l1 -> StronglySorted R l2 ->
  (forall a b, In a l1 -> In b l2 -> R a b) -> StronglySorted R (l1 ++ l2).
Proof.
  intros H1 H2 H. induction H1 as [|a l1 S1 IH F]; cbn; [ exact H2 | ].
  constructor.
  - apply IH. intros; apply H; [ right | ]; assumption.
  - apply Forall_app. split; [ exact F | ]. apply Forall_forall. intros b Hb. apply H; [ left; reflexivity | exact Hb ].
Qed.

Lemma StronglySorted_seq a n : StronglySorted lt (seq a n).
Proof.
  revert a. induction n as [|n IH]; intros a; cbn; constructor; [ apply IH | ].
  apply Forall_forall. intros x Hx. apply in_seq in Hx. lia.
Qed.

Lemma StronglySorted_map {A B} (R : A -> A -> Prop) (R' : B -> B -> Prop) (f : A -> B) l :
  (forall a b, R a b -> R' (f a) (f b)) -> StronglySorted R l -> StronglySorted R' (map f l).
Proof.
  intros H S. induction S as [|a l S IH F]; cbn; constructor; [ exact IH | ].
  apply Forall_map. eapply Forall_impl; [ | exact F ]. intros; apply H; assumption.
Qed.

Lemma StronglySorted_filter {A} (R : A -> A -> Prop) p l :
  StronglySorted R l -> StronglySorted R (filter p l).
Proof.
  intros S. induction S as [|a l S IH F]; cbn; [ constructor | ].
  destruct (p a); [ | exact IH ]. constructor; [ exact IH | ].
  apply Forall_forall. intros x Hx. apply filter_In in Hx as [Hx _].
  rewrite Forall_forall in F. auto.
Qed.

Lemma StronglySorted_NoDup {A} (R : A -> A -> Prop) l :
  (forall a, ~ R a a) -> StronglySorted R l -> NoDup l.
Proof.
  intros Hi S. induction S as [|a l S IH F]; constructor; [ | exact IH ].
  intros Ha. rewrite Forall_forall in F. apply (Hi a). auto.
Qed.

(** Association lists. *)
Lemma find_key_In {V} k (m : amap V) v : find_key k m = Some v -> In (k, v) m.
Proof.
  induction m as [|[k' v'] r IH]; cbn; [ discriminate | ].
  destruct (Nat.eqb_spec k k') as [->|N]; [ intros [= ->]; auto | auto ].
Qed.
Lemma find_key_Some_iff {V} k (m : amap V) : In k (keys m) <-> exists v, find_key k m = Some v.
Proof.
  unfold keys. induction m as [|[k' v'] r IH]; cbn.
  - split; [ intros [] | intros [? [=]] ].
  - destruct (Nat.eqb_spec k k') as [->|N].
    + split; [ intros _; eauto | auto ].
    + rewrite <- IH. split; [ intros [?|?]; [ congruence | assumption ] | auto ].
Qed.
Lemma find_insert_same {V} k v (m : amap V) : find_key k (insert_key k v m) = Some v.
Proof.
  induction m as [|[k' v'] r IH]; cbn; [ rewrite Nat.eqb_refl; reflexivity | ].
  destruct (Nat.eqb_spec k k') as [->|N]; cbn; [ rewrite Nat.eqb_refl; reflexivity | ].
  destruct (Nat.eqb_spec k k'); [ contradiction | exact IH ].
Qed.
Lemma find_insert_other {V} k k' v (m : amap V) : k <> k' -> find_key k (insert_key k' v m) = find_key k m.
Proof.
  intros N. induction m as [|[k2 v2] r IH]; cbn.
  - destruct (Nat.eqb_spec k k'); [ contradiction | reflexivity ].
  - destruct (Nat.eqb_spec k' k2) as [->|N2]; cbn.
    + destruct (Nat.eqb_spec k k2); [ contradiction | reflexivity ].
    + destruct (Nat.eqb_spec k k2); [ reflexivity | exact IH ].
Qed.
Lemma insert_key_length {V} k v (m : amap V) :
  length (insert_key k v m) = if in_dec Nat.eq_dec k (keys m) then length m else S (length m).
Proof.
  unfold keys. induction m as [|[k' v'] r IH]; [ reflexivity | ].
  cbn [insert_key map fst]. destruct (Nat.eqb_spec k k') as [->|N].
  - destruct (in_dec Nat.eq_dec k' (k' :: map fst r)) as [_|C]; [ reflexivity | ].
    exfalso. apply C. left. reflexivity.
  - cbn [length]. rewrite IH.
    destruct (in_dec Nat.eq_dec k (map fst r)) as [I|I], (in_dec Nat.eq_dec k (k' :: map fst r)) as [J|J];
      try reflexivity; exfalso.
    + apply J. right. exact I.
    + destruct J as [->|J]; [ congruence | auto ].
Qed.
Lemma keys_insert {V} k v (m : amap V) k' : In k' (keys (insert_key k v m)) <-> k' = k \/ In k' (keys m).
Proof.
  rewrite !find_key_Some_iff. destruct (Nat.eq_dec k' k) as [->|N].
  - rewrite find_insert_same. split; eauto.
  - rewrite find_insert_other by exact N. split; [ auto | intros [?|?]; [ contradiction | assumption ] ].
Qed.
