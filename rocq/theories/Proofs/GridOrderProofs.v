(** Ordering of the circles of a modified circle grid. *)
From Coq Require Import Reals Lra Lia Arith Bool List Permutation.
From Verif.Base Require Import Geom Outcome.
From Verif.Model Require Import CircleDetector Targets CircleGridFinder.
From Verif.Spec Require Import TargetSpec GridOrderSpec.
From Verif.Proofs Require Import GeomLemmas ListLemmas TargetProofs DetectorProofs.
Import ListNotations.
Local Open Scope R_scope.

Lemma nth_error_ext {A} (l l' : list A) : (forall i, nth_error l i = nth_error l' i) -> l = l'.
Proof.
  revert l'. induction l as [ | a r IH]; intros [ | b r'] H; [ reflexivity | specialize (H 0%nat); discriminate | specialize (H 0%nat); discriminate | ].
  pose proof (H 0%nat) as E. cbn in E. injection E as ->. f_equal. apply IH. intros i. exact (H (S i)).
Qed.

(** ** Matching keypoints and features *)

Lemma eps_order : 0 < DBL_EPS /\ DBL_EPS <= FLT_EPS /\ 0 < FLT_EPS.
Proof.
  unfold DBL_EPS, FLT_EPS. assert (A : 0 < 2 ^ 23) by (apply pow_lt; lra). assert (B : 2 ^ 23 <= 2 ^ 52) by (apply Rle_pow; [ lra | lia ]).
  split; [ apply Rinv_0_lt_compat; lra | ]. split; [ apply Rinv_le_contravar; lra | apply Rinv_0_lt_compat; lra ].
Qed.
Lemma same_point_flt p q : same_point FLT_EPS p q = true <-> indistinct p q.
Proof. unfold same_point, isEqual, indistinct. rewrite andb_true_iff, !rltb_true. reflexivity. Qed.
Lemma same_point_dbl p q : same_point DBL_EPS p q = true -> indistinct p q.
Proof. unfold same_point, isEqual, indistinct. rewrite andb_true_iff, !rltb_true. pose proof eps_order as E. unfold FLT_EPS in E. lra. Qed.
Lemma same_point_refl p : same_point DBL_EPS p p = true.
Proof. unfold same_point, isEqual. rewrite andb_true_iff, !rltb_true, !Rminus_diag_eq, Rabs_R0 by reflexivity. pose proof eps_order. lra. Qed.
Lemma indistinct_refl p : indistinct p p.
Proof. apply same_point_dbl. apply same_point_refl. Qed.

Lemma erase_incl {A} (f : A -> bool) l x : In x (erase_first f l) -> In x l.
Proof. induction l as [ | a r IH]; cbn; [ auto | ]. destruct (f a); cbn; intuition. Qed.
Lemma erase_NoDup {A} (f : A -> bool) l : NoDup l -> NoDup (erase_first f l).
Proof.
  induction l as [ | a r IH]; cbn; intros H; [ constructor | ]. inversion H; subst. destruct (f a); [ assumption | ].
  constructor; [ | auto ]. intros X. apply erase_incl in X. contradiction.
Qed.
Lemma erase_gone {A} (f : A -> bool) l x : NoDup l -> f x = true -> (forall y, In y l -> f y = true -> y = x) -> ~ In x (erase_first f l).
Proof.
  induction l as [ | a r IH]; cbn; intros N Hx U; [ auto | ]. inversion N; subst. destruct (f a) eqn:E.
  - assert (a = x) by (apply U; auto). subst. assumption.
  - intros [-> | X]; [ congruence | ]. revert X. apply IH; auto.
Qed.
Lemma unmatched_none l ks : matched l ks -> unmatched ks (map fst l) = [].
Proof.
  intros (N & M & U). unfold unmatched.
  assert (X : forall ks' tmp, (forall k, In k ks' -> In k ks) -> NoDup tmp -> (forall p, In p tmp -> exists s, In (p, s) l) ->
    (forall p s, In p tmp -> In (p, s) l -> In (KP p s) ks') ->
    fold_left (fun tmp k => erase_first (fun pt => same_point FLT_EPS pt (kp_pt k)) tmp) ks' tmp = []).
  { induction ks' as [ | k r IH]; intros tmp I D S K; cbn [fold_left].
    - destruct tmp as [ | p t]; [ reflexivity | ]. destruct (S p (or_introl eq_refl)) as [s Hs]. destruct (K p s (or_introl eq_refl) Hs).
    - apply IH.
      + intros; apply I; right; assumption.
      + apply erase_NoDup. exact D.
      + intros p Hp. apply S. eapply erase_incl. exact Hp.
      + intros p s Hp Hs. destruct (K p s (erase_incl _ _ _ Hp) Hs) as [-> | Hr]; [ | exact Hr ]. exfalso. revert Hp. apply erase_gone; [ exact D | apply same_point_flt; apply indistinct_refl | ].
        intros y Hy E. apply same_point_flt in E. destruct (S y Hy) as [s' Hs']. pose proof (U y s' (KP p s) Hs' (I _ (or_introl eq_refl)) E) as Q. congruence. }
  apply X; auto.
  - intros p Hp. apply in_map_iff in Hp. destruct Hp as ([p' s] & <- & H). exists s. exact H.
Qed.

Lemma assign_other f v cs ss i c : nth_error cs i = Some c -> f c = false -> nth_error (assign_first f v cs ss) i = nth_error ss i.
Proof.
  revert ss i. induction cs as [ | a r IH]; intros ss i H E; [ destruct i; discriminate | ]. destruct ss as [ | s ss]; [ reflexivity | ]. cbn.
  destruct i as [ | i]; cbn in H; [ injection H as ->; rewrite E; reflexivity | ]. destruct (f a); [ reflexivity | ]. cbn. apply IH; assumption.
Qed.
Lemma assign_hit f v cs ss i c : length ss = length cs -> nth_error cs i = Some c -> f c = true ->
  (forall j d, (j < i)%nat -> nth_error cs j = Some d -> f d = false) -> nth_error (assign_first f v cs ss) i = Some v.
Proof.
  revert ss i. induction cs as [ | a r IH]; intros ss i L H E B; [ destruct i; discriminate | ]. destruct ss as [ | s ss]; [ discriminate | ]. cbn.
  destruct i as [ | i]; cbn in H; [ injection H as ->; rewrite E; reflexivity | ]. rewrite (B 0%nat a) by (reflexivity || lia). cbn. apply IH; auto.
  intros j d Hj Hd. apply (B (S j) d); [ lia | exact Hd ].
Qed.
Lemma assign_length f v cs ss : length (assign_first f v cs ss) = length ss.
Proof. revert ss. induction cs as [ | a r IH]; intros [ | s ss]; cbn; try reflexivity. destruct (f a); cbn; [ reflexivity | rewrite IH; reflexivity ]. Qed.
Lemma sizes_matched l ks : matched l ks -> feature_sizes ks (map fst l) = map snd l.
Proof.
  intros (N & M & U). unfold feature_sizes. set (step := fun sizes k => assign_first (fun c => same_point DBL_EPS c (kp_pt k)) (kp_size k) (map fst l) sizes).
  assert (X : forall ks' ss, (forall k, In k ks' -> In k ks) -> length ss = length l ->
     length (fold_left step ks' ss) = length l /\
     forall i p s, nth_error l i = Some (p, s) -> (nth_error ss i = Some s \/ In (KP p s) ks') -> nth_error (fold_left step ks' ss) i = Some s).
  { induction ks' as [ | k r IH]; intros ss I L; cbn [fold_left]; [ split; [ exact L | intros i p s _ [H | []]; exact H ] | ].
    assert (L' : length (step ss k) = length l) by (unfold step; rewrite assign_length; exact L).
    destruct (IH (step ss k) (fun k' H => I k' (or_intror H)) L') as [IL IN]. split; [ exact IL | ]. intros i p s Hi H. apply (IN i p s Hi).
    assert (Hf : nth_error (map fst l) i = Some p) by (rewrite nth_error_map, Hi; reflexivity).
    destruct (same_point DBL_EPS p (kp_pt k)) eqn:E.
    - left. assert (k = KP p s) as -> by (apply U; [ eapply nth_error_In; exact Hi | apply I; left; reflexivity | apply same_point_dbl; exact E ]).
      unfold step. cbn [kp_pt kp_size]. apply assign_hit with (c := p); [ rewrite map_length; exact L | exact Hf | exact E | ].
      intros j d Hj Hd. destruct (same_point DBL_EPS d p) eqn:E'; [ exfalso | reflexivity ]. apply same_point_dbl in E'.
      assert (Hd' := Hd). rewrite nth_error_map in Hd'. destruct (nth_error l j) as [[d' s'] | ] eqn:Hl; [ | discriminate ]. cbn in Hd'. injection Hd' as ->.
      pose proof (U d s' (KP p s) (nth_error_In _ _ Hl) (I _ (or_introl eq_refl)) E') as Q. injection Q as Qp _.
      assert (i = j); [ | lia ]. apply (proj1 (NoDup_nth_error (map fst l)) N); [ rewrite map_length; apply nth_error_Some; congruence | congruence ].
    - destruct H as [H | [-> | H]].
      + left. unfold step. rewrite assign_other with (c := p) by assumption. exact H.
      + cbn [kp_pt] in E. rewrite same_point_refl in E. discriminate.
      + right. exact H. }
  destruct (X ks (repeat 0 (length (map fst l))) (fun k H => H)) as [XL XN]; [ rewrite repeat_length, map_length; reflexivity | ].
  apply nth_error_ext. intros i. destruct (nth_error l i) as [[p s] | ] eqn:Hi.
  - rewrite (XN i p s Hi) by (right; apply M; eapply nth_error_In; exact Hi). rewrite nth_error_map, Hi. reflexivity.
  - rewrite nth_error_map, Hi. cbn. apply nth_error_None. rewrite XL. apply nth_error_None. exact Hi.
Qed.

(** ** Relative sizes *)

Section Sizes.
  Variables (ss : list R) (L : nat) (big lo hi : R).
  Hypothesis Lo : 0 < lo.
  Hypothesis Big : hi * hi < lo * big.
  Hypothesis HL : nth_error ss L = Some big.
  Hypothesis Hs : forall i, i <> L -> (i < length ss)%nat -> exists s, nth_error ss i = Some s /\ lo <= s <= hi.

  Lemma rel_large j : j <> L -> (j < length ss)%nat -> exists v, relative_size ss L j = Ok v /\ hi / lo < v.
  Proof.
    intros N H. destruct (Hs j N H) as (s & E & B). unfold relative_size, idx. rewrite HL, E. cbn [bind]. destruct (Req_EM_T s 0) as [Z | _]; [ exfalso; lra | ].
    exists (big / s). split; [ reflexivity | ]. assert (hi * s < lo * big) by nra.
    apply Rmult_lt_reg_r with (lo * s); [ nra | ]. replace (hi / lo * (lo * s)) with (hi * s) by (field; lra). replace (big / s * (lo * s)) with (lo * big) by (field; lra). assumption.
  Qed.
  Lemma rel_small i j : i <> L -> (i < length ss)%nat -> (j < length ss)%nat -> exists v, relative_size ss i j = Ok v /\ v <= hi / lo.
  Proof.
    intros N Hi Hj. destruct (Hs i N Hi) as (s & E & B). assert (X : exists t, nth_error ss j = Some t /\ lo <= t).
    { destruct (Nat.eq_dec j L) as [-> | Nj]; [ exists big; split; [ exact HL | ] | destruct (Hs j Nj Hj) as (t & Et & Bt); exists t; split; [ exact Et | lra ] ].
      apply Rmult_le_reg_l with lo; [ exact Lo | ]. nra. }
    destruct X as (t & Et & Bt). unfold relative_size, idx. rewrite E, Et. cbn [bind]. destruct (Req_EM_T t 0) as [Z | _]; [ exfalso; lra | ].
    exists (s / t). split; [ reflexivity | ]. apply Rmult_le_reg_r with (lo * t); [ nra | ]. replace (s / t * (lo * t)) with (lo * s) by (field; lra).
    replace (hi / lo * (lo * t)) with (hi * t) by (field; lra). nra.
  Qed.
  Lemma avg_large j k : j <> L -> (j < length ss)%nat -> k <> L -> (k < length ss)%nat -> exists v, avg_rel_size ss L j k = Ok v /\ hi / lo < v.
  Proof.
    intros. destruct (rel_large j) as (a & Ea & Ba); [ assumption | assumption | ]. destruct (rel_large k) as (b & Eb & Bb); [ assumption | assumption | ].
    unfold avg_rel_size. rewrite Ea, Eb. cbn [bind]. eexists. split; [ reflexivity | ]. lra.
  Qed.
  Lemma avg_small i j k : i <> L -> (i < length ss)%nat -> (j < length ss)%nat -> (k < length ss)%nat -> exists v, avg_rel_size ss i j k = Ok v /\ v <= hi / lo.
  Proof.
    intros. destruct (rel_small i j) as (a & Ea & Ba); [ assumption | assumption | assumption | ]. destruct (rel_small i k) as (b & Eb & Bb); [ assumption | assumption | assumption | ].
    unfold avg_rel_size. rewrite Ea, Eb. cbn [bind]. eexists. split; [ reflexivity | ]. lra.
  Qed.
End Sizes.

Lemma largest_true a b c d x : x < a -> b <= x -> c <= x -> d <= x -> largest a b c d = true.
Proof. intros. unfold largest. rewrite !andb_true_iff, !rltb_true. lra. Qed.
Lemma largest_false a b c d x : a <= x -> x < b \/ x < c \/ x < d -> largest a b c d = false.
Proof. intros. unfold largest. rewrite !andb_false_iff. unfold rltb. destruct (Rlt_dec b a), (Rlt_dec c a), (Rlt_dec d a); auto; exfalso; lra. Qed.
Lemma index_sub_ok a b : (b <= a)%nat -> index_sub a b = Ok (a - b)%nat.
Proof. intros H. unfold index_sub. rewrite (proj2 (Nat.ltb_ge a b) H). reflexivity. Qed.
Lemma usual_area a b c : usual a b c = negb (rltb (image_area2 a b c) 0).
Proof. unfold usual, image_area2, area2. cbn [px py]. do 2 f_equal. ring. Qed.

(** Where the large circle is among the corners of the code. *)
Inductive spot := StartLast | EndFirst | EndLast | StartFirst.
Definition spot_index (N cols : nat) (s : spot) : nat :=
  match s with StartLast => N - cols | EndFirst => cols - 1 | EndLast => N - 1 | StartFirst => 0 end%nat.
(** The order the code chooses. *)
Definition spot_order (fc : list vec2) (tr tc : nat) (s : spot) (u : bool) : res (list vec2) :=
  match s, u with
  | StartLast, true => mapM (idx fc) (up (length fc))
  | StartLast, false => visit fc tc (down tc) (down tr)
  | EndFirst, true => mapM (idx fc) (down (length fc))
  | EndFirst, false => visit fc tc (up tc) (up tr)
  | EndLast, true => visit fc tc (up tc) (down tr)
  | EndLast, false => visit fc tc (up tc) (up tr)
  | StartFirst, true => visit fc tc (down tc) (up tr)
  | StartFirst, false => visit fc tc (down tc) (down tr)
  end.
Lemma order_at fc ss rows cols flipped s big lo hi a b c :
  (2 <= rows)%nat -> (2 <= cols)%nat -> length fc = (rows * cols)%nat -> length ss = (rows * cols)%nat ->
  0 < lo -> hi * hi < lo * big -> nth_error ss (spot_index (rows * cols) cols s) = Some big ->
  (forall i, i <> spot_index (rows * cols) cols s -> (i < rows * cols)%nat -> exists s, nth_error ss i = Some s /\ lo <= s <= hi) ->
  nth_error fc (rows * cols - cols) = Some a -> nth_error fc (rows * cols - 1) = Some b -> nth_error fc (cols - 1) = Some c ->
  order_points fc ss rows cols flipped =
    spot_order fc (if flipped then cols else rows) (if flipped then rows else cols) s (negb (rltb (image_area2 a b c) 0)).
Proof.
  intros Hr Hc Lf Ls Lo Big HL Hs Ha Hb Hc'. unfold order_points. rewrite <- usual_area.
  assert (HN : (2 * cols <= rows * cols)%nat) by (apply Nat.mul_le_mono_r; exact Hr). 
  set (N := (rows * cols)%nat) in *. clearbody N.
  assert (Hs' : forall i, i <> spot_index N cols s -> (i < length ss)%nat -> exists s, nth_error ss i = Some s /\ lo <= s <= hi) by (rewrite Ls; exact Hs).
  rewrite (index_sub_ok cols 1), (index_sub_ok N cols), (index_sub_ok N 1) by lia. cbn [bind].
  unfold idx at 1 2 3 4. rewrite Ha, Hb, Hc'. destruct (nth_error fc 0) as [z | ] eqn:Hz; [ | apply nth_error_None in Hz; lia ]. cbn [bind].
  rewrite (index_sub_ok (N - cols) cols), (index_sub_ok (N - 1) 1), (index_sub_ok (N - 1) cols), (index_sub_ok (cols - 1) 1) by lia. cbn [bind].
  pose proof (avg_large ss (spot_index N cols s) big lo hi Lo Big HL Hs') as AL.
  pose proof (avg_small ss (spot_index N cols s) big lo hi Lo Big HL Hs') as AS. clear HL Hs Hs' Ha Hb Hc' Hz.
  set (u := usual a b c). clearbody u.
  destruct s; cbn [spot_index] in AL, AS;
  [ destruct (AL (N - cols + 1) (N - cols - cols))%nat as (sl & Esl & Bsl); [ lia .. | ] | destruct (AS (N - cols) (N - cols + 1) (N - cols - cols))%nat as (sl & Esl & Bsl); [ lia .. | ]
  | destruct (AS (N - cols) (N - cols + 1) (N - cols - cols))%nat as (sl & Esl & Bsl); [ lia .. | ] | destruct (AS (N - cols) (N - cols + 1) (N - cols - cols))%nat as (sl & Esl & Bsl); [ lia .. | ] ];
  rewrite Esl; cbn [bind]; clear Esl.
  all: first [ destruct (AS (N - 1) (N - 1 - 1) (N - 1 - cols))%nat as (el & Eel & Bel); [ lia .. | ] | destruct (AL (N - 1 - 1) (N - 1 - cols))%nat as (el & Eel & Bel); [ lia .. | ] ].
  all: rewrite Eel; cbn [bind]; clear Eel.
  all: first [ destruct (AS 0 (0 + 1) (0 + cols))%nat as (sf & Esf & Bsf); [ lia .. | ] | destruct (AL (0 + 1) (0 + cols))%nat as (sf & Esf & Bsf); [ lia .. | ] ].
  all: rewrite Esf; cbn [bind]; clear Esf.
  all: first [ destruct (AS (cols - 1) (cols - 1 - 1) (cols - 1 + cols))%nat as (ef & Eef & Bef); [ lia .. | ] | destruct (AL (cols - 1 - 1) (cols - 1 + cols))%nat as (ef & Eef & Bef); [ lia .. | ] ].
  all: rewrite Eef; cbn [bind]; clear Eef.
  - rewrite (largest_true sl sf ef el (hi / lo)) by lra. destruct u; reflexivity.
  - rewrite (largest_false sl sf ef el (hi / lo)) by lra. rewrite (largest_true ef el sl sf (hi / lo)) by lra. destruct u; reflexivity.
  - rewrite (largest_false sl sf ef el (hi / lo)) by lra. rewrite (largest_false ef el sl sf (hi / lo)) by lra. rewrite (largest_true el sl ef sf (hi / lo)) by lra. destruct u; reflexivity.
  - rewrite (largest_false sl sf ef el (hi / lo)) by lra. rewrite (largest_false ef el sl sf (hi / lo)) by lra. rewrite (largest_false el sl ef sf (hi / lo)) by lra.
    rewrite (largest_true sf el ef sl (hi / lo)) by lra. destruct u; reflexivity.
Qed.

(** ** Visiting a layout *)

Lemma mapM_idx {A} (l : list A) is vs : Forall2 (fun i v => nth_error l i = Some v) is vs -> mapM (idx l) is = Ok vs.
Proof. intros F. induction F as [ | i v is vs H F IH]; cbn; [ reflexivity | ]. unfold idx at 1. rewrite H. cbn. rewrite IH. reflexivity. Qed.
Lemma down_map n : down n = map (fun i => n - 1 - i)%nat (seq 0 n).
Proof.
  unfold down. apply nth_error_ext. intros i. rewrite nth_error_map_seq. cbn [Nat.add]. destruct (Nat.ltb_spec i n) as [H | H].
  - rewrite nth_error_nth' with (d := 0%nat) by (rewrite rev_length, seq_length; exact H). rewrite rev_nth, seq_length, seq_nth by (rewrite ?seq_length; lia). f_equal. lia.
  - apply nth_error_None. rewrite rev_length, seq_length. exact H.
Qed.
(** A way through n lines: up or down. *)
Definition dir (d : bool) (n i : nat) : nat := if d then i else (n - 1 - i)%nat.
Definition lines (d : bool) (n : nat) : list nat := if d then up n else down n.
Lemma lines_map d n : lines d n = map (dir d n) (seq 0 n).
Proof. destruct d; cbn; [ unfold up, dir; rewrite map_id; reflexivity | apply down_map ]. Qed.
Lemma dir_lt d n i : (i < n)%nat -> (dir d n i < n)%nat.
Proof. destruct d; cbn; lia. Qed.
Lemma Forall2_flat_map {A B C} (P : B -> C -> Prop) (f : A -> list B) (g : A -> list C) l :
  (forall a, In a l -> Forall2 P (f a) (g a)) -> Forall2 P (flat_map f l) (flat_map g l).
Proof.
  induction l as [ | a r IH]; cbn; intros H; [ constructor | ]. apply Forall2_app; [ apply H; left; reflexivity | ]. apply IH. intros; apply H; right; assumption.
Qed.
Lemma Forall2_maps {A B C} (P : B -> C -> Prop) (f : A -> B) (g : A -> C) l : (forall a, In a l -> P (f a) (g a)) -> Forall2 P (map f l) (map g l).
Proof. induction l; cbn; intros H; constructor; [ apply H; left; reflexivity | apply IHl; intros; apply H; right; assumption ]. Qed.
Lemma flat_map_map {A B C} (f : A -> B) (g : B -> list C) l : flat_map g (map f l) = flat_map (fun a => g (f a)) l.
Proof. induction l; cbn; [ reflexivity | rewrite IHl; reflexivity ]. Qed.
Lemma visit_layout R C f dj dk :
  visit (layout R C f) C (lines dj C) (lines dk R) = Ok (layout C R (fun j k => f (dir dk R k) (dir dj C j))).
Proof.
  unfold visit. apply mapM_idx. rewrite !lines_map, flat_map_map. unfold layout at 2. apply Forall2_flat_map. intros j Hj. rewrite map_map. apply Forall2_maps. intros k Hk.
  apply in_seq in Hj. apply in_seq in Hk. apply nth_layout; apply dir_lt; lia.
Qed.
Lemma visit_all (fc : list vec2) : mapM (idx fc) (up (length fc)) = Ok fc.
Proof.
  apply mapM_idx. unfold up. rewrite <- (map_id (seq 0 (length fc))). assert (X : forall pre l : list vec2, Forall2 (fun i v => nth_error (pre ++ l) i = Some v) (map (fun x => x) (seq (length pre) (length l))) l).
  { intros pre l. revert pre. induction l as [ | a r IH]; intros pre; cbn; constructor.
    - rewrite nth_error_app2 by lia. rewrite Nat.sub_diag. reflexivity.
    - specialize (IH (pre ++ [a])). rewrite app_length in IH. cbn [length] in IH. rewrite Nat.add_1_r, <- app_assoc in IH. exact IH. }
  apply (X [] fc).
Qed.
Lemma Forall2_rev {A B} (P : A -> B -> Prop) l l' : Forall2 P l l' -> Forall2 P (rev l) (rev l').
Proof. intros F. induction F; cbn; [ constructor | ]. apply Forall2_app; [ assumption | ]. constructor; [ assumption | constructor ]. Qed.
Lemma mapM_idx_inv {A} (l : list A) is vs : mapM (idx l) is = Ok vs -> Forall2 (fun i v => nth_error l i = Some v) is vs.
Proof. intros H. eapply mapM_forall2; [ exact H | ]. intros i v _. unfold idx. destruct (nth_error l i); congruence. Qed.
Lemma visit_back (fc : list vec2) : mapM (idx fc) (down (length fc)) = Ok (rev fc).
Proof. apply mapM_idx. unfold down. apply Forall2_rev. apply mapM_idx_inv. apply visit_all. Qed.
Lemma rev_layout {A} R C (f : nat -> nat -> A) : rev (layout R C f) = layout R C (fun k j => f (R - 1 - k) (C - 1 - j))%nat.
Proof.
  apply nth_error_ext. intros i. destruct (Nat.lt_ge_cases i (R * C)) as [H | H].
  - destruct (divide R C i H) as (k & j & Hk & Hj & ->). rewrite nth_layout by assumption.
    replace (k * C + j)%nat with (length (layout R C f) - 1 - ((R - 1 - k) * C + (C - 1 - j)))%nat.
    2: { rewrite length_layout. replace R with ((R - 1 - k) + k + 1)%nat at 1 by lia. rewrite !Nat.mul_add_distr_r. lia. }
    pose proof (nth_layout R C f (R - 1 - k) (C - 1 - j) ltac:(lia) ltac:(lia)) as E. set (m := ((R - 1 - k) * C + (C - 1 - j))%nat) in *.
    assert (Hm : (m < length (layout R C f))%nat) by (apply nth_error_Some; congruence).
    set (l := layout R C f) in *. clearbody l m. destruct l as [ | d l0] eqn:El; [ cbn in Hm; lia | ]. rewrite <- El in *. 
    rewrite nth_error_nth' with (d := d) by (rewrite rev_length; lia). rewrite rev_nth by lia. rewrite <- E. rewrite nth_error_nth' with (d := d) by exact Hm. f_equal. f_equal. lia.
  - rewrite (proj2 (nth_error_None _ _)) by (rewrite rev_length, length_layout; exact H). symmetry. apply nth_error_None. rewrite length_layout. exact H.
Qed.
