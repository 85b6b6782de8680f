(** Targets: circle grid points, feature maps and correspondences. *)
From Coq Require Import Reals Lra Lia Arith List Sorted.
From Verif.Base Require Import Geom Outcome Matrix.
From Verif.Model Require Import Pose HandEye Targets.
From Verif.Spec Require Import TargetSpec.
From Verif.Proofs Require Import GeomLemmas ListLemmas.
Import ListNotations.
Local Open Scope R_scope.

(** ** Loops *)

Lemma foldM_push {A B} (g : A -> res B) l acc :
  foldM (fun s a => do b <- g a; Ok (s ++ [b])) l acc = (do bs <- mapM g l; Ok (acc ++ bs)).
Proof.
  revert acc. induction l as [ | a r IH]; intros acc; cbn [foldM mapM bind]; [ rewrite app_nil_r; reflexivity | ].
  destruct (g a) as [b | | ]; cbn [bind]; try reflexivity. rewrite IH. destruct (mapM g r) as [bs | | ]; cbn [bind]; try reflexivity.
  rewrite <- app_assoc. reflexivity.
Qed.
Lemma foldM_ext {S A} (f g : S -> A -> res S) l s : (forall s a, In a l -> f s a = g s a) -> foldM f l s = foldM g l s.
Proof.
  revert s. induction l as [ | a r IH]; intros s H; cbn; [ reflexivity | ]. rewrite H by (left; reflexivity).
  destruct (g s a) as [s' | | ]; cbn; try reflexivity. apply IH. intros; apply H; right; assumption.
Qed.
Lemma mapM_ext_in {A B} (f g : A -> res B) l : (forall a, In a l -> f a = g a) -> mapM f l = mapM g l.
Proof.
  induction l as [ | a r IH]; intros H; cbn; [ reflexivity | ]. rewrite H by (left; reflexivity).
  rewrite IH by (intros; apply H; right; assumption). reflexivity.
Qed.
Lemma mapM_app {A B} (f : A -> res B) l1 l2 :
  mapM f (l1 ++ l2) = (do b1 <- mapM f l1; do b2 <- mapM f l2; Ok (b1 ++ b2)).
Proof.
  induction l1 as [ | a r IH]; cbn; [ destruct (mapM f l2); reflexivity | ]. rewrite IH.
  destruct (f a); cbn; try reflexivity. destruct (mapM f r); cbn; try reflexivity. destruct (mapM f l2); reflexivity.
Qed.
Lemma mapM_forall2 {A B} (f : A -> res B) (P : A -> B -> Prop) l bs :
  mapM f l = Ok bs -> (forall a b, In a l -> f a = Ok b -> P a b) -> Forall2 P l bs.
Proof.
  revert bs. induction l as [ | a r IH]; intros bs H X; cbn in H; [ injection H as <-; constructor | ].
  destruct (f a) as [b | | ] eqn:E; cbn in H; try discriminate. destruct (mapM f r) as [br | | ]; cbn in H; try discriminate.
  injection H as <-. constructor; [ apply X; [ left; reflexivity | exact E ] | ]. apply IH; [ reflexivity | ]. intros; apply X; [ right; assumption | assumption ].
Qed.
(** A loop whose steps either succeed or throw e, and one of which throws. *)
Lemma mapM_throws {A B} (f : A -> res B) e l :
  (forall a, In a l -> is_ok (f a) \/ f a = Throw e) -> (exists a, In a l /\ f a = Throw e) -> mapM f l = Throw e.
Proof.
  induction l as [ | a r IH]; intros H (x & Hx & E); [ destruct Hx | ]. cbn.
  destruct (H a (or_introl eq_refl)) as [[b Eb] | ->]; [ rewrite Eb; cbn | reflexivity ].
  rewrite IH; [ reflexivity | intros; apply H; right; assumption | ]. exists x. split; [ | exact E ].
  destruct Hx as [-> | Hx]; [ congruence | exact Hx ].
Qed.

(** ** Layouts *)

Lemma nth_error_map_seq {A} (f : nat -> A) s n i : nth_error (map f (seq s n)) i = if Nat.ltb i n then Some (f (s + i)%nat) else None.
Proof.
  rewrite nth_error_map. destruct (Nat.ltb_spec i n) as [H | H].
  - rewrite nth_error_nth' with (d := 0%nat) by (rewrite seq_length; exact H). cbn. rewrite seq_nth by exact H. reflexivity.
  - rewrite (proj2 (nth_error_None _ _)) by (rewrite seq_length; exact H). reflexivity.
Qed.
Lemma layout_from {A} s R C (f : nat -> nat -> A) :
  length (flat_map (fun k => map (f k) (seq 0 C)) (seq s R)) = (R * C)%nat /\
  forall k j, (k < R)%nat -> (j < C)%nat ->
    nth_error (flat_map (fun k => map (f k) (seq 0 C)) (seq s R)) (k * C + j) = Some (f (s + k)%nat j).
Proof.
  revert s. induction R as [ | R IH]; intros s; cbn [seq flat_map]; [ split; [ reflexivity | intros; lia ] | ].
  destruct (IH (S s)) as [L N]. split.
  - rewrite app_length, map_length, seq_length, L. lia.
  - intros k j Hk Hj. destruct k as [ | k].
    + rewrite nth_error_app1 by (rewrite map_length, seq_length; lia). rewrite nth_error_map_seq. cbn [Nat.mul Nat.add].
      rewrite (proj2 (Nat.ltb_lt j C) Hj). rewrite Nat.add_0_r. reflexivity.
    + rewrite nth_error_app2 by (rewrite map_length, seq_length; cbn [Nat.mul]; lia). rewrite map_length, seq_length.
      replace (S k * C + j - C)%nat with (k * C + j)%nat by (cbn [Nat.mul]; lia). rewrite N by lia. f_equal. f_equal. lia.
Qed.
Lemma length_layout {A} R C (f : nat -> nat -> A) : length (layout R C f) = (R * C)%nat.
Proof. apply (layout_from 0). Qed.
Lemma nth_layout {A} R C (f : nat -> nat -> A) k j : (k < R)%nat -> (j < C)%nat -> nth_error (layout R C f) (k * C + j) = Some (f k j).
Proof. apply (layout_from 0). Qed.
Lemma layout_ext {A} R C (f g : nat -> nat -> A) :
  (forall k j, (k < R)%nat -> (j < C)%nat -> f k j = g k j) -> layout R C f = layout R C g.
Proof.
  intros H. unfold layout. rewrite !flat_map_concat_map. f_equal. apply map_ext_in. intros k Hk. apply map_ext_in. intros j Hj.
  apply in_seq in Hk. apply in_seq in Hj. apply H; lia.
Qed.
Lemma in_layout {A} R C (f : nat -> nat -> A) x : In x (layout R C f) <-> exists k j, (k < R)%nat /\ (j < C)%nat /\ x = f k j.
Proof.
  unfold layout. rewrite in_flat_map. split.
  - intros (k & Hk & H). apply in_map_iff in H. destruct H as (j & <- & Hj). apply in_seq in Hk. apply in_seq in Hj. exists k, j. repeat split; lia.
  - intros (k & j & Hk & Hj & ->). exists k. split; [ apply in_seq; lia | ]. apply in_map. apply in_seq. lia.
Qed.
Lemma divide R C n : (n < R * C)%nat -> exists k j, (k < R)%nat /\ (j < C)%nat /\ n = (k * C + j)%nat.
Proof.
  intros H. assert (C <> 0)%nat by (intros ->; lia). exists (n / C)%nat, (n mod C)%nat. repeat split.
  - apply Nat.div_lt_upper_bound; lia.
  - apply Nat.mod_upper_bound. assumption.
  - rewrite Nat.mul_comm. apply Nat.div_mod. assumption.
Qed.
Lemma layout_NoDup {A} R C (f : nat -> nat -> A) :
  (forall k j k' j', (k < R)%nat -> (j < C)%nat -> (k' < R)%nat -> (j' < C)%nat -> f k j = f k' j' -> k = k' /\ j = j') ->
  NoDup (layout R C f).
Proof.
  intros H. apply NoDup_nth_error. intros n m Hn E. rewrite length_layout in Hn.
  destruct (divide R C n Hn) as (k & j & Hk & Hj & ->). rewrite nth_layout in E by assumption. symmetry in E.
  assert (Hm : (m < R * C)%nat). { rewrite <- (length_layout R C f). apply nth_error_Some. congruence. }
  destruct (divide R C m Hm) as (k' & j' & Hk' & Hj' & ->). rewrite nth_layout in E by assumption. injection E as E.
  destruct (H k' j' k j Hk' Hj' Hk Hj E) as [-> ->]. reflexivity.
Qed.

(** ** Circle grid *)

Lemma points_layout t : createPoints t = layout (cg_rows t) (cg_cols t) (grid_point (cg_rows t) (cg_spacing t)).
Proof.
  unfold createPoints, layout. rewrite <- seq_shift. rewrite flat_map_concat_map, flat_map_concat_map. rewrite map_map. f_equal.
  apply map_ext. intros k. apply map_ext. intros j. unfold grid_point. f_equal. f_equal. f_equal. lia.
Qed.
Lemma points_length t : length (createPoints t) = (cg_rows t * cg_cols t)%nat.
Proof. rewrite points_layout. apply length_layout. Qed.
Lemma points_nth t r c : (r < cg_rows t)%nat -> (c < cg_cols t)%nat ->
  nth_error (createPoints t) (r * cg_cols t + c) = Some (grid_point (cg_rows t) (cg_spacing t) r c).
Proof. rewrite points_layout. apply nth_layout. Qed.
Lemma points_plane t p : In p (createPoints t) -> vz p = 0.
Proof. rewrite points_layout, in_layout. intros (k & j & _ & _ & ->). reflexivity. Qed.
Lemma points_distinct t : cg_spacing t <> 0 -> NoDup (createPoints t).
Proof.
  intros N. rewrite points_layout. apply layout_NoDup. intros k j k' j' Hk Hj Hk' Hj' E.
  pose proof (f_equal vx E) as Ex. pose proof (f_equal vy E) as Ey. cbn [grid_point vx vy] in Ex, Ey.
  apply Rmult_eq_reg_r in Ex; [ | exact N ]. apply Rmult_eq_reg_r in Ey; [ | exact N ]. apply INR_eq in Ex. apply INR_eq in Ey. lia.
Qed.
Lemma norm_x a : norm (V3 a 0 0) = Rabs a.
Proof. unfold norm, dot. cbn. replace (a * a + 0 * 0 + 0 * 0) with (Rsqr a) by (unfold Rsqr; ring). apply sqrt_Rsqr_abs. Qed.
Lemma norm_y a : norm (V3 0 a 0) = Rabs a.
Proof. unfold norm, dot. cbn. replace (0 * 0 + a * a + 0 * 0) with (Rsqr a) by (unfold Rsqr; ring). apply sqrt_Rsqr_abs. Qed.
Lemma neighbours_in_row rows s r c :
  vsub (grid_point rows s r (c + 1)) (grid_point rows s r c) = V3 s 0 0.
Proof. unfold vsub, grid_point. cbn [vx vy vz]. rewrite plus_INR. cbn [INR]. f_equal; ring. Qed.
Lemma neighbours_in_column rows s r c : (r + 1 < rows)%nat ->
  vsub (grid_point rows s r c) (grid_point rows s (r + 1) c) = V3 0 s 0.
Proof.
  intros H. unfold vsub, grid_point. cbn [vx vy vz]. replace (rows - 1 - r)%nat with ((rows - 1 - (r + 1)) + 1)%nat by lia.
  rewrite plus_INR. cbn [INR]. f_equal; ring.
Qed.
Lemma grid_steps t r c p q :
  (r < cg_rows t)%nat -> (c + 1 < cg_cols t)%nat ->
  nth_error (createPoints t) (r * cg_cols t + c) = Some p -> nth_error (createPoints t) (r * cg_cols t + (c + 1)) = Some q ->
  vsub q p = V3 (cg_spacing t) 0 0 /\ norm (vsub q p) = Rabs (cg_spacing t).
Proof.
  intros Hr Hc Hp Hq. rewrite points_nth in Hp by lia. rewrite points_nth in Hq by lia. injection Hp as <-. injection Hq as <-.
  rewrite neighbours_in_row. split; [ reflexivity | apply norm_x ].
Qed.
Lemma grid_steps_down t r c p q :
  (r + 1 < cg_rows t)%nat -> (c < cg_cols t)%nat ->
  nth_error (createPoints t) (r * cg_cols t + c) = Some p -> nth_error (createPoints t) ((r + 1) * cg_cols t + c) = Some q ->
  vsub p q = V3 0 (cg_spacing t) 0 /\ norm (vsub p q) = Rabs (cg_spacing t).
Proof.
  intros Hr Hc Hp Hq. rewrite points_nth in Hp by lia. rewrite points_nth in Hq by lia. injection Hp as <-. injection Hq as <-.
  rewrite neighbours_in_column by exact Hr. split; [ reflexivity | apply norm_y ].
Qed.
Lemma grid_origin t : (0 < cg_rows t)%nat -> (0 < cg_cols t)%nat ->
  nth_error (createPoints t) (cg_rows t * cg_cols t - cg_cols t) = Some vzero.
Proof.
  intros Hr Hc. replace (cg_rows t * cg_cols t - cg_cols t)%nat with ((cg_rows t - 1) * cg_cols t + 0)%nat by nia.
  rewrite points_nth by lia. unfold grid_point. replace (cg_rows t - 1 - (cg_rows t - 1))%nat with 0%nat by lia. cbn [INR].
  rewrite !Rmult_0_l. reflexivity.
Qed.

(** ** Ordered maps *)

Definition sorted {V} (m : amap V) : Prop := StronglySorted lt (keys m).
Lemma sorted_distinct {V} (m : amap V) : sorted m -> ids_distinct m.
Proof. apply StronglySorted_NoDup. intros x. apply Nat.lt_irrefl. Qed.
Lemma find_below {V} (m : amap V) k : Forall (lt k) (keys m) -> find_key k m = None.
Proof.
  induction m as [ | [k' v] r IH]; cbn; intros H; [ reflexivity | ]. inversion H; subst.
  rewrite (proj2 (Nat.eqb_neq k k')) by lia. auto.
Qed.
Lemma find_none {V} (m : amap V) k : find_key k m = None <-> ~ In k (keys m).
Proof.
  rewrite find_key_Some_iff. destruct (find_key k m) as [v | ]; split; intros H.
  - discriminate.
  - exfalso. apply H. exists v. reflexivity.
  - intros [v X]. discriminate.
  - reflexivity.
Qed.
Lemma keys_emplace {V} k (v : V) m x : In x (keys (emplace k v m)) <-> x = k \/ In x (keys m).
Proof.
  unfold keys. induction m as [ | [k' v'] r IH]; cbn [emplace map fst In]; [ intuition congruence | ].
  destruct (Nat.ltb k k'); cbn [map fst In]; [ intuition congruence | ].
  destruct (Nat.eqb_spec k k') as [E | N]; cbn [map fst In]; [ intuition congruence | ]. rewrite IH. intuition congruence.
Qed.
Lemma emplace_sorted {V} k (v : V) m : sorted m -> sorted (emplace k v m).
Proof.
  unfold sorted. induction m as [ | [k' v'] r IH]; intros S.
  - cbn. constructor; constructor.
  - cbn [keys map fst] in S. apply StronglySorted_inv in S. destruct S as [S F].
    cbn [emplace]. destruct (Nat.ltb_spec k k') as [L | L].
    + cbn. constructor; [ constructor; assumption | ]. constructor; [ exact L | ]. eapply Forall_impl; [ | exact F ]. intros; cbn in *; lia.
    + destruct (Nat.eqb_spec k k') as [E | E]; [ cbn; constructor; assumption | ]. cbn. constructor; [ apply IH; exact S | ].
      apply Forall_forall. intros x Hx. apply (keys_emplace k v r x) in Hx. destruct Hx as [-> | Hx]; [ lia | ].
      rewrite Forall_forall in F. apply F. exact Hx.
Qed.
Lemma find_emplace {V} k k' (v : V) m : sorted m ->
  find_key k (emplace k' v m) = match find_key k m with Some x => Some x | None => if Nat.eqb k k' then Some v else None end.
Proof.
  unfold sorted. induction m as [ | [k0 v0] r IH]; intros S; cbn [emplace].
  - cbn. destruct (Nat.eqb k k'); reflexivity.
  - cbn [keys map fst] in S. apply StronglySorted_inv in S. destruct S as [S F].
    destruct (Nat.ltb_spec k' k0) as [L | L].
    + cbn [find_key]. destruct (Nat.eqb_spec k k') as [-> | N].
      * destruct (Nat.eqb_spec k' k0); [ lia | ]. rewrite find_below; [ reflexivity | ].
        eapply Forall_impl; [ | exact F ]. intros; cbn in *; lia.
      * destruct (Nat.eqb k k0); [ reflexivity | ]. destruct (find_key k r); reflexivity.
    + destruct (Nat.eqb_spec k' k0) as [-> | N].
      * cbn [find_key]. destruct (Nat.eqb k k0) eqn:E; [ reflexivity | ]. destruct (find_key k r); reflexivity.
      * cbn [find_key]. rewrite IH by exact S. destruct (Nat.eqb_spec k k0) as [-> | N0]; [ reflexivity | reflexivity ].
Qed.

(** Loading a list of entries: the first one with a key stays. *)
Definition emplace_all {V} (l : list (nat * V)) (m : amap V) : amap V := fold_left (fun m e => emplace (fst e) (snd e) m) l m.
Lemma emplace_all_sorted {V} (l : list (nat * V)) m : sorted m -> sorted (emplace_all l m).
Proof. revert m. induction l as [ | e r IH]; intros m S; [ exact S | ]. apply IH. apply emplace_sorted. exact S. Qed.
Lemma find_emplace_all {V} (l : list (nat * V)) m k : sorted m ->
  find_key k (emplace_all l m) = match find_key k m with Some x => Some x | None => find_key k l end.
Proof.
  revert m. induction l as [ | [k' v] r IH]; intros m S; cbn [find_key].
  - cbn. destruct (find_key k m); reflexivity.
  - change (emplace_all ((k', v) :: r) m) with (emplace_all r (emplace k' v m)). rewrite IH by (apply emplace_sorted; exact S). rewrite find_emplace by exact S.
    destruct (find_key k m); [ reflexivity | ]. destruct (Nat.eqb k k'); reflexivity.
Qed.
Lemma find_combine {V} ids (vs : list V) k v : (length ids <= length vs)%nat ->
  find_key k (combine ids vs) = Some v <-> exists b, first_with ids b k /\ nth_error vs b = Some v.
Proof.
  revert vs. induction ids as [ | i r IH]; intros vs L; cbn [combine find_key].
  - split; [ discriminate | ]. intros (b & [H _] & _). destruct b; discriminate.
  - destruct vs as [ | w vs]; cbn in L; [ lia | ]. cbn [find_key]. destruct (Nat.eqb_spec k i) as [-> | N].
    + split.
      * intros H. injection H as <-. exists 0%nat. split; [ | reflexivity ]. split; [ reflexivity | lia ].
      * intros (b & [Hb F] & Hv). destruct b as [ | b]; [ exact Hv | ]. exfalso. apply (F 0%nat); [ lia | reflexivity ].
    + rewrite IH by lia. split.
      * intros (b & [Hb F] & Hv). exists (S b). split; [ | exact Hv ]. split; [ exact Hb | ]. intros [ | b'] Hl; cbn; [ congruence | apply F; lia ].
      * intros (b & [Hb F] & Hv). destruct b as [ | b]; cbn in Hb; [ congruence | ]. exists b. split; [ | exact Hv ]. split; [ exact Hb | ].
        intros b' Hl. apply (F (S b')). lia.
Qed.
Lemma foldM_emplace {V} (f : nat -> res (nat * V)) (g : nat -> nat * V) is m :
  (forall i, In i is -> f i = Ok (g i)) ->
  foldM (fun m i => do e <- f i; Ok (emplace (fst e) (snd e) m)) is m = Ok (emplace_all (map g is) m).
Proof.
  revert m. induction is as [ | i r IH]; intros m H; cbn; [ reflexivity | ]. rewrite H by (left; reflexivity). cbn.
  rewrite IH by (intros; apply H; right; assumption). reflexivity.
Qed.
Lemma map_seq_combine {A B} (l1 : list A) (l2 : list B) (d : A * B) : (length l1 <= length l2)%nat ->
  map (fun i => nth i (combine l1 l2) d) (seq 0 (length l1)) = combine l1 l2.
Proof.
  intros L. apply (nth_ext _ _ d d).
  - rewrite map_length, seq_length, combine_length. lia.
  - intros n Hn. rewrite map_length, seq_length in Hn.
    rewrite (nth_indep _ d (nth 0 (combine l1 l2) d)) by (rewrite map_length, seq_length; exact Hn).
    rewrite (map_nth (fun i => nth i (combine l1 l2) d) (seq 0 (length l1)) 0%nat). rewrite seq_nth by exact Hn. reflexivity.
Qed.

Lemma combine_nth_le {A B} (l1 : list A) (l2 : list B) i a b : (length l1 <= length l2)%nat -> (i < length l1)%nat ->
  nth i (combine l1 l2) (a, b) = (nth i l1 a, nth i l2 b).
Proof.
  revert l2 i. induction l1 as [ | x r IH]; intros l2 i L H; cbn in *; [ lia | ]. destruct l2 as [ | y l2]; cbn in *; [ lia | ].
  destruct i as [ | i]; [ reflexivity | ]. apply IH; lia.
Qed.
Lemma board_map board : board_complete board ->
  mapArucoIdsToObjPts board = Ok (emplace_all (combine (board_ids board) (board_objPoints board)) []).
Proof.
  intros L. unfold mapArucoIdsToObjPts. destruct board as [ids pts]. unfold board_complete in L. cbn [board_ids board_objPoints] in *.
  rewrite <- (map_seq_combine ids pts (0%nat, [])) at 1 by exact L.
  rewrite <- (foldM_emplace (fun i => do o <- idx pts i; do id <- idx ids i; Ok (id, o))).
  - apply foldM_ext. intros m i _. destruct (idx pts i); cbn; try reflexivity. destruct (idx ids i); reflexivity.
  - intros i Hi. apply in_seq in Hi. rewrite (idx_ok pts i []) by lia. cbn. rewrite (idx_ok ids i 0%nat) by lia. cbn.
    rewrite combine_nth_le by lia. reflexivity.
Qed.

Definition board_points (board : aruco_board) : amap (list vec3) := emplace_all (combine (board_ids board) (board_objPoints board)) [].
Lemma board_points_find board id ps : board_complete board ->
  find_key id (board_points board) = Some ps <-> exists b, first_with (board_ids board) b id /\ nth_error (board_objPoints board) b = Some ps.
Proof.
  intros L. unfold board_points. rewrite find_emplace_all by constructor. cbn [find_key]. apply find_combine. exact L.
Qed.
Lemma board_incomplete board : ~ board_complete board -> mapArucoIdsToObjPts board = UB.
Proof.
  unfold board_complete, mapArucoIdsToObjPts. destruct board as [ids pts]. cbn [board_ids board_objPoints]. intros N.
  assert (X : forall is, (forall i, In i is -> (i < length ids)%nat) -> (exists i, In i is /\ (length pts <= i)%nat) -> forall m,
    foldM (fun m i => do obj_pts <- idx pts i; do id <- idx ids i; Ok (emplace id obj_pts m)) is m = UB).
  { induction is as [ | i r IH]; intros H (j & Hj & Lj) m; [ destruct Hj | ]. cbn [foldM].
    destruct (Nat.le_gt_cases (length pts) i) as [L | L]; [ rewrite idx_ub by exact L; reflexivity | ].
    rewrite (idx_ok pts i []) by exact L. cbn [bind]. rewrite (idx_ok ids i 0%nat) by (apply H; left; reflexivity). cbn [bind].
    apply IH; [ intros; apply H; right; assumption | ]. exists j. split; [ | exact Lj ]. destruct Hj as [-> | Hj]; [ lia | exact Hj ]. }
  apply X; [ intros i Hi; apply in_seq in Hi; lia | ]. exists (length pts). split; [ apply in_seq; lia | lia ].
Qed.

(** ** ArUco correspondences *)

Definition pair_up (points : amap (list vec3)) (x : nat * nat * vec2) : res (correspondence vec2) :=
  let '(id, i, f) := x in do ps <- map_at points id; do p <- at_ ps i; Ok (Corr f p).
Lemma distinct_find {V} (m : amap V) k v : ids_distinct m -> In (k, v) m -> find_key k m = Some v.
Proof.
  unfold ids_distinct. induction m as [ | [k' v'] r IH]; cbn [keys map fst]; intros D H; [ destruct H | ].
  inversion D; subst. destruct H as [E | H]; cbn [find_key].
  - injection E as -> ->. rewrite Nat.eqb_refl. reflexivity.
  - destruct (Nat.eqb_spec k k') as [-> | N]; [ | apply IH; assumption ]. exfalso. apply H2. apply (in_map fst) in H. exact H.
Qed.
Lemma mapM_flat_map {A B C} (f : B -> res C) (g : A -> list B) l acc :
  foldM (fun cs a => do bs <- mapM f (g a); Ok (cs ++ bs)) l acc = (do bs <- mapM f (flat_map g l); Ok (acc ++ bs)).
Proof.
  revert acc. induction l as [ | a r IH]; intros acc; cbn [foldM flat_map bind]; [ cbn; rewrite app_nil_r; reflexivity | ].
  rewrite mapM_app. destruct (mapM f (g a)) as [b1 | | ]; cbn [bind]; try reflexivity. rewrite IH.
  destruct (mapM f (flat_map g r)) as [b2 | | ]; cbn [bind]; try reflexivity. rewrite app_assoc. reflexivity.
Qed.
Lemma mapM_combine_seq {A B C} (f : nat -> res C) (g : A * B -> res C) (h : nat -> A) fs :
  (forall i b, nth_error fs i = Some b -> f i = g (h i, b)) ->
  mapM f (seq 0 (length fs)) = mapM g (combine (map h (seq 0 (length fs))) fs).
Proof.
  intros H. assert (X : forall fs s, (forall i b, nth_error fs i = Some b -> f (s + i)%nat = g (h (s + i)%nat, b)) ->
    mapM f (seq s (length fs)) = mapM g (combine (map h (seq s (length fs))) fs)).
  { clear. induction fs as [ | b r IH]; intros s H; cbn [length seq map combine mapM]; [ reflexivity | ].
    pose proof (H 0%nat b eq_refl) as H0. rewrite Nat.add_0_r in H0. rewrite H0. rewrite IH; [ reflexivity | ].
    intros i b' Hi. specialize (H (S i) b' Hi). rewrite <- plus_n_Sm in H. exact H. }
  apply (X fs 0%nat). exact H.
Qed.
Lemma aruco_unfold points tf : ids_distinct tf -> aruco_correspondences points tf = mapM (pair_up points) (all_features tf).
Proof.
  intros D. unfold aruco_correspondences, all_features.
  rewrite (foldM_ext _ (fun cs it => do bs <- mapM (pair_up points) (combine (map (pair (fst it)) (seq 0 (length (snd it)))) (snd it)); Ok (cs ++ bs))).
  - rewrite (mapM_flat_map (pair_up points)). destruct (mapM _ _); reflexivity.
  - intros cs [id fs] Hin. cbn [fst snd]. pose proof (distinct_find tf id fs D Hin) as E.
    rewrite (foldM_ext _ (fun cs i => do b <- (do ps <- map_at points id; do p <- at_ ps i; do f <- at_ fs i; Ok (Corr f p)); Ok (cs ++ [b]))).
    + rewrite foldM_push. rewrite (mapM_combine_seq _ (pair_up points) (pair id)); [ reflexivity | ].
      intros i b Hb. unfold pair_up. destruct (map_at points id) as [ps | | ]; cbn [bind]; try reflexivity.
      destruct (at_ ps i); cbn [bind]; try reflexivity. unfold at_. rewrite Hb. reflexivity.
    + intros s i _. destruct (map_at points id) as [ps | | ]; cbn [bind]; try reflexivity.
      destruct (at_ ps i); cbn [bind]; try reflexivity. unfold map_at. rewrite E. cbn [bind]. destruct (at_ fs i); reflexivity.
Qed.
Lemma pair_up_ok board id i f c : board_complete board -> pair_up (board_points board) (id, i, f) = Ok c <->
  in_image c = f /\ board_corner board id i (in_target c).
Proof.
  intros L. unfold pair_up, map_at, at_, board_corner. split.
  - destruct (find_key id (board_points board)) as [ps | ] eqn:E; cbn [bind]; [ | discriminate ].
    destruct (nth_error ps i) as [p | ] eqn:Ei; cbn [bind]; [ | discriminate ]. intros H. injection H as <-. cbn. split; [ reflexivity | ].
    apply board_points_find in E; [ | exact L ]. destruct E as (b & Fb & Nb). exists b, ps. auto.
  - intros (<- & b & ps & Fb & Nb & Ni). rewrite (proj2 (board_points_find board id ps L)) by (exists b; auto). cbn [bind].
    rewrite Ni. cbn [bind]. destruct c; reflexivity.
Qed.
Lemma pair_up_outcome points x : is_ok (pair_up points x) \/ pair_up points x = Throw OutOfRange.
Proof.
  destruct x as [[id i] f]. unfold pair_up, map_at, at_. destruct (find_key id points) as [ps | ]; cbn [bind]; [ | right; reflexivity ].
  destruct (nth_error ps i); cbn [bind]; [ left; eexists; reflexivity | right; reflexivity ].
Qed.
Lemma aruco_pairs board points tf cs : ids_distinct tf -> mapArucoIdsToObjPts board = Ok points ->
  aruco_correspondences points tf = Ok cs ->
  Forall2 (fun '(id, i, f) c => in_image c = f /\ board_corner board id i (in_target c)) (all_features tf) cs.
Proof.
  intros D M H. assert (L : board_complete board).
  { unfold board_complete. destruct (Nat.le_gt_cases (length (board_ids board)) (length (board_objPoints board))) as [L | L]; [ exact L | ].
    rewrite board_incomplete in M by (unfold board_complete; lia). discriminate. }
  rewrite board_map in M by exact L. injection M as <-. fold (board_points board) in H. rewrite aruco_unfold in H by exact D.
  eapply mapM_forall2; [ exact H | ]. intros [[id i] f] c _ E. apply pair_up_ok in E; assumption.
Qed.
Lemma aruco_outcome board points tf : ids_distinct tf -> mapArucoIdsToObjPts board = Ok points ->
  ((forall id i f, In (id, i, f) (all_features tf) -> exists p, board_corner board id i p) ->
     exists cs, aruco_correspondences points tf = Ok cs) /\
  (forall id i f, In (id, i, f) (all_features tf) -> (forall p, ~ board_corner board id i p) ->
     aruco_correspondences points tf = Throw OutOfRange).
Proof.
  intros D M. assert (L : board_complete board).
  { unfold board_complete. destruct (Nat.le_gt_cases (length (board_ids board)) (length (board_objPoints board))) as [L | L]; [ exact L | ].
    rewrite board_incomplete in M by (unfold board_complete; lia). discriminate. }
  rewrite board_map in M by exact L. injection M as <-. fold (board_points board). rewrite aruco_unfold by exact D. split.
  - intros H. apply mapM_ok_iff. intros [[id i] f] Hx. destruct (H id i f Hx) as [p Hp]. exists (Corr f p). apply pair_up_ok; [ exact L | ]. split; [ reflexivity | exact Hp ].
  - intros id i f Hx N. apply mapM_throws; [ intros; apply pair_up_outcome | ]. exists (id, i, f). split; [ exact Hx | ].
    destruct (pair_up_outcome (board_points board) (id, i, f)) as [[c E] | E]; [ | exact E ]. apply pair_up_ok in E; [ | exact L ].
    exfalso. apply (N (in_target c)). apply E.
Qed.
Lemma in_all_features tf id i f : In (id, i, f) (all_features tf) <-> exists fs, In (id, fs) tf /\ nth_error fs i = Some f.
Proof.
  unfold all_features. rewrite in_flat_map. split.
  - intros ([id' fs] & Hin & H). cbn [fst snd] in H. exists fs.
    apply (In_nth_error) in H. destruct H as [n Hn].
    assert (X : nth_error fs n = Some f /\ (id', n) = (id, i)).
    { assert (Y : forall fs s, nth_error (combine (map (pair id') (seq s (length fs))) fs) n = Some (id, i, f) ->
        nth_error fs n = Some f /\ (id', (s + n)%nat) = (id, i)).
      { clear. induction n as [ | n IH]; intros fs s H; destruct fs as [ | b r]; cbn in H; try discriminate.
        - injection H as -> <- ->. cbn. rewrite Nat.add_0_r. split; reflexivity.
        - apply IH in H. rewrite <- plus_n_Sm. exact H. }
      exact (Y fs 0%nat Hn). }
    destruct X as [Hf E]. injection E as -> ->. split; assumption.
  - intros (fs & Hin & Hi). exists (id, fs). split; [ exact Hin | ]. cbn [fst snd].
    assert (Y : forall fs s i, nth_error fs i = Some f -> In (id, (s + i)%nat, f) (combine (map (pair id) (seq s (length fs))) fs)).
    { clear. induction fs as [ | b r IH]; intros s i H; destruct i as [ | i]; cbn in H; try discriminate.
      - injection H as ->. cbn. left. rewrite Nat.add_0_r. reflexivity.
      - cbn. right. specialize (IH (S s) i H). rewrite <- plus_n_Sm. exact IH. }
    exact (Y fs 0%nat i Hi).
Qed.

(** ** The finders' feature maps *)

Lemma obs_pts_four u cs : length cs = 4%nat -> aruco_obs_pts u cs = Ok cs.
Proof.
  intros L. unfold aruco_obs_pts. rewrite L. cbn [Nat.ltb Nat.leb]. destruct cs as [ | a [ | b [ | c [ | d [ | e r] ] ] ] ]; cbn in L; try lia. reflexivity.
Qed.
Lemma aruco_features_map u ids corners : (length ids <= length corners)%nat -> Forall (fun cs => length cs = 4%nat) corners ->
  aruco_features u ids corners = Ok (emplace_all (combine ids corners) []).
Proof.
  intros L F. unfold aruco_features. rewrite <- (map_seq_combine ids corners (0%nat, [])) at 1 by exact L.
  rewrite <- (foldM_emplace (fun i => do cs <- idx corners i; do o <- aruco_obs_pts u cs; do id <- idx ids i; Ok (id, o))).
  - apply foldM_ext. intros m i _. destruct (idx corners i) as [cs | | ]; cbn [bind]; try reflexivity.
    destruct (aruco_obs_pts u cs); cbn [bind]; try reflexivity. destruct (idx ids i); reflexivity.
  - intros i Hi. apply in_seq in Hi. rewrite (idx_ok corners i []) by lia. cbn [bind]. rewrite obs_pts_four.
    + cbn [bind]. rewrite (idx_ok ids i 0%nat) by lia. cbn [bind]. rewrite combine_nth_le by lia. reflexivity.
    + rewrite Forall_forall in F. apply F. apply nth_In. lia.
Qed.
Lemma in_find {V} (m : amap V) k v : ids_distinct m -> In (k, v) m <-> find_key k m = Some v.
Proof. intros D. split; [ apply distinct_find; exact D | apply find_key_In ]. Qed.
Lemma aruco_features_spec u ids corners : (length ids <= length corners)%nat -> Forall (fun cs => length cs = 4%nat) corners ->
  exists tf, aruco_features u ids corners = Ok tf /\ ids_distinct tf /\
  forall id i f, In (id, i, f) (all_features tf) <->
    exists m cs, first_with ids m id /\ nth_error corners m = Some cs /\ nth_error cs i = Some f.
Proof.
  intros L F. eexists. split; [ apply aruco_features_map; assumption | ].
  assert (S : sorted (emplace_all (combine ids corners) [])) by (apply emplace_all_sorted; constructor).
  split; [ apply sorted_distinct; exact S | ]. intros id i f. rewrite in_all_features. split.
  - intros (fs & Hin & Hi). apply in_find in Hin; [ | apply sorted_distinct; exact S ]. rewrite find_emplace_all in Hin by constructor. cbn [find_key] in Hin.
    apply find_combine in Hin; [ | exact L ]. destruct Hin as (b & Fb & Nb). exists b, fs. auto.
  - intros (b & cs & Fb & Nb & Hi). exists cs. split; [ | exact Hi ]. apply in_find; [ apply sorted_distinct; exact S | ].
    rewrite find_emplace_all by constructor. cbn [find_key]. apply find_combine; [ exact L | ]. exists b. auto.
Qed.
Lemma Forall2_right {A B} (P : A -> B -> Prop) l l' b : Forall2 P l l' -> In b l' -> exists a, In a l /\ P a b.
Proof.
  intros F. induction F as [ | x y l l' Hxy F IH]; intros Hb; [ destruct Hb | ]. destruct Hb as [<- | Hb]; [ exists x; split; [ left; reflexivity | exact Hxy ] | ].
  destruct (IH Hb) as (z & Hz & Rz). exists z. split; [ right; exact Hz | exact Rz ].
Qed.
Lemma Forall2_left {A B} (P : A -> B -> Prop) l l' a : Forall2 P l l' -> In a l -> exists b, In b l' /\ P a b.
Proof.
  intros F. induction F as [ | x y l l' Hxy F IH]; intros Hb; [ destruct Hb | ]. destruct Hb as [<- | Hb]; [ exists y; split; [ left; reflexivity | exact Hxy ] | ].
  destruct (IH Hb) as (z & Hz & Rz). exists z. split; [ right; exact Hz | exact Rz ].
Qed.
(** From detection to correspondences. *)
Lemma aruco_end_to_end u ids corners board points cs :
  (length ids <= length corners)%nat -> Forall (fun cs => length cs = 4%nat) corners ->
  mapArucoIdsToObjPts board = Ok points ->
  (do tf <- aruco_features u ids corners; aruco_correspondences points tf) = Ok cs ->
  forall c, In c cs <-> exists m id ps i, first_with ids m id /\ nth_error corners m = Some ps /\ nth_error ps i = Some (in_image c) /\
    board_corner board id i (in_target c).
Proof.
  intros L F M H. destruct (aruco_features_spec u ids corners L F) as (tf & E & D & X). rewrite E in H. cbn [bind] in H.
  pose proof (aruco_pairs board points tf cs D M H) as P. intros c. split.
  - intros Hc. assert (Y : exists x, In x (all_features tf) /\ (fun '(id, i, f) c => in_image c = f /\ board_corner board id i (in_target c)) x c).
    { exact (Forall2_right _ _ _ _ P Hc). }
    destruct Y as ([[id i] f] & Hx & <- & B). apply X in Hx. destruct Hx as (m & ps & Fm & Nm & Hi). exists m, id, ps, i. auto.
  - intros (m & id & ps & i & Fm & Nm & Hi & B). assert (Hx : In (id, i, in_image c) (all_features tf)) by (apply X; exists m, ps; auto).
    assert (Y : exists y, In y cs /\ (fun '(id, i, f) c => in_image c = f /\ board_corner board id i (in_target c)) (id, i, in_image c) y).
    { exact (Forall2_left _ _ _ _ P Hx). }
    destruct Y as (y & Hy & E1 & B'). assert (in_target y = in_target c) as E2.
    { destruct B as (b & qs & Fb & Nb & Nq). destruct B' as (b' & qs' & Fb' & Nb' & Nq').
      assert (b = b'). { destruct Fb as [A1 A2], Fb' as [A1' A2']. destruct (Nat.lt_trichotomy b b') as [T | [T | T]]; [ | exact T | ];
        exfalso; [ apply (A2' b T A1) | apply (A2 b' T A1') ]. }
      subst b'. congruence. }
    destruct y, c; cbn in E1, E2. subst. exact Hy.
Qed.

(** ** ChArUco *)

Lemma foldM_emplace_seq {V} (f : nat -> res (nat * V)) (l : list (nat * V)) :
  (forall i e, nth_error l i = Some e -> f i = Ok e) ->
  foldM (fun m i => do e <- f i; Ok (emplace (fst e) (snd e) m)) (seq 0 (length l)) [] = Ok (emplace_all l []).
Proof.
  intros H. destruct l as [ | d r] eqn:El; [ reflexivity | ]. rewrite <- El in *.
  rewrite (foldM_emplace f (fun i => nth i l d)).
  - f_equal. f_equal. clear H El. apply (nth_ext _ _ d d); [ rewrite map_length, seq_length; reflexivity | ].
    intros n Hn. rewrite map_length, seq_length in Hn. rewrite (nth_indep _ d (nth 0 l d)) by (rewrite map_length, seq_length; exact Hn).
    rewrite (map_nth (fun i => nth i l d) (seq 0 (length l)) 0%nat). rewrite seq_nth by exact Hn. reflexivity.
  - intros i Hi. apply in_seq in Hi. apply H. apply nth_error_nth'. lia.
Qed.
Lemma charuco_points corners : mapCharucoIdsToObjPts corners = Ok (emplace_all (combine (seq 0 (length corners)) corners) []).
Proof.
  unfold mapCharucoIdsToObjPts.
  rewrite <- (foldM_emplace_seq (fun i => do c <- at_ corners i; Ok (i, c))).
  - rewrite combine_length, seq_length, Nat.min_id. apply foldM_ext. intros m i _. destruct (at_ corners i); reflexivity.
  - intros i [k c] Hi. assert (Li : (i < length corners)%nat).
    { assert (X : (i < length (combine (seq 0 (length corners)) corners))%nat) by (apply nth_error_Some; congruence).
      rewrite combine_length, seq_length, Nat.min_id in X. exact X. }
    rewrite (at_ok corners i c) by exact Li. cbn [bind].
    apply nth_error_nth with (d := (0%nat, c)) in Hi. rewrite combine_nth_le in Hi by (rewrite seq_length; lia). rewrite seq_nth in Hi by exact Li.
    rewrite Nat.add_0_l in Hi. rewrite Hi. reflexivity.
Qed.
Lemma charuco_point_find corners points id p : mapCharucoIdsToObjPts corners = Ok points ->
  find_key id points = Some p <-> nth_error corners id = Some p.
Proof.
  intros M. rewrite charuco_points in M. injection M as <-. rewrite find_emplace_all by constructor. cbn [find_key].
  rewrite find_combine by (rewrite seq_length; lia). unfold first_with. split.
  - intros (b & [Hb _] & Hp). assert (b < length corners)%nat by (apply nth_error_Some; congruence).
    apply nth_error_nth with (d := 0%nat) in Hb. rewrite seq_nth in Hb by assumption. cbn in Hb. subst. exact Hp.
  - intros Hp. assert (Hl : (id < length corners)%nat) by (apply nth_error_Some; congruence). exists id. split; [ | exact Hp ]. split.
    + rewrite (nth_error_nth' _ 0%nat) by (rewrite seq_length; exact Hl). rewrite seq_nth by exact Hl. reflexivity.
    + intros b' Hb'. rewrite (nth_error_nth' _ 0%nat) by (rewrite seq_length; lia). rewrite seq_nth by lia. cbn. intros X. injection X. lia.
Qed.
Definition charuco_pair (points : amap vec3) (it : nat * list vec2) : res (correspondence vec2) :=
  do p <- map_at points (fst it); do f <- at_ (snd it) 0; Ok (Corr f p).
Lemma charuco_unfold points tf : ids_distinct tf -> charuco_correspondences points tf = mapM (charuco_pair points) tf.
Proof.
  intros D. unfold charuco_correspondences. rewrite (foldM_ext _ (fun cs it => do b <- charuco_pair points it; Ok (cs ++ [b]))).
  - rewrite foldM_push. destruct (mapM _ _); reflexivity.
  - intros s [id fs] Hin. unfold charuco_pair. cbn [fst snd]. destruct (map_at points id); cbn [bind]; try reflexivity.
    unfold map_at. rewrite (distinct_find tf id fs D Hin). cbn [bind]. destruct (at_ fs 0); reflexivity.
Qed.
Lemma charuco_pair_ok corners points it c : mapCharucoIdsToObjPts corners = Ok points ->
  charuco_pair points it = Ok c <-> nth_error (snd it) 0 = Some (in_image c) /\ nth_error corners (fst it) = Some (in_target c).
Proof.
  intros M. unfold charuco_pair, map_at, at_. split.
  - destruct (find_key (fst it) points) as [p | ] eqn:E; cbn [bind]; [ | discriminate ].
    destruct (nth_error (snd it) 0) as [f | ] eqn:Ef; cbn [bind]; [ | discriminate ]. intros H. injection H as <-. cbn. split; [ reflexivity | ].
    apply (charuco_point_find corners points _ p M). exact E.
  - intros [Hf Hp]. rewrite (proj2 (charuco_point_find corners points _ _ M) Hp). cbn [bind]. rewrite Hf. cbn [bind]. destruct c; reflexivity.
Qed.
Lemma charuco_pair_outcome points it : is_ok (charuco_pair points it) \/ charuco_pair points it = Throw OutOfRange.
Proof.
  unfold charuco_pair, map_at, at_. destruct (find_key (fst it) points) as [p | ]; cbn [bind]; [ | right; reflexivity ].
  destruct (nth_error (snd it) 0); cbn [bind]; [ left; eexists; reflexivity | right; reflexivity ].
Qed.
Lemma charuco_pairs corners points tf cs : ids_distinct tf -> mapCharucoIdsToObjPts corners = Ok points ->
  charuco_correspondences points tf = Ok cs ->
  Forall2 (fun '(id, fs) c => nth_error fs 0 = Some (in_image c) /\ nth_error corners id = Some (in_target c)) tf cs.
Proof.
  intros D M H. rewrite charuco_unfold in H by exact D. eapply mapM_forall2; [ exact H | ]. intros [id fs] c _ E.
  apply (charuco_pair_ok corners points (id, fs) c M) in E. exact E.
Qed.
Lemma charuco_outcome corners points tf : ids_distinct tf -> mapCharucoIdsToObjPts corners = Ok points ->
  ((forall id fs, In (id, fs) tf -> (id < length corners)%nat /\ fs <> []) -> exists cs, charuco_correspondences points tf = Ok cs) /\
  (forall id fs, In (id, fs) tf -> (length corners <= id)%nat \/ fs = [] -> charuco_correspondences points tf = Throw OutOfRange).
Proof.
  intros D M. rewrite charuco_unfold by exact D. split.
  - intros H. apply mapM_ok_iff. intros [id fs] Hx. destruct (H id fs Hx) as [Hl Hf]. destruct fs as [ | f fs]; [ congruence | ].
    exists (Corr f (nth id corners vzero)). apply (charuco_pair_ok corners points _ _ M). cbn. split; [ reflexivity | ]. apply nth_error_nth'. exact Hl.
  - intros id fs Hx N. apply mapM_throws; [ intros; apply charuco_pair_outcome | ]. exists (id, fs). split; [ exact Hx | ].
    destruct (charuco_pair_outcome points (id, fs)) as [[c E] | E]; [ | exact E ]. apply (charuco_pair_ok corners points _ _ M) in E. cbn in E.
    destruct E as [E1 E2]. exfalso. destruct N as [N | ->]; [ | discriminate ]. apply nth_error_None in N. congruence.
Qed.
Lemma charuco_no_markers n corners ids : charuco_features [] n corners ids = Throw RuntimeError.
Proof. reflexivity. Qed.
Lemma charuco_features_spec marker_ids n corners ids : marker_ids <> [] -> length corners = n -> length ids = n ->
  exists tf, charuco_features marker_ids n corners ids = Ok tf /\ ids_distinct tf /\
  forall id fs, In (id, fs) tf <-> exists m c, first_with ids m id /\ nth_error corners m = Some c /\ fs = [c].
Proof.
  intros N Lc Li. destruct marker_ids as [ | x r]; [ congruence | ]. unfold charuco_features.
  set (l := combine ids (map (fun c => [c]) corners)).
  assert (Ll : length l = n) by (unfold l; rewrite combine_length, map_length; lia).
  assert (S : sorted (emplace_all l [])) by (apply emplace_all_sorted; constructor).
  exists (emplace_all l []). split; [ | split; [ apply sorted_distinct; exact S | ] ].
  - rewrite <- Ll. rewrite <- (foldM_emplace_seq (fun i => do c <- at_ corners i; do id <- idx ids i; Ok (id, [c]))).
    + apply foldM_ext. intros m i _. destruct (at_ corners i); cbn [bind]; try reflexivity. destruct (idx ids i); reflexivity.
    + intros i [k v] Hi. assert (Hl : (i < n)%nat) by (rewrite <- Ll; apply nth_error_Some; congruence).
      destruct (nth_error corners i) as [c0 | ] eqn:Ec; [ clear Ec | apply nth_error_None in Ec; lia ].
      rewrite (at_ok corners i c0) by lia. cbn [bind]. rewrite (idx_ok ids i 0%nat) by lia. cbn [bind].
      apply nth_error_nth with (d := (0%nat, [c0])) in Hi. unfold l in Hi. rewrite combine_nth_le in Hi by (rewrite ?map_length; lia).
      rewrite (map_nth (fun c => [c]) corners c0 i) in Hi. rewrite Hi. reflexivity.
  - intros id fs. rewrite in_find by (apply sorted_distinct; exact S). rewrite find_emplace_all by constructor. cbn [find_key]. unfold l.
    rewrite find_combine by (rewrite map_length; lia). split.
    + intros (b & Fb & Nb). rewrite nth_error_map in Nb. destruct (nth_error corners b) as [c | ] eqn:Ec; cbn in Nb; [ | discriminate ].
      injection Nb as <-. exists b, c. auto.
    + intros (b & c & Fb & Nb & ->). exists b. split; [ exact Fb | ]. rewrite nth_error_map, Nb. reflexivity.
Qed.

(** ** Circle grid correspondences *)

Lemma circle_pairs t tf cs : circle_correspondences t tf = Ok cs ->
  length cs = (cg_rows t * cg_cols t)%nat /\
  forall i c, nth_error cs i = Some c ->
    nth_error (createPoints t) i = Some (in_target c) /\ exists fs, find_key i tf = Some fs /\ nth_error fs 0 = Some (in_image c).
Proof.
  unfold circle_correspondences. cbv zeta. intros H.
  rewrite (foldM_ext _ (fun cs i => do b <- (do p <- at_ (createPoints t) i; do f <- map_at tf i; do o <- at_ f 0; Ok (Corr o p)); Ok (cs ++ [b]))) in H.
  2:{ intros s i _. destruct (at_ (createPoints t) i); cbn [bind]; try reflexivity. destruct (map_at tf i) as [f | | ]; cbn [bind]; try reflexivity. destruct (at_ f 0); reflexivity. }
  rewrite foldM_push in H. destruct (mapM _ _) as [bs | | ] eqn:E; cbn [bind app] in H; try discriminate. injection H as <-.
  pose proof (mapM_length _ _ _ E) as L. rewrite seq_length, points_length in L. split; [ exact L | ]. intros i c Hc.
  assert (Hi : (i < length (createPoints t))%nat) by (rewrite points_length, <- L; apply nth_error_Some; congruence).
  pose proof (mapM_forall2 _ (fun i b => (do p <- at_ (createPoints t) i; do f <- map_at tf i; do o <- at_ f 0; Ok (Corr o p)) = Ok b) _ _ E (fun a b _ X => X)) as F.
  assert (Y : (do p <- at_ (createPoints t) i; do f <- map_at tf i; do o <- at_ f 0; Ok (Corr o p)) = Ok c).
  { clear -F Hc Hi. assert (Z : forall l bs, Forall2 (fun i b => (do p <- at_ (createPoints t) i; do f <- map_at tf i; do o <- at_ f 0; Ok (Corr o p)) = Ok b) l bs ->
      forall n a b, nth_error l n = Some a -> nth_error bs n = Some b -> (do p <- at_ (createPoints t) a; do f <- map_at tf a; do o <- at_ f 0; Ok (Corr o p)) = Ok b).
    { clear. intros l bs F. induction F as [ | a b l bs Hab F IH]; intros n a' b' Ha Hb; destruct n; cbn in Ha, Hb; try discriminate.
      - injection Ha as <-. injection Hb as <-. exact Hab.
      - eapply IH; eassumption. }
    eapply Z; [ exact F | | exact Hc ]. rewrite (nth_error_nth' _ 0%nat) by (rewrite seq_length; exact Hi). rewrite seq_nth by exact Hi. reflexivity. }
  unfold at_ at 1 in Y. destruct (nth_error (createPoints t) i) as [p | ] eqn:Ep; cbn [bind] in Y; [ | discriminate ].
  unfold map_at in Y. destruct (find_key i tf) as [fs | ] eqn:Ef; cbn [bind] in Y; [ | discriminate ].
  unfold at_ in Y. destruct (nth_error fs 0) as [o | ] eqn:Eo; cbn [bind] in Y; [ | discriminate ].
  injection Y as <-. cbn. split; [ reflexivity | ]. exists fs. split; [ reflexivity | exact Eo ].
Qed.
Lemma circle_outcome t tf :
  ((forall i, (i < cg_rows t * cg_cols t)%nat -> exists f fs, find_key i tf = Some (f :: fs)) -> exists cs, circle_correspondences t tf = Ok cs) /\
  (forall i, (i < cg_rows t * cg_cols t)%nat -> find_key i tf = None \/ find_key i tf = Some [] -> circle_correspondences t tf = Throw OutOfRange).
Proof.
  unfold circle_correspondences. cbv zeta.
  rewrite (foldM_ext _ (fun cs i => do b <- (do p <- at_ (createPoints t) i; do f <- map_at tf i; do o <- at_ f 0; Ok (Corr o p)); Ok (cs ++ [b]))).
  2:{ intros s i _. destruct (at_ (createPoints t) i); cbn [bind]; try reflexivity. destruct (map_at tf i) as [f | | ]; cbn [bind]; try reflexivity. destruct (at_ f 0); reflexivity. }
  rewrite foldM_push. rewrite points_length. split.
  - intros H. assert (X : is_ok (mapM (fun i => do p <- at_ (createPoints t) i; do f <- map_at tf i; do o <- at_ f 0; Ok (Corr o p)) (seq 0 (cg_rows t * cg_cols t)))).
    { apply mapM_ok_iff. intros i Hi. apply in_seq in Hi. rewrite (at_ok _ i vzero) by (rewrite points_length; lia). cbn [bind].
      destruct (H i) as (f & fs & E); [ lia | ]. unfold map_at. rewrite E. cbn. eexists. reflexivity. }
    destruct X as [bs E]. rewrite E. cbn. eexists. reflexivity.
  - intros i Hi N. rewrite (mapM_throws _ OutOfRange); [ reflexivity | | ].
    + intros a _. unfold at_, map_at. destruct (nth_error (createPoints t) a); cbn [bind]; [ | right; reflexivity ].
      destruct (find_key a tf) as [f | ]; cbn [bind]; [ | right; reflexivity ]. destruct (nth_error f 0); cbn [bind]; [ left; eexists; reflexivity | right; reflexivity ].
    + exists i. split; [ apply in_seq; lia | ]. rewrite (at_ok _ i vzero) by (rewrite points_length; lia). cbn [bind]. unfold map_at.
      destruct N as [-> | ->]; reflexivity.
Qed.
Lemma circle_features_spec pts : exists tf, circle_features pts = Ok tf /\ ids_distinct tf /\
  forall i fs, find_key i tf = Some fs <-> exists p, nth_error pts i = Some p /\ fs = [p].
Proof.
  unfold circle_features. set (l := combine (seq 0 (length pts)) (map (fun c => [c]) pts)).
  assert (Ll : length l = length pts) by (unfold l; rewrite combine_length, map_length, seq_length; lia).
  assert (S : sorted (emplace_all l [])) by (apply emplace_all_sorted; constructor).
  exists (emplace_all l []). split; [ | split; [ apply sorted_distinct; exact S | ] ].
  - rewrite <- Ll. rewrite <- (foldM_emplace_seq (fun i => do c <- at_ pts i; Ok (i, [c]))).
    + apply foldM_ext. intros m i _. destruct (at_ pts i); reflexivity.
    + intros i [k v] Hi. assert (Hl : (i < length pts)%nat) by (rewrite <- Ll; apply nth_error_Some; congruence).
      destruct (nth_error pts i) as [c0 | ] eqn:Ec; [ clear Ec | apply nth_error_None in Ec; lia ].
      rewrite (at_ok pts i c0) by lia. cbn [bind].
      apply nth_error_nth with (d := (0%nat, [c0])) in Hi. unfold l in Hi. rewrite combine_nth_le in Hi by (rewrite ?map_length, ?seq_length; lia).
      rewrite (map_nth (fun c => [c]) pts c0 i) in Hi. rewrite seq_nth in Hi by lia. rewrite Nat.add_0_l in Hi. rewrite Hi. reflexivity.
  - intros i fs. rewrite find_emplace_all by constructor. cbn [find_key]. unfold l. rewrite find_combine by (rewrite map_length, seq_length; lia). split.
    + intros (b & [Fb _] & Nb). rewrite nth_error_map in Nb. destruct (nth_error pts b) as [c | ] eqn:Ec; cbn in Nb; [ | discriminate ].
      injection Nb as <-. assert (b < length pts)%nat by (apply nth_error_Some; congruence).
      apply nth_error_nth with (d := 0%nat) in Fb. rewrite seq_nth in Fb by assumption. cbn in Fb. subst. exists c. auto.
    + intros (c & Nb & ->). assert (Hl : (i < length pts)%nat) by (apply nth_error_Some; congruence). exists i. split.
      * split; [ rewrite (nth_error_nth' _ 0%nat) by (rewrite seq_length; exact Hl); rewrite seq_nth by exact Hl; reflexivity | ].
        intros b' Hb'. rewrite (nth_error_nth' _ 0%nat) by (rewrite seq_length; lia). rewrite seq_nth by lia. cbn. intros X. injection X. lia.
      * rewrite nth_error_map, Nb. reflexivity.
Qed.
(** Ordered points to correspondences. *)
Lemma circle_end_to_end t pts : length pts = (cg_rows t * cg_cols t)%nat ->
  exists cs, (do tf <- circle_features pts; circle_correspondences t tf) = Ok cs /\
    map in_image cs = pts /\ map in_target cs = createPoints t.
Proof.
  intros L. destruct (circle_features_spec pts) as (tf & -> & D & X). cbn [bind].
  destruct (proj1 (circle_outcome t tf)) as [cs E].
  { intros i Hi. rewrite <- L in Hi. destruct (nth_error pts i) as [p | ] eqn:Ep; [ | apply nth_error_None in Ep; lia ]. exists p, []. apply X. exists p. auto. }
  exists cs. split; [ exact E | ]. destruct (circle_pairs t tf cs E) as [Lc Y].
  assert (Z : forall A (l1 l2 : list A), length l1 = length l2 -> (forall i a, nth_error l1 i = Some a -> nth_error l2 i = Some a) -> l1 = l2).
  { clear. induction l1 as [ | a r IH]; intros [ | b l2] H N; cbn in H; try lia; [ reflexivity | ].
    pose proof (N 0%nat a eq_refl) as H0. cbn in H0. injection H0 as ->. f_equal. apply IH; [ lia | ]. intros i x Hx. exact (N (S i) x Hx). }
  split; apply Z; rewrite ?map_length, ?points_length, ?Lc, ?L; try reflexivity.
  - intros i a Ha. rewrite nth_error_map in Ha. destruct (nth_error cs i) as [c | ] eqn:Ec; cbn in Ha; [ | discriminate ]. injection Ha as <-.
    destruct (Y i c Ec) as (_ & fs & Hf & H0). apply X in Hf. destruct Hf as (p & Hp & ->). cbn in H0. injection H0 as <-. exact Hp.
  - intros i a Ha. rewrite nth_error_map in Ha. destruct (nth_error cs i) as [c | ] eqn:Ec; cbn in Ha; [ | discriminate ]. injection Ha as <-.
    apply (Y i c Ec).
Qed.
