From Coq Require Import Reals ZArith Lra Lia String List.
From Verif.Base Require Import Geom Outcome Matrix.
From Verif.Model Require Import DhChain.
From Verif.Spec Require Export DhSpec.
From Verif.Proofs Require Import GeomLemmas ListLemmas.
Import ListNotations.
Local Open Scope R_scope.

Lemma aa_z t : aa_matrix t unitZ = lin (rot_z t).
Proof. geo_ext; cbn; ring. Qed.
Lemma aa_x t : aa_matrix t unitX = lin (rot_x t).
Proof. geo_ext; cbn; ring. Qed.
Lemma dh_factors d theta r alpha :
  dh_matrix d theta r alpha = iso_mul (iso_mul (iso_mul (trans_z d) (rot_z theta)) (trans_x r)) (rot_x alpha).
Proof. apply iso_ext; geo_ext; cbn; ring. Qed.
Lemma rot_z_rigid t : rigid (rot_z t).
Proof. unfold rigid. rewrite <- aa_z. apply aa_matrix_rot. geo_unfold; ring. Qed.
Lemma rot_x_rigid t : rigid (rot_x t).
Proof. unfold rigid. rewrite <- aa_x. apply aa_matrix_rot. geo_unfold; ring. Qed.
Lemma dh_rigid d theta r alpha : rigid (dh_matrix d theta r alpha).
Proof.
  rewrite dh_factors.
  repeat apply rigid_mul; first [ apply rigid_trans | apply rot_z_rigid | apply rot_x_rigid ].
Qed.
Lemma code_product d theta r alpha :
  iso_mul (iso_mul (iso_mul (iso_mul iso_id (iso_trans (V3 0 0 d))) (iso_rot (aa_matrix theta unitZ)))
    (iso_trans (V3 r 0 0))) (iso_rot (aa_matrix alpha unitX)) = dh_matrix d theta r alpha.
Proof. rewrite iso_mul_id_l, aa_z, aa_x, dh_factors. reflexivity. Qed.

Definition v4_of (o : nat -> R) : vec4 := V4 (o 0%nat) (o 1%nat) (o 2%nat) (o 3%nat).
Lemma relative_link t q o : jtype t <> OTHER ->
  createRelativeTransform t q (v4_of o) = Ok (link t o q).
Proof.
  intros H. unfold createRelativeTransform, link. destruct (jtype t); cbn [bind add4 v4_of e0 e1 e2 e3];
    [ | | congruence ]; rewrite code_product; reflexivity.
Qed.
Lemma relative_other t q o : jtype t = OTHER -> createRelativeTransform t q o = Throw RuntimeError.
Proof. intros H. unfold createRelativeTransform. rewrite H. reflexivity. Qed.
Lemma link_rigid t o q : rigid (link t o q).
Proof. unfold link. destruct (jtype t); first [ apply dh_rigid | apply rigid_id ]. Qed.

Lemma relative_linear d theta r alpha mx mn nm sd q a b c e :
  createRelativeTransform (DHT (V4 d theta r alpha) LINEAR mx mn nm sd) q (V4 a b c e)
  = Ok (dh_matrix (d + a + q) (theta + b) (r + c) (alpha + e)).
Proof. unfold createRelativeTransform. cbn [jtype params bind add4 e0 e1 e2 e3]. rewrite code_product. reflexivity. Qed.
Lemma relative_revolute d theta r alpha mx mn nm sd q a b c e :
  createRelativeTransform (DHT (V4 d theta r alpha) REVOLUTE mx mn nm sd) q (V4 a b c e)
  = Ok (dh_matrix (d + a) (theta + b + q) (r + c) (alpha + e)).
Proof. unfold createRelativeTransform. cbn [jtype params bind add4 e0 e1 e2 e3]. rewrite code_product. reflexivity. Qed.

(** ** getFK *)
Definition fk_step (c : dh_chain) (q : list R) (offs : matrix) (T : iso) (i : nat) : res iso :=
  do offset <- row4 offs i;
  do t <- at_ (transforms c) i;
  do x <- idx q i;
  do l <- createRelativeTransform t x offset;
  Ok (iso_mul T l).

Lemma getFK_unfold c q offs : getFK c q offs =
  if Nat.ltb (dof c) (length q) then Throw RuntimeError
  else if Nat.ltb (rows offs) (length q) then Throw RuntimeError
  else foldM (fk_step c q offs) (seq 0 (length q)) (base_offset c).
Proof. reflexivity. Qed.

Lemma row4_ok m i : (i < rows m)%nat -> row4 m i = Ok (v4_of (ent m i)).
Proof. intros H. unfold row4. destruct (Nat.ltb_spec i (rows m)); [ reflexivity | lia ]. Qed.

Lemma fk_step_ok c q offs T i t x : (i < rows offs)%nat ->
  nth_error (transforms c) i = Some t -> nth_error q i = Some x -> jtype t <> OTHER ->
  fk_step c q offs T i = Ok (iso_mul T (link t (ent offs i) x)).
Proof.
  intros H Ht Hx Hj. unfold fk_step. rewrite row4_ok by exact H. cbn [bind]. unfold at_, idx. rewrite Ht, Hx.
  cbn [bind]. rewrite relative_link by exact Hj. reflexivity.
Qed.
Lemma fk_step_other c q offs T i t x : (i < rows offs)%nat ->
  nth_error (transforms c) i = Some t -> nth_error q i = Some x -> jtype t = OTHER ->
  fk_step c q offs T i = Throw RuntimeError.
Proof.
  intros H Ht Hx Hj. unfold fk_step. rewrite row4_ok by exact H. cbn [bind]. unfold at_, idx. rewrite Ht, Hx.
  cbn [bind]. rewrite relative_other by exact Hj. reflexivity.
Qed.

Lemma foldM_ext {T A} (f g : T -> A -> res T) l s : (forall s a, In a l -> f s a = g s a) -> foldM f l s = foldM g l s.
Proof.
  revert s. induction l as [|a r IH]; intros s H; cbn; [ reflexivity | ].
  rewrite (H s a (or_introl eq_refl)). destruct (g s a) as [s'| |]; cbn; [ | reflexivity | reflexivity ].
  apply IH. intros. apply H. right. assumption.
Qed.

Definition fk_links (c : dh_chain) (q : list R) (offs : matrix) (Ls : list iso) : Prop :=
  length Ls = length q /\
  forall i t x, nth_error (transforms c) i = Some t -> nth_error q i = Some x ->
                nth_error Ls i = Some (link t (ent offs i) x).

Lemma nth_error_lt {A} (l : list A) i : (i < length l)%nat -> exists a, nth_error l i = Some a.
Proof.
  intros H. destruct (nth_error l i) as [a|] eqn:E; [ eauto | ].
  apply nth_error_None in E. lia.
Qed.
Lemma nth_error_some_lt {A} (l : list A) i a : nth_error l i = Some a -> (i < length l)%nat.
Proof. intros H. apply nth_error_Some. rewrite H. discriminate. Qed.

Lemma fk_prefix_step c q1 q2 offs T i : (i < length q1)%nat ->
  fk_step c (q1 ++ q2) offs T i = fk_step c q1 offs T i.
Proof.
  intros H. unfold fk_step. destruct (row4 offs i); [ cbn [bind] | reflexivity | reflexivity ].
  destruct (at_ (transforms c) i); [ cbn [bind] | reflexivity | reflexivity ].
  unfold idx. rewrite nth_error_app1 by exact H. reflexivity.
Qed.

Lemma getFK_snoc c q x offs : (length q < dof c)%nat -> (length q < rows offs)%nat ->
  getFK c (q ++ [x]) offs = do T <- getFK c q offs; fk_step c (q ++ [x]) offs T (length q).
Proof.
  intros H1 H2. rewrite !getFK_unfold, app_length. cbn [length].
  destruct (Nat.ltb_spec (dof c) (length q + 1)); [ lia | ].
  destruct (Nat.ltb_spec (rows offs) (length q + 1)); [ lia | ].
  destruct (Nat.ltb_spec (dof c) (length q)); [ lia | ].
  destruct (Nat.ltb_spec (rows offs) (length q)); [ lia | ].
  rewrite seq_app, foldM_app. cbn [seq foldM Nat.add].
  rewrite (foldM_ext (fk_step c (q ++ [x]) offs) (fk_step c q offs)).
  - destruct (foldM (fk_step c q offs) (seq 0 (length q)) (base_offset c)); [ cbn [bind] | reflexivity | reflexivity ].
    destruct (fk_step c (q ++ [x]) offs a (length q)); reflexivity.
  - intros s i Hi. apply in_seq in Hi. apply fk_prefix_step. lia.
Qed.

Lemma product_snoc b ls l : product b (ls ++ [l]) = iso_mul (product b ls) l.
Proof. unfold product. rewrite fold_left_app. reflexivity. Qed.

Lemma fk_value c q offs : (length q <= dof c)%nat -> (length q <= rows offs)%nat -> known_types c (length q) ->
  exists Ls, fk_links c q offs Ls /\ getFK c q offs = Ok (product (base_offset c) Ls).
Proof.
  induction q as [|x q IH] using rev_ind; intros H1 H2 Hk.
  - exists []. split; [ | reflexivity ]. split; [ reflexivity | ]. intros i t y _ H.
    destruct i; discriminate.
  - rewrite app_length in H1, H2, Hk. cbn in H1, H2, Hk.
    destruct IH as (Ls & (L1 & L2) & E); [ lia | lia | intros i t Hi; apply Hk; lia | ].
    destruct (nth_error_lt (transforms c) (length q)) as (t & Ht); [ unfold dof in H1; lia | ].
    exists (Ls ++ [link t (ent offs (length q)) x]). split; [ split | ].
    + rewrite !app_length, L1. reflexivity.
    + intros i t' y Ht' Hy. destruct (Nat.lt_ge_cases i (length q)) as [Hi|Hi].
      * rewrite nth_error_app1 in Hy by exact Hi. rewrite nth_error_app1 by (rewrite L1; exact Hi).
        apply L2; assumption.
      * pose proof (nth_error_some_lt _ _ _ Hy) as Hlt. rewrite app_length in Hlt. cbn in Hlt.
        assert (i = length q) by lia. subst i.
        rewrite nth_error_app2 in Hy by lia. rewrite nth_error_app2 by lia.
        rewrite L1, Nat.sub_diag in *. cbn in *. rewrite Ht in Ht'. congruence.
    + rewrite getFK_snoc by lia. rewrite E. cbn [bind].
      rewrite (fk_step_ok c _ offs _ _ t x); [ rewrite product_snoc; reflexivity | lia | exact Ht | | ].
      * rewrite nth_error_app2 by lia. rewrite Nat.sub_diag. reflexivity.
      * apply (Hk (length q)); [ lia | exact Ht ].
Qed.

Lemma fk_unknown c q offs : (length q <= dof c)%nat -> (length q <= rows offs)%nat -> ~ known_types c (length q) ->
  getFK c q offs = Throw RuntimeError.
Proof.
  induction q as [|x q IH] using rev_ind; intros H1 H2 Hk.
  - exfalso. apply Hk. intros i t Hi. cbn in Hi. lia.
  - rewrite app_length in H1, H2, Hk. cbn in H1, H2, Hk.
    rewrite getFK_snoc by lia.
    assert (D : known_types c (length q) \/ ~ known_types c (length q)).
    { unfold known_types. clear. induction (length q) as [|n IH].
      - left. intros i t Hi. lia.
      - destruct IH as [IH|IH].
        + destruct (nth_error (transforms c) n) as [t|] eqn:E.
          * destruct (jtype t) eqn:J.
            1, 2: left; intros i t' Hi Ht'; destruct (Nat.eq_dec i n) as [->|]; [ congruence | apply (IH i); [ lia | exact Ht' ] ].
            right. intros C. apply (C n t); [ lia | exact E | exact J ].
          * left. intros i t' Hi Ht'. destruct (Nat.eq_dec i n) as [->|]; [ congruence | apply (IH i); [ lia | exact Ht' ] ].
        + right. intros C. apply IH. intros i t Hi. apply C. lia. }
    destruct D as [D|D].
    + destruct (fk_value c q offs) as (Ls & _ & E); [ lia | lia | exact D | ]. rewrite E. cbn [bind].
      destruct (nth_error_lt (transforms c) (length q)) as (t & Ht); [ unfold dof in H1; lia | ].
      apply (fk_step_other c _ offs _ _ t x); [ lia | exact Ht | | ].
      * rewrite nth_error_app2 by lia. rewrite Nat.sub_diag. reflexivity.
      * destruct (jtype t) eqn:J; [ exfalso | exfalso | reflexivity ]; apply Hk; intros i t' Hi Ht';
          (destruct (Nat.eq_dec i (length q)) as [->|]; [ congruence | apply (D i); [ lia | exact Ht' ] ]).
    + rewrite IH by (first [ lia | assumption ]). reflexivity.
Qed.

Definition has_unknown (c : dh_chain) (n : nat) : Prop :=
  exists i t, (i < n)%nat /\ nth_error (transforms c) i = Some t /\ jtype t = OTHER.
Lemma unknown_dec c n : known_types c n \/ has_unknown c n.
Proof.
  induction n as [|n [IH|IH]].
  - left. intros i t Hi. lia.
  - destruct (nth_error (transforms c) n) as [t|] eqn:E.
    + destruct (jtype t) eqn:J.
      1, 2: left; intros i t' Hi Ht'; destruct (Nat.eq_dec i n) as [->|]; [ congruence | apply (IH i); [ lia | exact Ht' ] ].
      right. exists n, t. repeat split; [ lia | exact E | exact J ].
    + left. intros i t' Hi Ht'. destruct (Nat.eq_dec i n) as [->|]; [ congruence | apply (IH i); [ lia | exact Ht' ] ].
  - destruct IH as (i & t & Hi & R). right. exists i, t. split; [ lia | exact R ].
Qed.
Lemma unknown_not c n : has_unknown c n -> ~ known_types c n.
Proof. intros (i & t & Hi & Ht & J) K. exact (K i t Hi Ht J). Qed.

Lemma fk_throws_iff c q offs :
  getFK c q offs = Throw RuntimeError <->
  (dof c < length q)%nat \/ (rows offs < length q)%nat \/ has_unknown c (length q).
Proof.
  destruct (Nat.lt_ge_cases (dof c) (length q)) as [H1|H1].
  { split; [ auto | intros _ ]. rewrite getFK_unfold. destruct (Nat.ltb_spec (dof c) (length q)); [ reflexivity | lia ]. }
  destruct (Nat.lt_ge_cases (rows offs) (length q)) as [H2|H2].
  { split; [ auto | intros _ ]. rewrite getFK_unfold. destruct (Nat.ltb_spec (dof c) (length q)); [ reflexivity | ].
    destruct (Nat.ltb_spec (rows offs) (length q)); [ reflexivity | lia ]. }
  destruct (unknown_dec c (length q)) as [K|K].
  - destruct (fk_value c q offs H1 H2 K) as (Ls & _ & E). rewrite E. split; [ discriminate | ].
    intros [H|[H|H]]; [ lia | lia | exfalso; exact (unknown_not _ _ H K) ].
  - split; [ auto | intros _ ]. apply fk_unknown; [ exact H1 | exact H2 | apply unknown_not, K ].
Qed.
Lemma fk_ok_iff c q offs :
  (exists T, getFK c q offs = Ok T) <->
  (length q <= dof c)%nat /\ (length q <= rows offs)%nat /\ known_types c (length q).
Proof.
  split.
  - intros (T & E). assert (N : getFK c q offs <> Throw RuntimeError) by congruence.
    rewrite fk_throws_iff in N.
    destruct (unknown_dec c (length q)) as [K|K]; [ | exfalso; auto ].
    repeat split; [ | | exact K ]; apply Nat.nlt_ge; auto.
  - intros (H1 & H2 & K). destruct (fk_value c q offs H1 H2 K) as (Ls & _ & E). eauto.
Qed.
Lemma fk_total c q offs : (exists T, getFK c q offs = Ok T) \/ getFK c q offs = Throw RuntimeError.
Proof.
  rewrite fk_ok_iff, fk_throws_iff. destruct (unknown_dec c (length q)); [ | auto ].
  destruct (Nat.lt_ge_cases (dof c) (length q)); [ auto | ].
  destruct (Nat.lt_ge_cases (rows offs) (length q)); auto.
Qed.

Lemma product_rigid b ls : rigid b -> (forall l, In l ls -> rigid l) -> rigid (product b ls).
Proof.
  intros Hb. induction ls as [|l ls IH] using rev_ind; intros H; [ exact Hb | ].
  rewrite product_snoc. apply rigid_mul; [ apply IH; intros; apply H, in_or_app; auto | apply H, in_or_app; right; left; reflexivity ].
Qed.
Lemma fk_rigid c q offs T : rigid (base_offset c) -> getFK c q offs = Ok T -> rigid T.
Proof.
  intros Hb E. assert (K : exists T, getFK c q offs = Ok T) by eauto. apply fk_ok_iff in K.
  destruct K as (H1 & H2 & K). destruct (fk_value c q offs H1 H2 K) as (Ls & (L1 & L2) & E').
  rewrite E in E'. injection E' as ->. apply product_rigid; [ exact Hb | ].
  intros l Hl. apply In_nth_error in Hl. destruct Hl as (i & Hi).
  pose proof (nth_error_some_lt _ _ _ Hi) as Hlt. rewrite L1 in Hlt.
  destruct (nth_error_lt q i Hlt) as (x & Hx).
  destruct (nth_error_lt (transforms c) i) as (t & Ht); [ unfold dof in H1; lia | ].
  rewrite (L2 i t x Ht Hx) in Hi. injection Hi as <-. apply link_rigid.
Qed.

Lemma fk_value_ok c q offs T : getFK c q offs = Ok T ->
  exists Ls, fk_links c q offs Ls /\ T = product (base_offset c) Ls.
Proof.
  intros E. assert (K : exists T, getFK c q offs = Ok T) by eauto. apply fk_ok_iff in K.
  destruct K as (H1 & H2 & K). destruct (fk_value c q offs H1 H2 K) as (Ls & L & E').
  exists Ls. split; [ exact L | congruence ].
Qed.

Lemma fk_extend c q offs T t x : getFK c q offs = Ok T ->
  nth_error (transforms c) (length q) = Some t -> jtype t <> OTHER -> (length q < rows offs)%nat ->
  getFK c (q ++ [x]) offs = Ok (iso_mul T (link t (ent offs (length q)) x)).
Proof.
  intros E Ht Hj Hr. rewrite getFK_snoc; [ rewrite E; cbn [bind] | exact (nth_error_some_lt _ _ _ Ht) | exact Hr ].
  apply fk_step_ok; [ exact Hr | exact Ht | | exact Hj ].
  rewrite nth_error_app2 by lia. rewrite Nat.sub_diag. reflexivity.
Qed.

(** ** getRelativeTransform *)
Lemma relative_index c i x :
  getRelativeTransform c i x =
  match (if (i <? 0)%Z then None else nth_error (transforms c) (Z.to_nat i)) with
  | None => Throw RuntimeError
  | Some t => createRelativeTransform t x (V4 0 0 0 0)
  end.
Proof.
  unfold getRelativeTransform. destruct (Z.ltb_spec i 0); [ reflexivity | ].
  destruct (Z.leb_spec (Z.of_nat (List.length (transforms c))) i).
  - assert (N : nth_error (transforms c) (Z.to_nat i) = None) by (apply nth_error_None; lia).
    rewrite N. reflexivity.
  - unfold idx. destruct (nth_error_lt (transforms c) (Z.to_nat i)) as (t & Ht); [ lia | ].
    rewrite Ht. reflexivity.
Qed.
Lemma fk_extend_relative c q T L x : getFK0 c q = Ok T ->
  getRelativeTransform c (Z.of_nat (length q)) x = Ok L -> getFK0 c (q ++ [x]) = Ok (iso_mul T L).
Proof.
  intros E H. rewrite relative_index in H. destruct (Z.ltb_spec (Z.of_nat (length q)) 0); [ lia | ].
  rewrite Nat2Z.id in H. destruct (nth_error (transforms c) (length q)) as [t|] eqn:Ht; [ | discriminate ].
  assert (J : jtype t <> OTHER) by (intros J; rewrite relative_other in H by exact J; discriminate).
  pose proof (relative_link t x (fun _ => 0) J) as RL. unfold v4_of in RL. rewrite RL in H. injection H as <-.
  unfold getFK0 in *. erewrite fk_extend; [ reflexivity | exact E | exact Ht | exact J | ].
  exact (nth_error_some_lt _ _ _ Ht).
Qed.

(** ** baked offsets *)
Definition baked (seeds : nat -> nat) (offs : matrix) (i : nat) (t : dh_transform) : dh_transform :=
  DHT (add4 (params t) (v4_of (ent offs i))) (jtype t) PI (- PI) "joint" (seeds i).
Definition baked_from (seeds : nat -> nat) (c : dh_chain) (offs : matrix) (ts : list dh_transform) (n : nat) : Prop :=
  length ts = n /\
  forall i t, (i < n)%nat -> nth_error (transforms c) i = Some t -> nth_error ts i = Some (baked seeds offs i t).

Lemma bake_ok seeds c offs : (dof c <= rows offs)%nat ->
  exists ts, bake_offsets seeds c offs = Ok (DHChain ts (base_offset c)) /\ baked_from seeds c offs ts (dof c).
Proof.
  intros H. unfold bake_offsets.
  match goal with |- context [foldM ?f _ _] => set (step := f) end.
  assert (K : forall n, (n <= dof c)%nat -> exists ts, foldM step (seq 0 n) [] = Ok ts /\ baked_from seeds c offs ts n).
  { induction n as [|n IH]; intros Hn.
    - exists []. split; [ reflexivity | ]. split; [ reflexivity | intros; lia ].
    - destruct IH as (ts & E & (B1 & B2)); [ lia | ].
      destruct (nth_error_lt (transforms c) n) as (t & Ht); [ exact Hn | ].
      exists (ts ++ [baked seeds offs n t]). split.
      + rewrite seq_S, foldM_app, E. cbn [bind foldM Nat.add]. unfold step.
        unfold at_. rewrite Ht. cbn [bind]. rewrite row4_ok by lia. reflexivity.
      + split; [ rewrite app_length; cbn; lia | ]. intros i t' Hi Ht'.
        destruct (Nat.eq_dec i n) as [->|].
        * rewrite nth_error_app2 by lia. rewrite B1, Nat.sub_diag. cbn. congruence.
        * rewrite nth_error_app1 by lia. apply B2; [ lia | exact Ht' ]. }
  destruct (K (dof c) (Nat.le_refl _)) as (ts & E & B). exists ts. unfold dof in E. rewrite E.
  split; [ reflexivity | exact B ].
Qed.

Lemma bake_ub seeds c offs : (rows offs < dof c)%nat -> bake_offsets seeds c offs = UB.
Proof.
  intros H. unfold bake_offsets.
  match goal with |- context [foldM ?f _ _] => set (step := f) end.
  unfold dof in H.
  replace (length (transforms c)) with (rows offs + S (length (transforms c) - rows offs - 1))%nat by lia.
  rewrite seq_app, foldM_app.
  assert (K : forall n, (n <= rows offs)%nat -> exists ts, foldM step (seq 0 n) [] = Ok ts).
  { induction n as [|n IH]; intros Hn; [ exists []; reflexivity | ].
    destruct IH as (ts & E); [ lia | ].
    destruct (nth_error_lt (transforms c) n) as (t & Ht); [ lia | ].
    rewrite seq_S, foldM_app, E. cbn [bind foldM Nat.add]. unfold step. unfold at_. rewrite Ht. cbn [bind].
    rewrite row4_ok by lia. cbn [bind]. eauto. }
  destruct (K (rows offs) (Nat.le_refl _)) as (ts & E). rewrite E. cbn [bind seq foldM Nat.add].
  unfold step at 1. destruct (nth_error_lt (transforms c) (rows offs)) as (t & Ht); [ lia | ].
  unfold at_. rewrite Ht. cbn [bind]. unfold row4. rewrite Nat.ltb_irrefl. reflexivity.
Qed.

Lemma bake_inv seeds c offs c' : bake_offsets seeds c offs = Ok c' ->
  (dof c <= rows offs)%nat /\ base_offset c' = base_offset c /\ baked_from seeds c offs (transforms c') (dof c).
Proof.
  intros E. destruct (Nat.lt_ge_cases (rows offs) (dof c)) as [H|H].
  - rewrite bake_ub in E by exact H. discriminate.
  - destruct (bake_ok seeds c offs H) as (ts & E' & B). rewrite E in E'. injection E' as ->. auto.
Qed.

Lemma relative_assoc t q a b i s d : createRelativeTransform (DHT (add4 (params t) a) (jtype t) i d s 0) q b
  = createRelativeTransform t q (add4 a b).
Proof.
  unfold createRelativeTransform. cbn [jtype params].
  assert (E : add4 (add4 (params t) a) b = add4 (params t) (add4 a b)).
  { unfold add4. cbn. rewrite !Rplus_assoc. reflexivity. }
  rewrite E. reflexivity.
Qed.
Lemma relative_baked seeds offs i t q b :
  createRelativeTransform (baked seeds offs i t) q b = createRelativeTransform t q (add4 (v4_of (ent offs i)) b).
Proof.
  unfold createRelativeTransform, baked. cbn [jtype params].
  assert (E : add4 (add4 (params t) (v4_of (ent offs i))) b = add4 (params t) (add4 (v4_of (ent offs i)) b)).
  { unfold add4. cbn. rewrite !Rplus_assoc. reflexivity. }
  rewrite E. reflexivity.
Qed.

(** Sum of two offset matrices. *)
Definition sum_offsets (a b : matrix) : matrix := Mat (rows b) 4 (fun i j => ent a i j + ent b i j).

Lemma bake_fk_more seeds c offs c' q more : bake_offsets seeds c offs = Ok c' ->
  getFK c' q more = getFK c q (sum_offsets offs more).
Proof.
  intros E. destruct (bake_inv _ _ _ _ E) as (Hr & Hb & (B1 & B2)).
  rewrite !getFK_unfold. rewrite Hb. unfold dof at 1. rewrite B1. cbn [sum_offsets rows].
  destruct (Nat.ltb_spec (dof c) (length q)); [ reflexivity | ].
  destruct (Nat.ltb_spec (rows more) (length q)); [ reflexivity | ].
  apply foldM_ext. intros T i Hi. apply in_seq in Hi. unfold fk_step.
  rewrite !row4_ok by (cbn [sum_offsets rows]; lia). cbn [bind].
  destruct (nth_error_lt (transforms c) i) as (t & Ht); [ unfold dof in *; lia | ].
  unfold at_. rewrite Ht, (B2 i t ltac:(lia) Ht). cbn [bind].
  destruct (idx q i); [ cbn [bind] | reflexivity | reflexivity ].
  rewrite relative_baked. reflexivity.
Qed.

Lemma bake_fk seeds c offs c' q : bake_offsets seeds c offs = Ok c' -> getFK0 c' q = getFK c q offs.
Proof.
  intros E. unfold getFK0. rewrite (bake_fk_more _ _ _ _ _ _ E).
  destruct (bake_inv _ _ _ _ E) as (Hr & Hb & (B1 & B2)).
  rewrite !getFK_unfold. cbn [sum_offsets rows]. unfold dof at 2. rewrite B1.
  destruct (Nat.ltb_spec (dof c) (length q)); [ reflexivity | ].
  destruct (Nat.ltb_spec (rows offs) (length q)); [ lia | ].
  apply foldM_ext. intros T i Hi. apply in_seq in Hi. unfold fk_step.
  rewrite !row4_ok by (cbn [sum_offsets rows]; unfold dof in *; lia). cbn [bind sum_offsets ent].
  assert (V : v4_of (fun j => ent offs i j + 0) = v4_of (ent offs i)) by (unfold v4_of; rewrite !Rplus_0_r; reflexivity).
  rewrite V. reflexivity.
Qed.

Lemma getJointTypes_map c : getJointTypes c = map jtype (transforms c).
Proof. unfold getJointTypes. apply (fold_left_push jtype _ []). Qed.
Lemma chainParamLabels_map c : chainParamLabels c = map getParamLabels (transforms c).
Proof. unfold chainParamLabels. apply (fold_left_push getParamLabels _ []). Qed.

Lemma nth_error_ext' {A} (l1 l2 : list A) : length l1 = length l2 ->
  (forall i, (i < length l1)%nat -> nth_error l1 i = nth_error l2 i) -> l1 = l2.
Proof.
  revert l2. induction l1 as [|a l1 IH]; intros [|b l2] HL H; cbn in HL; try discriminate; [ reflexivity | ].
  pose proof (H 0%nat ltac:(cbn; lia)) as H0. cbn in H0. injection H0 as ->.
  f_equal. apply IH; [ lia | ]. intros i Hi. apply (H (S i)). cbn. lia.
Qed.

Lemma bake_map {A} (f : dh_transform -> A) (g : dh_transform -> A) seeds c offs c' :
  bake_offsets seeds c offs = Ok c' ->
  (forall i t, nth_error (transforms c) i = Some t -> f (baked seeds offs i t) = g t) ->
  map f (transforms c') = map g (transforms c).
Proof.
  intros E H. destruct (bake_inv _ _ _ _ E) as (Hr & Hb & (B1 & B2)).
  apply nth_error_ext'; [ rewrite !map_length; exact B1 | ].
  intros i Hi. rewrite map_length, B1 in Hi.
  destruct (nth_error_lt (transforms c) i Hi) as (t & Ht).
  rewrite (map_nth_error f _ _ (B2 i t Hi Ht)), (map_nth_error g _ _ Ht). f_equal. apply (H i). exact Ht.
Qed.
Lemma bake_shape seeds c offs c' : bake_offsets seeds c offs = Ok c' ->
  dof c' = dof c /\ getJointTypes c' = getJointTypes c /\ base_offset c' = base_offset c.
Proof.
  intros E. destruct (bake_inv _ _ _ _ E) as (Hr & Hb & (B1 & B2)). repeat split; [ exact B1 | | exact Hb ].
  rewrite !getJointTypes_map. apply (bake_map _ _ _ _ _ _ E). reflexivity.
Qed.
Lemma bake_exists seeds c offs : (dof c <= rows offs)%nat <-> exists c', bake_offsets seeds c offs = Ok c'.
Proof.
  split.
  - intros H. destruct (bake_ok seeds c offs H) as (ts & E & _). eauto.
  - intros (c' & E). apply (bake_inv _ _ _ _ E).
Qed.

Lemma bake_resets seeds c offs c' t : bake_offsets seeds c offs = Ok c' -> In t (transforms c') ->
  jname t = "joint"%string /\ jmax t = PI /\ jmin t = - PI.
Proof.
  intros E Hin. destruct (bake_inv _ _ _ _ E) as (Hr & Hb & (B1 & B2)).
  apply In_nth_error in Hin. destruct Hin as (i & Hi). pose proof (nth_error_some_lt _ _ _ Hi) as Hl. rewrite B1 in Hl.
  destruct (nth_error_lt (transforms c) i Hl) as (t0 & Ht). rewrite (B2 i t0 Hl Ht) in Hi. injection Hi as <-.
  auto.
Qed.
Lemma bake_keeps_iff seeds c offs c' : bake_offsets seeds c offs = Ok c' ->
  (map (fun t => (jname t, (jmin t, jmax t))) (transforms c') = map (fun t => (jname t, (jmin t, jmax t))) (transforms c) <->
   forall t, In t (transforms c) -> jname t = "joint"%string /\ jmin t = - PI /\ jmax t = PI).
Proof.
  intros E. split.
  - intros H t Ht.
    assert (Hin : In (jname t, (jmin t, jmax t)) (map (fun t => (jname t, (jmin t, jmax t))) (transforms c')))
      by (rewrite H; exact (in_map (fun t => (jname t, (jmin t, jmax t))) _ _ Ht)).
    apply in_map_iff in Hin. destruct Hin as (t' & Heq & Hin). injection Heq as A1 A2 A3.
    destruct (bake_resets _ _ _ _ _ E Hin) as (R1 & R2 & R3). repeat split; congruence.
  - intros H. apply (bake_map _ _ _ _ _ _ E). intros i t Ht. cbn.
    destruct (H t (nth_error_In _ _ Ht)) as (-> & -> & ->). reflexivity.
Qed.
Lemma append_l_inj a : forall x y, String.append x a = String.append y a -> x = y.
Proof.
  assert (L : forall s b, String.length (String.append s b) = (String.length s + String.length b)%nat)
    by (induction s; intros; cbn; auto).
  induction x as [|c x IH]; intros [|d y] H; cbn in *.
  - reflexivity.
  - exfalso. apply (f_equal String.length) in H. cbn in H. rewrite L in H. lia.
  - exfalso. apply (f_equal String.length) in H. cbn in H. rewrite L in H. lia.
  - injection H as -> H. f_equal. apply IH. exact H.
Qed.
Lemma bake_labels_iff seeds c offs c' : bake_offsets seeds c offs = Ok c' ->
  (chainParamLabels c' = chainParamLabels c <-> forall t, In t (transforms c) -> jname t = "joint"%string).
Proof.
  intros E. rewrite !chainParamLabels_map. split.
  - intros H t Ht.
    assert (Hin : In (getParamLabels t) (map getParamLabels (transforms c'))) by (rewrite H; apply in_map; exact Ht).
    apply in_map_iff in Hin. destruct Hin as (t' & Heq & Hin). unfold getParamLabels in Heq. injection Heq as A1 _ _ _.
    apply append_l_inj in A1. destruct (bake_resets _ _ _ _ _ E Hin) as (R1 & _). congruence.
  - intros H. apply (bake_map _ _ _ _ _ _ E). intros i t Ht. unfold getParamLabels. cbn [baked jname].
    rewrite (H t (nth_error_In _ _ Ht)). reflexivity.
Qed.

(** ** getDHTable *)
Lemma set_row_ent out i p : forall a b,
  ent (fold_left (fun out j => set_ent out i j (coef4 p j)) (seq 0 4) out) a b =
  (if andb (Nat.eqb a i) (Nat.ltb b 4) then coef4 p b else ent out a b).
Proof.
  intros a b. cbn [seq fold_left set_ent ent].
  destruct (Nat.eqb_spec a i) as [->|]; cbn [andb]; [ | reflexivity ].
  destruct b as [|[|[|[|b]]]]; reflexivity.
Qed.
Lemma set_row_dims out i p :
  rows (fold_left (fun out j => set_ent out i j (coef4 p j)) (seq 0 4) out) = rows out /\
  cols (fold_left (fun out j => set_ent out i j (coef4 p j)) (seq 0 4) out) = cols out.
Proof. split; reflexivity. Qed.
Lemma dh_table u c : rows (getDHTable u c) = dof c /\ cols (getDHTable u c) = 4%nat /\
  forall i j t, nth_error (transforms c) i = Some t -> (j < 4)%nat -> ent (getDHTable u c) i j = coef4 (params t) j.
Proof.
  unfold getDHTable. match goal with |- context [fold_left ?f _ _] => set (step := f) end.
  set (m0 := Mat (dof c) 4 u).
  assert (K : forall n, (n <= dof c)%nat ->
     let m := fold_left step (seq 0 n) m0 in
     rows m = dof c /\ cols m = 4%nat /\
     forall i j t, (i < n)%nat -> nth_error (transforms c) i = Some t -> (j < 4)%nat -> ent m i j = coef4 (params t) j).
  { induction n as [|n IH]; intros Hn.
    - repeat split. intros; lia.
    - destruct IH as (I1 & I2 & I3); [ lia | ].
      rewrite seq_S, fold_left_app. cbn [Nat.add fold_left].
      set (m := fold_left step (seq 0 n) m0) in *. unfold step.
      destruct (nth_error_lt (transforms c) n) as (t & Ht); [ exact Hn | ]. rewrite Ht.
      destruct (set_row_dims m n (params t)) as (D1 & D2). cbv zeta. rewrite D1, D2. repeat split; [ exact I1 | exact I2 | ].
      intros i j t' Hi Ht' Hj. rewrite set_row_ent.
      destruct (Nat.eqb_spec i n) as [->|]; cbn [andb].
      + destruct (Nat.ltb_spec j 4); [ congruence | lia ].
      + apply I3; [ lia | exact Ht' | exact Hj ]. }
  destruct (K (dof c) (Nat.le_refl _)) as (K1 & K2 & K3). repeat split; [ exact K1 | exact K2 | ].
  intros i j t Ht Hj. apply K3; [ exact (nth_error_some_lt _ _ _ Ht) | exact Ht | exact Hj ].
Qed.

(** ** Random poses *)
Section Random.
  Context {G : Type} (seeded : nat -> G) (uniform : R -> R -> G -> R * G).
  Definition limits_ok (c : dh_chain) : Prop := forall t, In t (transforms c) -> jmin t <= jmax t.
  Lemma random_in_limits c st : (forall a b g, a <= b -> a <= fst (uniform a b g) <= b) -> limits_ok c ->
    exists q st', createUniformlyRandomPose seeded uniform c st = Ok (q, st') /\
      length q = dof c /\
      forall i t x, nth_error (transforms c) i = Some t -> nth_error q i = Some x -> jmin t <= x <= jmax t.
  Proof.
    intros HU HL. unfold createUniformlyRandomPose, dof. unfold limits_ok in HL.
    match goal with |- context [foldM ?f _ _] => set (step := f) end.
    assert (K : forall l, (forall t, In t l -> jmin t <= jmax t) ->
      exists q st', foldM step l ([], st) = Ok (q, st') /\ length q = length l /\
      forall i t x, nth_error l i = Some t -> nth_error q i = Some x -> jmin t <= x <= jmax t).
    { induction l as [|t l IH] using rev_ind; intros Hl.
      - exists [], st. repeat split; destruct i; discriminate.
      - destruct IH as (q & st' & E & Lq & Hq); [ intros; apply Hl, in_or_app; auto | ].
        assert (Ht : jmin t <= jmax t) by (apply Hl, in_or_app; right; left; reflexivity).
        rewrite foldM_app, E. cbn [bind foldM]. unfold step. unfold createRandomJointValue.
        destruct (Rle_dec (jmin t) (jmax t)) as [HT|]; [ | contradiction ].
        match goal with |- context [uniform (jmin t) (jmax t) ?g] => pose proof (HU _ _ g HT) as HB;
          destruct (uniform (jmin t) (jmax t) g) as [v g'] eqn:EU end.
        cbn [bind]. cbn in HB. eexists _, _. split; [ reflexivity | ]. split; [ rewrite !app_length, Lq; reflexivity | ].
        intros i t' x Hi Hx. destruct (Nat.lt_ge_cases i (length l)) as [Hlt|Hge].
        + rewrite nth_error_app1 in Hi by exact Hlt. rewrite nth_error_app1 in Hx by lia. eapply Hq; eassumption.
        + pose proof (nth_error_some_lt _ _ _ Hi) as Hb. rewrite app_length in Hb. cbn in Hb.
          rewrite nth_error_app2 in Hi by lia. rewrite nth_error_app2 in Hx by lia.
          replace (i - length l)%nat with 0%nat in Hi by lia. replace (i - length q)%nat with 0%nat in Hx by lia.
          cbn in Hi, Hx. injection Hi as <-. injection Hx as <-. exact HB. }
    destruct (K (transforms c) HL) as (q & st' & E & Lq & Hq). eauto.
  Qed.

  (** The seed matters for the first draw of the process only. *)
  Lemma random_seed_ignored t1 t2 g : jmin t1 = jmin t2 -> jmax t1 = jmax t2 ->
    createRandomJointValue seeded uniform t1 (Some g) = createRandomJointValue seeded uniform t2 (Some g).
  Proof. intros H1 H2. unfold createRandomJointValue. rewrite H1, H2. reflexivity. Qed.
End Random.

(** ** Concrete chains for the examples *)
Definition ex_chain : dh_chain :=
  DHChain [DHT (V4 1 0 0 (PI / 2)) REVOLUTE 2 (-2) "shoulder" 7; DHT (V4 0 (PI / 2) 3 0) LINEAR 1 0 "slide" 8]
          (iso_trans (V3 0 0 5)).
Definition ex_offsets : matrix := Mat 2 4 (fun i j => INR (i + j) / 100).
Lemma ex_chain_known n : known_types ex_chain n.
Proof. intros [|[|i]] t _ H; cbn in H; [ injection H as <-; discriminate | injection H as <-; discriminate | destruct i; discriminate ]. Qed.
Lemma ex_chain_rigid : rigid (base_offset ex_chain).
Proof. apply rigid_trans. Qed.
Lemma ex_fk : exists T, getFK ex_chain [1; 1/2] ex_offsets = Ok T /\ rigid T.
Proof.
  destruct (proj2 (fk_ok_iff ex_chain [1; 1/2] ex_offsets)) as (T & E).
  - repeat split; [ cbn; lia | cbn; lia | apply ex_chain_known ].
  - exists T. split; [ exact E | eapply fk_rigid; [ apply ex_chain_rigid | exact E ] ].
Qed.
Lemma ex_bake seeds : exists c', bake_offsets seeds ex_chain ex_offsets = Ok c'.
Proof. apply bake_exists. cbn. lia. Qed.

Lemma names_lost : exists seeds c offs c', bake_offsets seeds c offs = Ok c' /\
  (dof c <= rows offs)%nat /\
  map jname (transforms c') <> map jname (transforms c) /\
  map jmax (transforms c') <> map jmax (transforms c) /\
  map jmin (transforms c') <> map jmin (transforms c) /\
  chainParamLabels c' <> chainParamLabels c.
Proof.
  exists (fun _ => 0%nat), ex_chain, ex_offsets.
  destruct (ex_bake (fun _ => 0%nat)) as (c' & E). exists c'. split; [ exact E | ].
  split; [ cbn; lia | ].
  assert (L : length (transforms c') = 2%nat) by (apply (bake_shape _ _ _ _ E)).
  destruct (transforms c') as [|t1 [|t2 [|]]] eqn:T; cbn in L; try discriminate.
  destruct (bake_resets _ _ _ _ t1 E) as (R1 & R2 & R3); [ rewrite T; left; reflexivity | ].
  pose proof PI2_1. split; [ | split; [ | split ] ].
  - intros H1. injection H1 as H1 _. rewrite R1 in H1. discriminate.
  - intros H1. injection H1 as H1 _. rewrite R2 in H1. lra.
  - intros H1. injection H1 as H1 _. rewrite R3 in H1. lra.
  - intros H1. apply (proj1 (bake_labels_iff _ _ _ _ E)) with (t := DHT (V4 1 0 0 (PI / 2)) REVOLUTE 2 (-2) "shoulder" 7) in H1;
      [ discriminate | left; reflexivity ].
Qed.

(** A toy generator: the state counts draws, and decides the value. *)
Definition toy_uniform (a b : R) (g : nat) : R * nat := (a + (b - a) / INR (S g), S g).
Lemma toy_contract a b g : a <= b -> a <= fst (toy_uniform a b g) <= b.
Proof.
  intros H. cbn [toy_uniform fst]. assert (P : 1 <= INR (S g)) by (apply (le_INR 1); lia).
  assert (Q : 0 < / INR (S g) <= 1).
  { split; [ apply Rinv_0_lt_compat; lra | rewrite <- Rinv_1; apply Rinv_le_contravar; lra ]. }
  unfold Rdiv. nra.
Qed.
Lemma seed_not_honoured : exists (G : Type) (seeded : nat -> G) (uniform : R -> R -> G -> R * G) (first t : dh_transform) v1 st v,
  (forall a b g, a <= b -> a <= fst (uniform a b g) <= b) /\
  createRandomJointValue seeded uniform first None = Ok (v1, st) /\
  createRandomJointValue seeded uniform t None = Ok (v, Some (snd (uniform (jmin t) (jmax t) (seeded (random_seed t))))) /\
  createRandomJointValue seeded uniform t st <> Ok (v, Some (snd (uniform (jmin t) (jmax t) (seeded (random_seed t))))).
Proof.
  pose (t s := DHT (V4 0 0 0 0) REVOLUTE 1 0 "j" s).
  exists nat, (fun s => s), toy_uniform, (t 5%nat), (t 0%nat). eexists _, _, _.
  split; [ exact toy_contract | ].
  unfold createRandomJointValue. cbn [t jmin jmax random_seed].
  destruct (Rle_dec 0 1) as [_|]; [ | lra ].
  split; [ reflexivity | split; [ reflexivity | ] ].
  cbn [toy_uniform]. intros H. injection H as H1. lra.
Qed.
Lemma ex_limits : limits_ok ex_chain.
Proof. intros t [<-|[<-|[]]]; cbn; lra. Qed.
